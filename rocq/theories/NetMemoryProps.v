(** C66: the gradients of a network created from an architecture are the derivatives of its
    loss, in the memory of the network. *)
From Coq Require Import String Ascii List ZArith QArith Reals Bool Lia.
From Verif Require Import NumBase NumpyModel LayersModel NetworkModel NetworkProps NetLayersModel NetLayersProps MemoryPassModel MemoryPassProofs.
From Verif Require Import HubModel LayoutModel BuffersModel BuffersProofs.
From Verif Require Import PyBase PyFacts UtilsModel NamesModel ArchModel ShapesModel SetupModel SetupProps InstanceProofs InstanceProps NetLayoutExtra NetLayoutProofs NetLayoutProps CellsProofs NetMemoryModel NetMemoryProofs.
Import ListNotations.
Open Scope string_scope.
Open Scope list_scope.
Open Scope nat_scope.

(** Every layer is run at a point where it is differentiable ([m] is the memory after the
    forward pass). *)
Definition smooth (layers : list linst) (hubs : list hub) (lay : slices) (e : env) (T B : nat) (m : vec) : Prop :=
  forall l, In l (tl layers) -> let L := mlayer_of layers hubs lay e T B l in k_ok (m_kind L m) (read (m_par L) m) (read (m_in L) m).

(** Without time and batch dimension and without context the array is the data. *)
Lemma fixed_shape a layers l p b T B : instantiate a = SOk layers -> In l layers -> In (p, b) (li_params l) -> array_shape b T B = data_shape b T B.
Proof.
  intros HI Hl Hb. destruct (instantiate_made _ _ HI) as [cns [order [_ [_ [_ [_ H]]]]]]. destruct (made_extra _ _ _ _ (H l Hl)) as [F _]. unfold all_fixed in F.
  destruct (F p b Hb) as [ds E]. unfold array_shape, data_shape. rewrite E. rewrite !map_map. apply map_ext. reflexivity.
Qed.
Lemma index_position shape idx : Forall2 lt idx shape -> exists j, j < length (all_indices shape) /\ nth j (all_indices shape) [] = idx.
Proof. intros H. apply all_indices_spec in H. apply (In_nth _ _ []) in H. exact H. Qed.
Lemma nth_cells v shape j idx : j < length (all_indices shape) -> nth j (all_indices shape) [] = idx -> nth j (map (address v) (all_indices shape)) 0 = address v idx.
Proof. intros H <-. rewrite (nth_indep _ 0 (address v [])) by now rewrite map_length. apply map_nth. Qed.

Theorem C66_gradients : forall a layers hubs lay e T B m,
  named a -> instantiate a = SOk layers -> create_layout (map layout_layer layers) = LOk (hubs, lay) -> nonnegative layers ->
  (forall l, In l (tl layers) -> supported l = true) -> differentiable layers = true ->
  let forward := net_forward_pass layers hubs lay e T B in
  let backward := net_backward_pass layers hubs lay e T B in
  let loss := net_loss layers hubs lay e T B in
  smooth layers hubs lay e T B (forward m) ->
  forall l p v w idx, In l layers -> In p (par_names l) ->
  view layers hubs lay (S T) B l "parameters" p = Some v -> view layers hubs lay (S T) B l "gradients" p = Some w -> in_range v idx ->
  D (m (address v idx)) (fun r => loss (forward (NetworkModel.upd (address v idx) r m))) (backward (forward m) (address w idx)).
Proof.
  intros a layers hubs lay e T B m HN HI HL HZ HS HD fwd bwd loss OK l p v w idx Hl Hp Hv Hw Hr.
  assert (Hb : exists b, In (p, b) (li_params l)).
  { unfold par_names in Hp. apply filter_In in Hp. destruct Hp as [Hp _]. apply in_map_iff in Hp. destruct Hp as [[q b] [<- Hb]]. now exists b. }
  destruct Hb as [b Hb].
  assert (Hl' : In l (tl layers)).
  { destruct layers as [|l0 r]; [destruct Hl|]. destruct Hl as [<-|Hl]; [|exact Hl]. exfalso. destruct (first_input a (l0 :: r) HN HI l0 r eq_refl) as [_ [E _]]. rewrite E in Hb. destruct Hb. }
  destruct (cells_view a layers hubs lay HN HI HL HZ (S T) B l "parameters" p b Hl Hb) as [v' [Ev [Sv Cv]]].
  destruct (cells_view a layers hubs lay HN HI HL HZ (S T) B l "gradients" p b Hl Hb) as [w' [Ew [_ Cw]]].
  assert (v' = v) by congruence. assert (w' = w) by congruence. subst v' w'.
  unfold in_range in Hr. rewrite Sv, (fixed_shape a layers l p b (S T) B HI Hl Hb) in Hr.
  destruct (index_position _ _ Hr) as [j [Hj Ej]].
  assert (X := net_gradient a layers hubs lay HN HI HL HZ HS HD e T B m l p j OK Hl' Hp). cbv zeta in X. rewrite Cv, Cw, map_length in X. specialize (X Hj).
  rewrite !(nth_cells _ _ _ _ Hj Ej) in X. exact X.
Qed.
Print Assumptions C66_gradients.

Theorem C66_input_deltas : forall a l0 r hubs lay e T B m,
  let layers := l0 :: r in
  named a -> instantiate a = SOk layers -> create_layout (map layout_layer layers) = LOk (hubs, lay) -> nonnegative layers ->
  (forall l, In l r -> supported l = true) -> differentiable layers = true ->
  let forward := net_forward_pass layers hubs lay e T B in
  let backward := net_backward_pass layers hubs lay e T B in
  let loss := net_loss layers hubs lay e T B in
  smooth layers hubs lay e T B (forward m) ->
  forall x v w idx, In x (map fst (li_out l0)) ->
  (* no layer takes the data as targets or as a mask *)
  (forall l c, In l r -> In c (li_incoming l) -> c_start c = li_name l0 -> c_out c = x -> ~ In (c_in c) ["targets"; "mask"]) ->
  view layers hubs lay (S T) B l0 "outputs" x = Some v -> view layers hubs lay (S T) B l0 "output_deltas" x = Some w -> in_range v idx ->
  D (m (address v idx)) (fun s => loss (forward (NetworkModel.upd (address v idx) s m))) (backward (forward m) (address w idx)).
Proof.
  intros a l0 r hubs lay e T B m layers HN HI HL HZ HS HD fwd bwd loss OK x v w idx Hx NC Hv Hw Hr.
  assert (Hl : In l0 layers) by now left. assert (Hx' := Hx). apply in_map_iff in Hx'. destruct Hx' as [[x' b] [Ex Hb]]. cbn [fst] in Ex. subst x'.
  destruct (cells_view a layers hubs lay HN HI HL HZ (S T) B l0 "outputs" x b Hl Hb) as [v' [Ev [Sv Cv]]].
  destruct (cells_view a layers hubs lay HN HI HL HZ (S T) B l0 "output_deltas" x b Hl Hb) as [w' [Ew [_ Cw]]].
  assert (v' = v) by congruence. assert (w' = w) by congruence. subst v' w'.
  destruct (first_input a layers HN HI l0 r eq_refl) as [_ [_ Cx]]. specialize (Cx x b Hb).
  assert (Sh : array_shape b (S T) B = data_shape b (S T) B) by (unfold array_shape, data_shape; rewrite Cx; apply map_ext; intros []; try reflexivity; cbn; lia).
  unfold in_range in Hr. rewrite Sv, Sh in Hr. destruct (index_position _ _ Hr) as [j [Hj Ej]].
  assert (X := net_input_delta a layers hubs lay HN HI HL HZ HS HD e T B m l0 r x j OK eq_refl Hx). cbv zeta in X. rewrite Cv, Cw, map_length in X.
  rewrite !(nth_cells _ _ _ _ Hj Ej) in X. apply X; [exact Hj|].
  intros l c Hlr Hc E1 E2 H. apply (NC l c Hlr Hc E1 E2). destruct (li_cls l); cbn in H |- *; tauto.
Qed.
Print Assumptions C66_input_deltas.

(** ** Example *)
(** A network for sequences: the layers Lstm and FC1 get the data, Out gets both of their
    outputs side by side and is compared to targets; 3 time steps of 2 sequences. *)
Definition regression_net : karch :=
  [entry "Input" "Input" [("default", ["FC1"; "Lstm"]); ("targets", ["SE.targets"])]
     [("out_shapes", KDict [("default", tb_shape [2%Z]); ("targets", tb_shape [1%Z])])];
   entry "Lstm" "Lstm" [("default", ["Out"])] [("size", KInt 2)];
   entry "FC1" "FullyConnected" [("default", ["Out"])] [("size", KInt 3); ("activation", KStr "tanh")];
   entry "Out" "FullyConnected" [("default", ["SE"])] [("size", KInt 1); ("activation", KStr "linear")];
   entry "SE" "SquaredError" [("loss", ["Loss"])] [];
   entry "Loss" "Loss" [] []].
Lemma regression_net_named : named regression_net.
Proof.
  constructor.
  - apply nodup_b_ok. reflexivity.
  - intros n r kw H E. cbn [In regression_net entry] in H. destruct H as [H|[H|[H|[H|[H|[H|[]]]]]]]; injection H as <- <- <-; try discriminate E.
    apply names_b_ok. reflexivity.
Qed.
Definition smooth_class (l : linst) : Prop :=
  match li_cls l with CFullyConnected | CLstm => the_act l <> Rel | CSquaredError | CLoss => True | _ => False end.
Lemma smooth_kinds e T B l tg tm p x : smooth_class l -> k_ok (kind_of e T B l tg tm) p x.
Proof.
  unfold smooth_class, kind_of. destruct (li_cls l); intros H; try contradiction; cbn [k_ok]; try exact I; intros E; contradiction.
Qed.
Example C66_example : forall e m,
  let layers := layers_of regression_net in
  let hubs := fst (layout_of regression_net) in
  let lay := snd (layout_of regression_net) in
  named regression_net /\ instantiate regression_net = SOk layers /\ create_layout (map layout_layer layers) = LOk (hubs, lay) /\ nonnegative layers /\
  (forall l, In l (tl layers) -> supported l = true) /\ differentiable layers = true /\
  smooth layers hubs lay e 2 2 m /\ map li_name layers = ["Input"; "FC1"; "Lstm"; "Out"; "SE"; "Loss"] /\
  map (fun l => (li_name l, par_names l)) (tl layers) =
    [("FC1", ["W"; "bias"]); ("Lstm", ["Wz"; "Wi"; "Wf"; "Wo"; "pi"; "pf"; "po"; "Rz"; "Ri"; "Rf"; "Ro"; "bz"; "bi"; "bf"; "bo"]); ("Out", ["W"; "bias"]); ("SE", []); ("Loss", [])].
Proof.
  intros e m layers hubs lay. split; [apply regression_net_named|]. split; [vm_compute; reflexivity|]. split; [vm_compute; reflexivity|].
  split; [apply nonnegative_b_ok; vm_compute; reflexivity|].
  split; [apply forallb_forall; vm_compute; reflexivity|]. split; [vm_compute; reflexivity|]. split; [|split; vm_compute; reflexivity].
  intros l Hl L. unfold L, mlayer_of. cbn [m_kind m_par m_in].
  assert (G : Forall smooth_class (tl layers)).
  { let X := eval vm_compute in (tl (layers_of regression_net)) in change (tl layers) with X. repeat constructor; discriminate. }
  rewrite Forall_forall in G. exact (smooth_kinds e 2 2 l _ _ _ _ (G l Hl)).
Qed.
(** Its data are used as an input of layers, not as targets or mask.  Some addresses: the
    element 2,1 of the weights of FC1 and its gradient, the element 2,1,0 of the data and its delta. *)
Example C66_example_places :
  let layers := layers_of regression_net in
  let place k cat x idx :=
    match nth_error layers k with
    | Some l => option_map (fun v => address v idx) (view layers (fst (layout_of regression_net)) (snd (layout_of regression_net)) 3 2 l cat x)
    | None => None
    end in
  [place 1 "parameters" "W" [2; 1]; place 1 "gradients" "W" [2; 1]; place 0 "outputs" "default" [2; 1; 0]; place 0 "output_deltas" "default" [2; 1; 0]] = [Some 5; Some 309; Some 72; Some 376] /\
  (forall l c, In l (tl layers) -> In c (li_incoming l) -> c_start c = "Input" -> c_out c = "default" -> ~ In (c_in c) ["targets"; "mask"]).
Proof.
  intros layers place. split; [vm_compute; reflexivity|].
  assert (H : forallb (fun l => forallb (fun c => negb (String.eqb (c_start c) "Input" && String.eqb (c_out c) "default" && smem (c_in c) ["targets"; "mask"])) (li_incoming l)) (tl layers) = true) by (vm_compute; reflexivity).
  intros l c Hl Hc E1 E2 H'. rewrite forallb_forall in H. specialize (H l Hl). rewrite forallb_forall in H. specialize (H c Hc). rewrite E1, E2, (proj2 (smem_In _ _) H') in H. discriminate H.
Qed.
