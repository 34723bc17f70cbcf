(** C67: training a network created from an architecture.  Every update of a stepper moves each
    parameter, where it lies in the memory of the network, by the rule of the stepper with the
    derivative of the batch's loss with respect to this parameter; BatchNorm layers average the
    means and deviations of their inputs. *)
From Coq Require Import String Ascii List ZArith QArith Reals Bool Lia Lra Arith FunctionalExtensionality.
From Verif Require Import NumBase NumpyModel LayersModel NetworkModel NetworkProps NetLayersModel NetLayersProps MemoryPassModel MemoryPassProofs.
From Verif Require Import HubModel LayoutModel BuffersModel BuffersProofs.
From Verif Require Import PyBase PyFacts UtilsModel NamesModel ArchModel ShapesModel SetupModel SetupProps InstanceProofs InstanceProps NetLayoutExtra NetLayoutProofs NetLayoutProps CellsProofs NetMemoryModel NetMemoryProofs NetMemoryProps SchedulesModel TrainNetModel TrainNetProofs.
Import ListNotations.
Open Scope string_scope.
Open Scope list_scope.
Open Scope nat_scope.

(** The elements of the parameters of the layers are the elements of net.buffer.parameters, each
    once, in an order that does not depend on the size of the batch. *)
Theorem C67_elements : forall a layers hubs lay,
  named a -> instantiate a = SOk layers -> create_layout (map layout_layer layers) = LOk (hubs, lay) -> nonnegative layers ->
  exists total,
  (forall l p b idx, In l layers -> In (p, b) (li_params l) -> Forall2 lt idx (fdims b) -> exists k, k < total /\ is_element layers hubs lay k l p idx) /\
  (forall k, k < total -> exists l p idx, is_element layers hubs lay k l p idx) /\
  (forall k l p idx, is_element layers hubs lay k l p idx -> k < total) /\
  (forall k l p idx l' p' idx', is_element layers hubs lay k l p idx -> is_element layers hubs lay k l' p' idx' -> l = l' /\ p = p' /\ idx = idx') /\
  forall T B, 0 < total -> length (whole layers hubs lay T B "parameters") = total /\ length (whole layers hubs lay T B "gradients") = total /\ NoDup (whole layers hubs lay T B "parameters").
Proof. intros a layers hubs lay HN HI HL HZ. exact (elements a layers hubs lay HN HI HL HZ). Qed.
Print Assumptions C67_elements.

Theorem C67_sgd : forall a layers hubs lay (rate : nat -> R) batches params n,
  named a -> instantiate a = SOk layers -> create_layout (map layout_layer layers) = LOk (hubs, lay) -> nonnegative layers ->
  (forall l, In l (tl layers) -> supported l = true) -> differentiable layers = true ->
  let run := fun n => training (fun k => sgd_step layers hubs lay (rate k)) batches n params in
  let theta := fun n => s_params (run n) in
  smooth_at layers hubs lay (batches n) (theta n) ->
  forall k l p idx, is_element layers hubs lay k l p idx -> ~ average l p ->
  exists g,
    theta (S n) k = (theta n k - rate n * g)%R /\
    (In p (par_names l) -> D (theta n k) (fun r => batch_loss layers hubs lay (batches n) (NetworkModel.upd k r (theta n))) g) /\
    (~ In p (par_names l) -> g = 0%R).
Proof.
  intros a layers hubs lay rate batches params n HN HI HL HZ HS HD run theta S k l p idx E NA. unfold theta in S |- *. set (s := run n) in *.
  assert (X := element_gradient a layers hubs lay HN HI HL HZ HS HD (batches n) (s_params s) k l p idx S E).
  assert (X0 := element_untrained a layers hubs lay HN HI HL HZ HS HD (batches n) (s_params s) k l p idx E). cbv zeta in X.
  eexists. split; [|split; [exact X|exact X0]].
  change (run (Datatypes.S n)) with (sgd_step layers hubs lay (rate n) (batches n) s). unfold sgd_step. cbn [s_params].
  rewrite (element_read a layers hubs lay HN HI HL HZ _ _ _ k l p idx E). unfold add_tt, mult_st.
  rewrite (element_kept a layers hubs lay HN HI HL HZ HS HD _ _ k l p idx E NA). lra.
Qed.
Print Assumptions C67_sgd.

Theorem C67_momentum : forall a layers hubs lay (rate momentum : nat -> R) scale batches params n,
  named a -> instantiate a = SOk layers -> create_layout (map layout_layer layers) = LOk (hubs, lay) -> nonnegative layers ->
  (forall l, In l (tl layers) -> supported l = true) -> differentiable layers = true ->
  let run := fun n => training (fun k => momentum_step layers hubs lay (rate k) (momentum k) scale) batches n params in
  let theta := fun n => s_params (run n) in
  let velocity := fun n => s_buf (run n) in
  let lr := fun n => if scale : bool then (rate n * (1 - momentum n))%R else rate n in
  smooth_at layers hubs lay (batches n) (theta n) ->
  forall k l p idx, is_element layers hubs lay k l p idx -> ~ average l p ->
  velocity 0 k = 0%R /\
  exists g,
    velocity (S n) k = (momentum n * velocity n k - lr n * g)%R /\
    theta (S n) k = (theta n k + velocity (S n) k)%R /\
    (In p (par_names l) -> D (theta n k) (fun r => batch_loss layers hubs lay (batches n) (NetworkModel.upd k r (theta n))) g) /\
    (~ In p (par_names l) -> g = 0%R).
Proof.
  intros a layers hubs lay rate momentum scale batches params n HN HI HL HZ HS HD run theta velocity lr S k l p idx E NA. split; [reflexivity|].
  unfold theta, velocity in S |- *. set (s := run n) in *.
  assert (X := element_gradient a layers hubs lay HN HI HL HZ HS HD (batches n) (s_params s) k l p idx S E).
  assert (X0 := element_untrained a layers hubs lay HN HI HL HZ HS HD (batches n) (s_params s) k l p idx E). cbv zeta in X.
  eexists. split; [|split; [|split; [exact X|exact X0]]].
  - change (run (Datatypes.S n)) with (momentum_step layers hubs lay (rate n) (momentum n) scale (batches n) s). unfold momentum_step, mult_add_st, mult_st, effective_rate, lr. cbn [s_buf]. destruct scale; lra.
  - change (run (Datatypes.S n)) with (momentum_step layers hubs lay (rate n) (momentum n) scale (batches n) s). unfold momentum_step. cbn [s_params s_buf].
    rewrite (element_read a layers hubs lay HN HI HL HZ _ _ _ k l p idx E). unfold add_tt at 1. rewrite (element_kept a layers hubs lay HN HI HL HZ HS HD _ _ k l p idx E NA). lra.
Qed.
Print Assumptions C67_momentum.

(** Nesterov's rule: the derivative is taken at the point reached by the momentum alone. *)
Theorem C67_nesterov : forall a layers hubs lay (rate momentum : nat -> R) scale batches params n,
  named a -> instantiate a = SOk layers -> create_layout (map layout_layer layers) = LOk (hubs, lay) -> nonnegative layers ->
  (forall l, In l (tl layers) -> supported l = true) -> differentiable layers = true ->
  let run := fun n => training (fun k => nesterov_step layers hubs lay (rate k) (momentum k) scale) batches n params in
  let theta := fun n => s_params (run n) in
  let velocity := fun n => s_buf (run n) in
  let ahead := fun n k => (theta n k + momentum n * velocity n k)%R in
  let lr := fun n => if scale : bool then (rate n * (1 - momentum n))%R else rate n in
  smooth_at layers hubs lay (batches n) (ahead n) ->
  forall k l p idx, is_element layers hubs lay k l p idx -> ~ average l p ->
  velocity 0 k = 0%R /\
  exists g,
    velocity (S n) k = (momentum n * velocity n k - lr n * g)%R /\
    theta (S n) k = (theta n k + velocity (S n) k)%R /\
    (In p (par_names l) -> D (ahead n k) (fun r => batch_loss layers hubs lay (batches n) (NetworkModel.upd k r (ahead n))) g) /\
    (~ In p (par_names l) -> g = 0%R).
Proof.
  intros a layers hubs lay rate momentum scale batches params n HN HI HL HZ HS HD run theta velocity ahead lr S k l p idx E NA. split; [reflexivity|].
  assert (A : ahead n = add_tt (mult_st (momentum n) (velocity n)) (theta n)) by (apply functional_extensionality; intros j; unfold ahead, add_tt, mult_st; lra).
  rewrite A in S |- *. clear A. unfold theta, velocity in S |- *. set (s := run n) in *. set (ah := add_tt (mult_st (momentum n) (s_buf s)) (s_params s)) in *.
  assert (X := element_gradient a layers hubs lay HN HI HL HZ HS HD (batches n) ah k l p idx S E).
  assert (X0 := element_untrained a layers hubs lay HN HI HL HZ HS HD (batches n) ah k l p idx E). cbv zeta in X.
  assert (R := prepared_again a layers hubs lay HN HI HL HZ (batches n) (mult_st (momentum n) (s_buf s)) (s_params s) k l p idx E). cbv zeta in R. fold ah in R.
  eexists. split; [|split; [|split; [exact X|exact X0]]].
  - change (run (Datatypes.S n)) with (nesterov_step layers hubs lay (rate n) (momentum n) scale (batches n) s). unfold nesterov_step. cbv zeta. rewrite R. unfold mult_add_st, mult_st, effective_rate, lr. cbn [s_buf]. destruct scale; lra.
  - change (run (Datatypes.S n)) with (nesterov_step layers hubs lay (rate n) (momentum n) scale (batches n) s). unfold nesterov_step. cbv zeta. rewrite R. cbn [s_params s_buf].
    rewrite (element_read a layers hubs lay HN HI HL HZ _ _ _ k l p idx E). unfold mult_add_st at 1 2. rewrite (element_kept a layers hubs lay HN HI HL HZ HS HD _ _ k l p idx E NA).
    unfold ah, add_tt. lra.
Qed.
Print Assumptions C67_nesterov.

(** ** The loss of a batch and the training depend on the data and the parameters, not on what else is in the memory. *)
Theorem C67_loss_data : forall a layers hubs lay b b' params params',
  named a -> instantiate a = SOk layers -> create_layout (map layout_layer layers) = LOk (hubs, lay) -> nonnegative layers ->
  (forall l, In l (tl layers) -> supported l = true) -> differentiable layers = true ->
  (exists k l p idx, is_element layers hubs lay k l p idx) ->
  same_data layers hubs lay b b' -> (forall k l p idx, is_element layers hubs lay k l p idx -> params k = params' k) ->
  batch_loss layers hubs lay b params = batch_loss layers hubs lay b' params'.
Proof.
  intros a layers hubs lay b b' params params' HN HI HL HZ HS HD [k [l [p [idx E]]]] S H.
  exact (batch_loss_same a layers hubs lay HN HI HL HZ HS HD k l p idx b b' params params' E S H).
Qed.
Print Assumptions C67_loss_data.

(** The moving averages of BatchNorm layers: no gradient moves them, each pass averages in the mean
    (negative) or the deviation of the layer's inputs. *)
Theorem C67_averages : forall a layers hubs lay st rate batches params n,
  named a -> instantiate a = SOk layers -> create_layout (map layout_layer layers) = LOk (hubs, lay) -> nonnegative layers ->
  (forall l, In l (tl layers) -> supported l = true) -> differentiable layers = true ->
  let run := fun n => training (step_of st layers hubs lay rate) batches n params in
  forall k l p j, is_element layers hubs lay k l p [j] -> li_cls l = CBatchNorm ->
  let rows := S (b_time (batches n)) * b_size (batches n) in
  let x := mat_of (nf (li_in l) "default") (read (cells layers hubs lay (S (b_time (batches n))) (b_size (batches n)) l "inputs" "default")
             (forward layers hubs lay (batches n) (prepared layers hubs lay (batches n) (visited st n (run n))))) in
  let decay := number (cf_scalar (li_cfg l)) in
  let mean := (Rsum rows (fun i => x i j) / INR rows)%R in
  let variance := (Rsum rows (fun i => (x i j - mean) * (x i j - mean)) / INR rows)%R in
  (p = "mu" -> s_params (run (S n)) k = (decay * s_params (run n) k - (1 - decay) * mean)%R) /\
  (p = "sigma" -> s_params (run (S n)) k = (decay * s_params (run n) k + (1 - decay) * sqrt (variance + number (cf_epsilon (li_cfg l))))%R).
Proof.
  intros a layers hubs lay st rate batches params n HN HI HL HZ HS HD run k l p j E Ec.
  assert (G : average l p -> s_params (run (S n)) k = new_average layers hubs lay (batches n) (visited st n (run n)) l p j (s_params (run n) k)).
  { intros Av. assert (NP : ~ In p (par_names l)) by (intros H; unfold par_names in H; apply filter_In in H; destruct H as [_ H]; destruct Av as [_ [<-|[<-|[]]]]; discriminate H).
    assert (U := fun b v => element_untrained a layers hubs lay HN HI HL HZ HS HD b v k l p [j] E NP).
    assert (Er := fun b v m => element_read a layers hubs lay HN HI HL HZ b v m k l p [j] E).
    assert (Ea := fun b v => element_average a layers hubs lay HN HI HL HZ HS HD b v k l p j E Av).
    assert (Pa := fun b u v => prepared_again a layers hubs lay HN HI HL HZ b u v k l p [j] E). cbv zeta in Pa.
    assert (V0 : forall mu scale, st = Momentum mu scale \/ st = Nesterov mu scale -> forall i, s_buf (run i) k = 0%R).
    { intros mu scale Hst i. induction i as [|i IHi]; [reflexivity|]. change (run (S i)) with (step_of st layers hubs lay rate i (batches i) (run i)).
      destruct Hst as [-> | ->]; cbn [step_of]; [unfold momentum_step|unfold nesterov_step; cbv zeta; rewrite Pa]; cbn [s_buf]; unfold mult_add_st, mult_st at 1; rewrite U, IHi; lra. }
    change (run (S n)) with (step_of st layers hubs lay rate n (batches n) (run n)). set (s := run n) in *.
    destruct st as [|mu scale|mu scale]; cbn [step_of visited].
    - unfold sgd_step. cbn [s_params]. rewrite Er. unfold add_tt, mult_st. rewrite U, Ea. lra.
    - unfold momentum_step. cbn [s_params]. rewrite Er. unfold add_tt, mult_add_st, mult_st. rewrite U, Ea. assert (X := V0 mu scale (or_introl eq_refl) n). fold s in X. rewrite X. lra.
    - replace (fun i => (s_params s i + mu n * s_buf s i)%R) with (add_tt (mult_st (mu n) (s_buf s)) (s_params s)) by (apply functional_extensionality; intros i; unfold add_tt, mult_st; lra).
      unfold nesterov_step. cbv zeta. rewrite Pa. cbn [s_params]. rewrite Er. unfold mult_add_st. rewrite U, Ea. assert (X := V0 mu scale (or_intror eq_refl) n). fold s in X.
      replace (add_tt (mult_st (mu n) (s_buf s)) (s_params s) k) with (s_params s k) by (unfold add_tt, mult_st; rewrite X; lra). lra. }
  intros rows x decay mean variance. split; intros Hp; subst p; [exact (G (conj Ec (or_introl eq_refl)))|exact (G (conj Ec (or_intror (or_introl eq_refl))))].
Qed.
Print Assumptions C67_averages.

Theorem C67_training_data : forall a layers hubs lay st rate batches batches' params params' n,
  named a -> instantiate a = SOk layers -> create_layout (map layout_layer layers) = LOk (hubs, lay) -> nonnegative layers ->
  (forall l, In l (tl layers) -> supported l = true) -> differentiable layers = true ->
  let run := fun n => training (step_of st layers hubs lay rate) batches n params in
  let run' := fun n => training (step_of st layers hubs lay rate) batches' n params' in
  (forall i, i < n -> same_data layers hubs lay (batches i) (batches' i)) ->
  (forall k l p idx, is_element layers hubs lay k l p idx -> params k = params' k) ->
  forall k l p idx, is_element layers hubs lay k l p idx -> s_params (run n) k = s_params (run' n) k /\ s_buf (run n) k = s_buf (run' n) k.
Proof.
  intros a layers hubs lay st rate batches batches' params params' n HN HI HL HZ HS HD run run'. induction n as [|n IH]; intros Sd Hp k l p idx E; [split; [exact (Hp k l p idx E)|reflexivity]|].
  specialize (IH ltac:(intros; apply Sd; lia) Hp). specialize (Sd n ltac:(lia)).
  change (run (S n)) with (step_of st layers hubs lay rate n (batches n) (run n)). change (run' (S n)) with (step_of st layers hubs lay rate n (batches' n) (run' n)).
  set (s := run n) in *. set (s' := run' n) in *. clearbody s s'. clear run run'.
  assert (Er := fun b v m => element_read a layers hubs lay HN HI HL HZ b v m k l p idx E).
  assert (Ek := fun b b' v v' => kept_same a layers hubs lay HN HI HL HZ HS HD b b' v v' k l p idx E).
  destruct st as [|mu scale|mu scale]; cbn [step_of visited] in *.
  - assert (G := gradient_same a layers hubs lay HN HI HL HZ HS HD _ _ _ _ k l p idx E Sd (fun k l p idx E => proj1 (IH k l p idx E))).
    unfold sgd_step. cbn [s_params s_buf]. rewrite !Er. unfold add_tt, mult_st. rewrite (Ek _ _ _ _ Sd (fun k l p idx E => proj1 (IH k l p idx E))), G. auto.
  - assert (G := gradient_same a layers hubs lay HN HI HL HZ HS HD _ _ _ _ k l p idx E Sd (fun k l p idx E => proj1 (IH k l p idx E))).
    unfold momentum_step. cbn [s_params s_buf]. rewrite !Er. unfold add_tt, mult_add_st, mult_st. rewrite (Ek _ _ _ _ Sd (fun k l p idx E => proj1 (IH k l p idx E))), G. destruct (IH k l p idx E) as [_ ->]. auto.
  - assert (Pa := fun b u v => prepared_again a layers hubs lay HN HI HL HZ b u v k l p idx E). cbv zeta in Pa.
    assert (Eq : forall k l p idx, is_element layers hubs lay k l p idx -> add_tt (mult_st (mu n) (s_buf s)) (s_params s) k = add_tt (mult_st (mu n) (s_buf s')) (s_params s') k).
    { intros k' l' p' idx' E'. destruct (IH k' l' p' idx' E') as [I1 I2]. unfold add_tt, mult_st. now rewrite I1, I2. }
    assert (G := gradient_same a layers hubs lay HN HI HL HZ HS HD _ _ _ _ k l p idx E Sd Eq).
    unfold nesterov_step. cbv zeta. rewrite !Pa. cbn [s_params s_buf]. rewrite !Er. unfold mult_add_st. rewrite (Ek _ _ _ _ Sd Eq), G. destruct (IH k l p idx E) as [_ I2]. unfold mult_st. now rewrite I2.
Qed.
Print Assumptions C67_training_data.

(** ** Example: the network of C66 on batches of different sizes.  All points are smooth. *)
Lemma regression_smooth b params : smooth_at (layers_of regression_net) (fst (layout_of regression_net)) (snd (layout_of regression_net)) b params.
Proof.
  unfold smooth_at. intros l Hl L. unfold L, mlayer_of. cbn [m_kind m_par m_in].
  assert (G : Forall smooth_class (tl (layers_of regression_net))).
  { let X := eval vm_compute in (tl (layers_of regression_net)) in change (tl (layers_of regression_net)) with X. repeat constructor; discriminate. }
  rewrite Forall_forall in G. exact (smooth_kinds _ _ _ l _ _ _ _ (G l Hl)).
Qed.
(** The addresses of all outputs of the Input layer are at most [n]. *)
Definition data_below (layers : list linst) (hubs : list hub) (lay : slices) (T B n : nat) : bool :=
  match layers with
  | l0 :: _ => forallb (fun xb => match view layers hubs lay T B l0 "outputs" (fst xb) with Some v => forallb (fun idx => address v idx <=? n) (all_indices (a_shape v)) | None => true end) (li_out l0)
  | [] => true
  end.
Lemma stale_data layers hubs lay T B n e m z : data_below layers hubs lay (S T) B n = true ->
  same_data layers hubs lay (mkBatch T B e m) (mkBatch T B e (fun A => if n <? A then z else m A)).
Proof.
  intros F. split; [reflexivity|]. split; [reflexivity|]. split; [reflexivity|]. intros l0 r x v idx El Hx Ev Hi. cbn [b_mem b_time b_size] in *.
  assert (A : address v idx <= n).
  { unfold data_below in F. rewrite El in F at 1. rewrite forallb_forall in F. apply in_map_iff in Hx. destruct Hx as [[x' b] [Ex Hb]]. cbn [fst] in Ex. subst x'. specialize (F _ Hb). cbn [fst] in F.
    rewrite Ev in F. rewrite forallb_forall in F. apply Nat.leb_le, F. apply all_indices_spec. exact Hi. }
  destruct (Nat.ltb_spec n (address v idx)); [lia|reflexivity].
Qed.
Lemma element_at a layers hubs lay k i name p b l v idx : named a -> instantiate a = SOk layers -> create_layout (map layout_layer layers) = LOk (hubs, lay) -> nonnegative layers ->
  nth_error layers i = Some l -> li_name l = name -> dget p (li_params l) = Some b -> Forall2 lt idx (fdims b) ->
  view layers hubs lay 1 1 l "parameters" p = Some v -> nth_error (whole layers hubs lay 1 1 "parameters") k = Some (address v idx) -> is_element layers hubs lay k l p idx.
Proof.
  intros HN HI HL HZ E1 E2 E4 E5 E6 E7. apply nth_error_In in E1. apply dget_In in E4.
  destruct (elements a layers hubs lay HN HI HL HZ) as [total [At [_ [_ [_ Le]]]]].
  destruct (At l p b idx E1 E4 E5) as [j [Hj E]]. destruct (Le 1 1 ltac:(lia)) as [L1 [_ ND]].
  assert (Ek := E). destruct Ek as [_ [_ Ek]]. specialize (Ek 1 1 v E6). replace k with j; [exact E|]. apply (proj1 (NoDup_nth_error _) ND); [lia|congruence].
Qed.
(** Element 5 of the parameters is element 2,1 of the weights of FC1. *)
Example C67_example : forall e m,
  let layers := layers_of regression_net in
  let hubs := fst (layout_of regression_net) in
  let lay := snd (layout_of regression_net) in
  named regression_net /\ instantiate regression_net = SOk layers /\ create_layout (map layout_layer layers) = LOk (hubs, lay) /\ nonnegative layers /\
  (forall l, In l (tl layers) -> supported l = true) /\ differentiable layers = true /\
  (exists l, li_name l = "FC1" /\ In "W" (par_names l) /\ is_element layers hubs lay 5 l "W" [2; 1]) /\
  (forall b params, smooth_at layers hubs lay b params) /\
  length (whole layers hubs lay 3 2 "parameters") = 9 + 46 + 6 /\
  (* stale contents of the internals are no part of the data *)
  same_data layers hubs lay (mkBatch 2 2 e m) (mkBatch 2 2 e (fun A => if 200 <? A then 7%R else m A)).
Proof.
  intros e m layers hubs lay. destruct (C66_example e m) as [HN [HI [HL [HZ [HS [HD _]]]]]]. fold layers hubs lay in HN, HI, HL, HZ, HS, HD.
  do 6 (split; [assumption|]). split; [|split; [exact regression_smooth|split; [vm_compute; reflexivity|]]].
  - assert (X : exists l b v, nth_error layers 1 = Some l /\ li_name l = "FC1" /\ par_names l = ["W"; "bias"] /\ dget "W" (li_params l) = Some b /\ fdims b = [3; 2] /\
      view layers hubs lay 1 1 l "parameters" "W" = Some v /\ nth_error (whole layers hubs lay 1 1 "parameters") 5 = Some (address v [2; 1])).
    { unfold layers, hubs, lay. do 3 eexists. split; [vm_compute; reflexivity|]. split; [vm_compute; reflexivity|]. split; [vm_compute; reflexivity|]. split; [vm_compute; reflexivity|]. split; [vm_compute; reflexivity|]. split; vm_compute; reflexivity. }
    clearbody layers hubs lay. destruct X as [l [b [v [E1 [E2 [E3 [E4 [E5 [E6 E7]]]]]]]]]. exists l. split; [exact E2|]. split; [rewrite E3; now left|].
    apply (element_at regression_net layers hubs lay 5 1 "FC1" "W" b l v [2; 1] HN HI HL HZ E1 E2 E4); [rewrite E5; repeat constructor|exact E6|exact E7].
  - apply stale_data. vm_compute. reflexivity.
Qed.
(** A network with a BatchNorm layer: element 5 of the parameters is the moving average of the mean of feature 1. *)
Definition normed_net : karch :=
  [entry "Input" "Input" [("default", ["BN"]); ("targets", ["SE.targets"])]
     [("out_shapes", KDict [("default", tb_shape [2%Z]); ("targets", tb_shape [1%Z])])];
   entry "BN" "BatchNorm" [("default", ["Out"])] [];
   entry "Out" "FullyConnected" [("default", ["SE"])] [("size", KInt 1); ("activation", KStr "linear")];
   entry "SE" "SquaredError" [("loss", ["Loss"])] [];
   entry "Loss" "Loss" [] []].
Example C67_averages_example :
  let layers := layers_of normed_net in
  let hubs := fst (layout_of normed_net) in
  let lay := snd (layout_of normed_net) in
  named normed_net /\ instantiate normed_net = SOk layers /\ create_layout (map layout_layer layers) = LOk (hubs, lay) /\ nonnegative layers /\
  (forall l, In l (tl layers) -> supported l = true) /\ differentiable layers = true /\
  exists l, li_cls l = CBatchNorm /\ li_name l = "BN" /\ is_element layers hubs lay 5 l "mu" [1] /\ cf_scalar (li_cfg l) = KNum (9 # 10).
Proof.
  intros layers hubs lay.
  assert (HN : named normed_net).
  { constructor; [apply nodup_b_ok; reflexivity|]. intros n r kw H E. cbn [In normed_net entry] in H. destruct H as [H|[H|[H|[H|[H|[]]]]]]; injection H as <- <- <-; try discriminate E. apply names_b_ok. reflexivity. }
  assert (HI : instantiate normed_net = SOk layers) by (vm_compute; reflexivity).
  assert (HL : create_layout (map layout_layer layers) = LOk (hubs, lay)) by (vm_compute; reflexivity).
  assert (HZ : nonnegative layers) by (apply nonnegative_b_ok; vm_compute; reflexivity).
  do 4 (split; [assumption|]). split; [apply forallb_forall; vm_compute; reflexivity|]. split; [vm_compute; reflexivity|].
  assert (X : exists l b v, nth_error layers 1 = Some l /\ li_name l = "BN" /\ li_cls l = CBatchNorm /\ cf_scalar (li_cfg l) = KNum (9 # 10) /\ dget "mu" (li_params l) = Some b /\ fdims b = [2] /\
    view layers hubs lay 1 1 l "parameters" "mu" = Some v /\ nth_error (whole layers hubs lay 1 1 "parameters") 5 = Some (address v [1])).
  { unfold layers, hubs, lay. do 3 eexists. do 7 (split; [vm_compute; reflexivity|]). vm_compute; reflexivity. }
  clearbody layers hubs lay. destruct X as [l [b [v [E1 [E2 [E3 [E8 [E4 [E5 [E6 E7]]]]]]]]]]. exists l. split; [exact E3|]. split; [exact E2|]. split; [|exact E8].
  apply (element_at normed_net layers hubs lay 5 1 "BN" "mu" b l v [1] HN HI HL HZ E1 E2 E4); [rewrite E5; repeat constructor|exact E6|exact E7].
Qed.
