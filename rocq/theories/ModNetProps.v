(** C68: training a network created from an architecture with weight and gradient modifiers. *)
From Coq Require Import String Ascii List ZArith QArith Reals Bool Lia Lra Arith FunctionalExtensionality.
From Verif Require Import NumBase NumpyModel LayersModel LayersProps NetworkModel NetworkProps NetLayersModel NetLayersProps MemoryPassModel MemoryPassProofs.
From Verif Require Import HubModel LayoutModel BuffersModel BuffersProofs.
From Verif Require Import PyBase PyFacts UtilsModel NamesModel ArchModel ShapesModel SetupModel SetupProps InstanceProofs InstanceProps NetLayoutExtra NetLayoutProofs NetLayoutProps CellsProofs NetMemoryModel NetMemoryProofs NetMemoryProps SchedulesModel TrainNetModel TrainNetProofs TrainNetProps ModifiersModel ModifiersProps ModNetModel ModNetProofs.
Import ListNotations.
Open Scope string_scope.
Open Scope list_scope.
Open Scope nat_scope.

(** A network created from an architecture (the hypotheses of C66 and C67) *)
Record created (a : karch) (layers : list linst) (hubs : list hub) (lay : slices) : Prop := mkCreated {
  cr_named : named a;
  cr_layers : instantiate a = SOk layers;
  cr_layout : create_layout (map layout_layer layers) = LOk (hubs, lay);
  cr_sizes : nonnegative layers;
  cr_supported : forall l, In l (tl layers) -> supported l = true;
  cr_diff : differentiable layers = true
}.
(** The view of the parameter p (with structure b) of the layer l consists of the elements s, s+1, … of net.buffer.parameters. *)
Definition placed_at := at_view.
Definition size_of (b : bstruct) : nat := BuffersModel.prod (fdims b).

(** ** One call of apply_weight_modifiers, apply_gradient_modifiers *)
(** Every view is changed by its modifiers in their order, and nothing else is changed. *)
Theorem C68_weight_modifiers : forall a layers hubs lay fmax T B w m,
  created a layers hubs lay -> fits layers w ->
  let m' := snd (apply_weight_modifiers fmax layers hubs lay T B w m) in
  (forall l p b, In l layers -> In (p, b) (li_params l) ->
     let cells := CellsProofs.cells layers hubs lay T B l "parameters" p in
     read cells m' = snd (each (modify fmax (fdims b)) (lookup (li_name l, p) w) (read cells m))) /\
  forall A, (forall l p, In l layers -> ~ In A (CellsProofs.cells layers hubs lay T B l "parameters" p)) -> m' A = m A.
Proof.
  intros a layers hubs lay fmax T B w m [HN HI HL HZ HS HD] F m'. destruct (weights_spec a layers hubs lay HN HI HL HZ fmax T B w m F) as [_ [E2 E3]]. split.
  - intros l p b Hl Hb cells. assert (Hk : is_view layers (li_name l, p)) by (exists l, b; auto). destruct (E2 _ Hk) as [_ X].
    rewrite (view_cells_at a layers hubs lay HN HI l p T B "parameters" Hl), (view_shape_at a layers HN HI l p b Hl Hb) in X. exact X.
  - intros A HA. apply E3. intros key [l [b [Hl [En Hb]]]]. destruct key as [n p]. cbn [fst snd] in *. subst n. rewrite (view_cells_at a layers hubs lay HN HI l p T B "parameters" Hl). now apply HA.
Qed.
Print Assumptions C68_weight_modifiers.

Theorem C68_gradient_modifiers : forall a layers hubs lay fmax T B w m,
  created a layers hubs lay -> fits layers w ->
  let m' := snd (apply_gradient_modifiers fmax layers hubs lay T B w m) in
  (forall l p b, In l layers -> In (p, b) (li_params l) ->
     let cells := fun kind => CellsProofs.cells layers hubs lay T B l kind p in
     read (cells "gradients") m' = snd (each (modify_gradient fmax (fdims b) (read (cells "parameters") m)) (lookup (li_name l, p) w) (read (cells "gradients") m))) /\
  forall A, (forall l p, In l layers -> ~ In A (CellsProofs.cells layers hubs lay T B l "gradients" p)) -> m' A = m A.
Proof.
  intros a layers hubs lay fmax T B w m [HN HI HL HZ HS HD] F m'. destruct (gradients_spec a layers hubs lay HN HI HL HZ fmax T B w m F) as [_ [E2 E3]]. split.
  - intros l p b Hl Hb cells. assert (Hk : is_view layers (li_name l, p)) by (exists l, b; auto). destruct (E2 _ Hk) as [_ X].
    rewrite !(view_cells_at a layers hubs lay HN HI l p T B _ Hl), (view_shape_at a layers HN HI l p b Hl Hb) in X. exact X.
  - intros A HA. apply E3. intros key [l [b [Hl [En Hb]]]]. destruct key as [n p]. cbn [fst snd] in *. subst n. rewrite (view_cells_at a layers hubs lay HN HI l p T B "gradients" Hl). now apply HA.
Qed.
Print Assumptions C68_gradient_modifiers.

(** ** The training *)
Lemma train_fits a layers hubs lay fmax st rate batches w g params : created a layers hubs lay -> fits layers w -> fits layers g -> forall n,
  let x := train fmax layers hubs lay st rate batches n (start w g params) in fits layers (t_weight x) /\ fits layers (t_grad x).
Proof.
  intros [HN HI HL HZ HS HD] Fw Fg. induction n as [|n [I1 I2]]; cbv zeta; [now split|]. cbn [train]. set (x := train fmax layers hubs lay st rate batches n (start w g params)) in *.
  assert (G : forall b m, fits layers (fst (backward_modified fmax layers hubs lay b (t_grad x) m))).
  { intros b m. unfold backward_modified, fits. rewrite (proj1 (gradients_spec a layers hubs lay HN HI HL HZ fmax _ _ (t_grad x) _ I2)). exact I2. }
  unfold update. assert (R : fits layers (fst (fst (run_stepper fmax layers hubs lay st rate n (batches n) (t_grad x) (t_step x))))).
  { unfold run_stepper. cbv zeta. destruct st; match goal with |- context [backward_modified ?f ?l ?h ?y ?b ?g ?m] => assert (X := G b m); destruct (backward_modified f l h y b g m) end; exact X. }
  destruct (run_stepper _ _ _ _ _ _ _ _ _ _) as [[g' m] v]. cbn [fst] in R.
  assert (W := proj1 (weights_spec a layers hubs lay HN HI HL HZ fmax (S (b_time (batches n))) (b_size (batches n)) (t_weight x) m I1)).
  destruct (apply_weight_modifiers _ _ _ _ _ _ _ _) as [w' m']. cbn [fst] in W. cbn [t_weight t_grad]. split; [unfold fits; now rewrite W|exact R].
Qed.
Lemma train_view a layers hubs lay fmax st rate batches w g params : created a layers hubs lay -> fits layers w -> fits layers g -> forall n s l p b,
  placed_at layers hubs lay s l p b -> 0 < size_of b ->
  let x := train fmax layers hubs lay st rate batches n (start w g params) in
  let x' := train fmax layers hubs lay st rate batches (S n) (start w g params) in
  lookup (li_name l, p) (t_grad x') = fst (gradient_mods layers hubs lay fmax st n (batches n) x s l p b) /\ lookup (li_name l, p) (t_weight x') = fst (weight_mods layers hubs lay fmax st rate n (batches n) x s l p b) /\
  (forall j, j < size_of b -> s_buf (t_step x') (s + j) = (momentum_of st n * s_buf (t_step x) (s + j)%nat - rate_of st rate n * snd (gradient_mods layers hubs lay fmax st n (batches n) x s l p b) j)%R) /\
  forall j, j < size_of b -> s_params (t_step x') (s + j) = snd (weight_mods layers hubs lay fmax st rate n (batches n) x s l p b) j.
Proof.
  intros C Fw Fg n s l p b V H0 x x'. destruct (train_fits a layers hubs lay fmax st rate batches w g params C Fw Fg n) as [I1 I2]. fold x in I1, I2. destruct C as [HN HI HL HZ HS HD].
  destruct (update_view a layers hubs lay HN HI HL HZ fmax st rate n (batches n) x s l p b V I1 I2 H0) as [U1 [U2 [_ [_ [U3 U4]]]]]. auto.
Qed.
Lemma base_kept a layers hubs lay : created a layers hubs lay -> forall s l p b j bt point, placed_at layers hubs lay s l p b -> j < size_of b -> ~ average l p -> base layers hubs lay bt point (s + j) = point (s + j).
Proof.
  intros [HN HI HL HZ HS HD] s l p b j bt point V Hj NA. destruct (place_element layers hubs lay s l p b j V Hj) as [idx [E _]].
  exact (element_kept a layers hubs lay HN HI HL HZ HS HD bt point (s + j) l p idx E NA).
Qed.
Lemma cut_ext n u v : (forall j, j < n -> u j = v j) -> cut n u = cut n v.
Proof. intros H. apply functional_extensionality. intros j. unfold cut. destruct (Nat.ltb_spec j n); [now apply H|reflexivity]. Qed.
Lemma cut_at n v j : j < n -> cut n v j = v j.
Proof. intros H. unfold cut. now rewrite (proj2 (Nat.ltb_lt j n) H). Qed.
Lemma moved_kept a layers hubs lay fmax st rate n bt x : created a layers hubs lay -> forall s l p b, placed_at layers hubs lay s l p b -> ~ average l p ->
  let g := snd (gradient_mods layers hubs lay fmax st n bt x s l p b) in
  cut (size_of b) (moved layers hubs lay fmax st rate n bt x s l p b) =
  cut (size_of b) (fun j => (s_params (t_step x) (s + j)%nat + (momentum_of st n * s_buf (t_step x) (s + j)%nat - rate_of st rate n * g j))%R).
Proof.
  intros C s l p b V NA g. apply cut_ext. intros j Hj. unfold moved. cbv zeta. fold g. rewrite (base_kept a layers hubs lay C s l p b j bt _ V Hj NA). destruct st; cbn [visited momentum_of]; lra.
Qed.

(** One update of the view: the derivatives of the batch's loss are modified by the gradient
    modifiers, the stepper's rule is applied, the weight modifiers change the result. *)
Theorem C68_update : forall a layers hubs lay fmax st rate batches w g params n,
  created a layers hubs lay -> fits layers w -> fits layers g ->
  let run := fun n => train fmax layers hubs lay st rate batches n (start w g params) in
  let theta := fun n => s_params (t_step (run n)) in
  let velocity := fun n => s_buf (t_step (run n)) in
  let point := visited st n (t_step (run n)) in
  smooth_at layers hubs lay (batches n) point ->
  forall s l p b, placed_at layers hubs lay s l p b -> ~ average l p -> 0 < size_of b ->
  let wmods := lookup (li_name l, p) (t_weight (run n)) in
  let gmods := lookup (li_name l, p) (t_grad (run n)) in
  exists grad,
    (forall j, j < size_of b ->
       (In p (par_names l) -> D (point (s + j)) (fun r => batch_loss layers hubs lay (batches n) (NetworkModel.upd (s + j) r point)) (grad j)) /\
       (~ In p (par_names l) -> grad j = 0%R)) /\
    let dg := each (modify_gradient fmax (fdims b) (cut (size_of b) (fun j => point (s + j)))) gmods (cut (size_of b) grad) in
    let dw := each (modify fmax (fdims b)) wmods (cut (size_of b) (fun j => (theta n (s + j)%nat + velocity (S n) (s + j)%nat)%R)) in
    (forall j, j < size_of b ->
       velocity (S n) (s + j) = (momentum_of st n * velocity n (s + j)%nat - rate_of st rate n * snd dg j)%R /\
       theta (S n) (s + j) = snd dw j) /\
    lookup (li_name l, p) (t_grad (run (S n))) = fst dg /\ lookup (li_name l, p) (t_weight (run (S n))) = fst dw.
Proof.
  intros a layers hubs lay fmax st rate batches w g params n C Fw Fg run theta velocity point Sm s l p b V NA H0 wmods gmods.
  destruct (train_view a layers hubs lay fmax st rate batches w g params C Fw Fg n s l p b V H0) as [T1 [T2 [T3 T4]]]. fold (run n) (run (S n)) in T1, T2, T3, T4.
  exists (fun j => raw layers hubs lay (batches n) point (s + j)). split.
  { intros j Hj. destruct (place_element layers hubs lay s l p b j V Hj) as [idx [E _]]. destruct C as [HN HI HL HZ HS HD].
    split; [exact (element_gradient a layers hubs lay HN HI HL HZ HS HD (batches n) point (s + j) l p idx Sm E)|exact (element_untrained a layers hubs lay HN HI HL HZ HS HD (batches n) point (s + j) l p idx E)]. }
  intros dg dw. assert (Eg : gradient_mods layers hubs lay fmax st n (batches n) (run n) s l p b = dg).
  { unfold gradient_mods. fold point gmods. unfold dg, size_of. f_equal. f_equal. apply cut_ext. intros j Hj. exact (base_kept a layers hubs lay C s l p b j _ _ V Hj NA). }
  rewrite Eg in *.
  assert (Ew : weight_mods layers hubs lay fmax st rate n (batches n) (run n) s l p b = dw).
  { unfold weight_mods. fold (size_of b). rewrite (moved_kept a layers hubs lay fmax st rate n (batches n) (run n) C s l p b V NA). cbv zeta. rewrite Eg. fold wmods. unfold dw. f_equal. apply cut_ext. intros j Hj. unfold theta, velocity. now rewrite (T3 j Hj). }
  rewrite Ew in *. split; [|split; assumption]. intros j Hj. split; [exact (T3 j Hj)|exact (T4 j Hj)].
Qed.
Print Assumptions C68_update.

(** Without modifiers a view is trained as in C67. *)
Theorem C68_no_modifiers : forall a layers hubs lay fmax st rate batches params n,
  created a layers hubs lay -> t_step (train fmax layers hubs lay st rate batches n (start [] [] params)) = training (step_of st layers hubs lay rate) batches n params.
Proof.
  intros a layers hubs lay fmax st rate batches params n C.
  assert (G : train fmax layers hubs lay st rate batches n (start [] [] params) = mkT (training (step_of st layers hubs lay rate) batches n params) [] []); [|now rewrite G].
  induction n as [|n IH]; [reflexivity|]. cbn [train]. rewrite IH. change (training (step_of st layers hubs lay rate) batches (S n) params) with (step_of st layers hubs lay rate n (batches n) (training (step_of st layers hubs lay rate) batches n params)).
  set (s := training _ _ _ _). clearbody s. destruct st; reflexivity.
Qed.
Print Assumptions C68_no_modifiers.

(** ** Constraints hold after every update. *)
Lemma each_last {X} (f : X -> vec -> X * vec) xs y : forall v,
  each f (xs ++ [y]) v = (fst (each f xs v) ++ [fst (f y (snd (each f xs v)))], snd (f y (snd (each f xs v)))).
Proof.
  induction xs as [|x xs IH]; intros v; cbn [app each fst snd]; [destruct (f y v); reflexivity|].
  destruct (f x v) as [x' m1]. rewrite IH. destruct (each f xs m1). reflexivity.
Qed.
Definition stateless (y : vmod) : Prop := match y with VFreeze _ => False | _ => True end.
Lemma stateless_kept fmax shape y v : stateless y -> fst (modify fmax shape y v) = y.
Proof. destruct y; try contradiction; reflexivity. Qed.
Lemma last_kept a layers hubs lay fmax st rate batches w g params xs y : created a layers hubs lay -> fits layers w -> fits layers g -> stateless y ->
  forall s l p b, placed_at layers hubs lay s l p b -> 0 < size_of b -> lookup (li_name l, p) w = xs ++ [y] -> forall n,
  exists xs', lookup (li_name l, p) (t_weight (train fmax layers hubs lay st rate batches n (start w g params))) = xs' ++ [y].
Proof.
  intros C Fw Fg Hy s l p b V H0 E0. induction n as [|n [xs' IH]]; [now exists xs|].
  destruct (train_view a layers hubs lay fmax st rate batches w g params C Fw Fg n s l p b V H0) as [_ [T2 _]]. rewrite T2. unfold weight_mods. rewrite IH, each_last. cbn [fst]. rewrite (stateless_kept _ _ _ _ Hy). now eexists.
Qed.
Lemma last_applied a layers hubs lay fmax st rate batches w g params xs y : created a layers hubs lay -> fits layers w -> fits layers g -> stateless y ->
  forall s l p b, placed_at layers hubs lay s l p b -> 0 < size_of b -> lookup (li_name l, p) w = xs ++ [y] -> forall n, exists v,
  forall j, j < size_of b -> s_params (t_step (train fmax layers hubs lay st rate batches (S n) (start w g params))) (s + j) = snd (modify fmax (fdims b) y v) j.
Proof.
  intros C Fw Fg Hy s l p b V H0 E0 n. destruct (last_kept a layers hubs lay fmax st rate batches w g params xs y C Fw Fg Hy s l p b V H0 E0 n) as [xs' E].
  destruct (train_view a layers hubs lay fmax st rate batches w g params C Fw Fg n s l p b V H0) as [_ [_ [_ T4]]]. eexists. intros j Hj. rewrite (T4 j Hj). unfold weight_mods. rewrite E, each_last. cbn [snd]. reflexivity.
Qed.

(** ClipValues as the last modifier of a view: after every update all its weights are within the bounds. *)
Theorem C68_clip : forall a layers hubs lay fmax st rate batches w g params n xs low high,
  created a layers hubs lay -> fits layers w -> fits layers g -> (low <= high)%R ->
  forall s l p b, placed_at layers hubs lay s l p b -> lookup (li_name l, p) w = xs ++ [VClip low high] ->
  forall j, j < size_of b -> (low <= s_params (t_step (train fmax layers hubs lay st rate batches (S n) (start w g params))) (s + j)%nat <= high)%R.
Proof.
  intros a layers hubs lay fmax st rate batches w g params n xs low high C Fw Fg Hlh s l p b V E j Hj.
  destruct (last_applied a layers hubs lay fmax st rate batches w g params xs (VClip low high) C Fw Fg I s l p b V ltac:(lia) E n) as [v Hv]. rewrite (Hv j Hj). unfold modify. cbn [snd]. rewrite cut_at by exact Hj. apply (C37_clip low high v j Hlh).
Qed.
Print Assumptions C68_clip.
Theorem C68_mask : forall a layers hubs lay fmax st rate batches w g params n xs mask,
  created a layers hubs lay -> fits layers w -> fits layers g ->
  forall s l p b, placed_at layers hubs lay s l p b -> lookup (li_name l, p) w = xs ++ [VMask mask] ->
  forall j, j < size_of b -> mask j = 0%R -> s_params (t_step (train fmax layers hubs lay st rate batches (S n) (start w g params))) (s + j) = 0%R.
Proof.
  intros a layers hubs lay fmax st rate batches w g params n xs mask C Fw Fg s l p b V E j Hj M.
  destruct (last_applied a layers hubs lay fmax st rate batches w g params xs (VMask mask) C Fw Fg I s l p b V ltac:(lia) E n) as [v Hv]. rewrite (Hv j Hj). unfold modify. cbn [snd]. rewrite cut_at by exact Hj. unfold mask_values. rewrite M. lra.
Qed.
Print Assumptions C68_mask.

(** FreezeValues as the last modifier of a view: with given weights, after every update the view has
    them; without, it keeps the weights it has after the first update. *)
Theorem C68_freeze : forall a layers hubs lay fmax st rate batches w g params n xs given,
  created a layers hubs lay -> fits layers w -> fits layers g ->
  forall s l p b, placed_at layers hubs lay s l p b -> lookup (li_name l, p) w = xs ++ [VFreeze (freeze_new given)] ->
  let theta := fun n => s_params (t_step (train fmax layers hubs lay st rate batches n (start w g params))) in
  forall j, j < size_of b -> theta (S n) (s + j) = match given with Some values => values j | None => theta 1 (s + j) end.
Proof.
  intros a layers hubs lay fmax st rate batches w g params n xs given C Fw Fg s l p b V E theta j Hj. assert (H0 : 0 < size_of b) by lia.
  set (run := fun n => train fmax layers hubs lay st rate batches n (start w g params)).
  assert (G : exists u, (forall values, given = Some values -> u = values) /\ forall n, (exists xs', lookup (li_name l, p) (t_weight (run (S n))) = xs' ++ [VFreeze (mkFreeze (Some u) (Some u))]) /\ forall j, j < size_of b -> theta (S n) (s + j) = u j).
  { destruct (train_view a layers hubs lay fmax st rate batches w g params C Fw Fg 0 s l p b V H0) as [_ [T2 [_ T4]]]. fold (run 0) (run 1) in T2, T4.
    change (lookup (li_name l, p) (t_weight (run 0)) = xs ++ [VFreeze (freeze_new given)]) in E. unfold weight_mods in T2, T4. rewrite E, each_last in T2, T4.
    set (v := snd (each (modify fmax (fdims b)) xs (cut (BuffersModel.prod (fdims b)) (moved layers hubs lay fmax st rate 0 (batches 0) (run 0) s l p b)))) in *.
    exists (match given with Some values => values | None => v end). split; [intros values ->; reflexivity|].
    set (u := match given with Some values => values | None => v end).
    assert (M : modify fmax (fdims b) (VFreeze (freeze_new given)) v = (VFreeze (mkFreeze (Some u) (Some u)), cut (BuffersModel.prod (fdims b)) u)) by (unfold u; destruct given; reflexivity).
    rewrite M in T2, T4. cbn [fst snd] in T2, T4. clear E.
    induction n0 as [|k [[xs' I1] I2]].
    - split; [eexists; exact T2|]. intros i Hi. unfold theta. fold (run 1). rewrite (T4 i Hi). now apply cut_at.
    - destruct (train_view a layers hubs lay fmax st rate batches w g params C Fw Fg (S k) s l p b V H0) as [_ [U2 [_ U4]]]. fold (run (S k)) (run (S (S k))) in U2, U4.
      unfold weight_mods in U2, U4. rewrite I1, each_last in U2, U4. cbn [fst snd] in U2, U4. unfold modify in U2, U4. cbn [freeze_call fz_weights fz_device fst snd] in U2, U4.
      split; [eexists; exact U2|]. intros i Hi. unfold theta. fold (run (S (S k))). rewrite (U4 i Hi). now apply cut_at. }
  destruct G as [u [Gu G]]. rewrite (proj2 (G n) j Hj). destruct given as [values|]; [now rewrite (Gu values eq_refl)|]. symmetry. exact (proj2 (G 0) j Hj).
Qed.
Print Assumptions C68_freeze.

Lemma each_stateless fmax shape xs : Forall stateless xs -> forall v, fst (each (modify fmax shape) xs v) = xs.
Proof.
  induction 1 as [|x xs Hx _ IH]; intros v; [reflexivity|]. cbn [each]. assert (K := stateless_kept fmax shape x v Hx). destruct (modify fmax shape x v) as [x' v']. cbn [fst] in K. subst x'.
  specialize (IH v'). destruct (each (modify fmax shape) xs v'). cbn [fst] in *. now subst.
Qed.
Lemma all_kept a layers hubs lay fmax st rate batches w g params : created a layers hubs lay -> fits layers w -> fits layers g ->
  forall s l p b, placed_at layers hubs lay s l p b -> 0 < size_of b -> Forall stateless (lookup (li_name l, p) w) -> forall n,
  lookup (li_name l, p) (t_weight (train fmax layers hubs lay st rate batches n (start w g params))) = lookup (li_name l, p) w.
Proof.
  intros C Fw Fg s l p b V H0 E0. induction n as [|n IH]; [reflexivity|].
  destruct (train_view a layers hubs lay fmax st rate batches w g params C Fw Fg n s l p b V H0) as [_ [T2 _]]. rewrite T2. unfold weight_mods. rewrite IH. now apply each_stateless.
Qed.
(** The modifiers of the gradients of a view: no FreezeValues *)
Definition gstateless (y : gmod) : Prop := match y with GValue v => stateless v | _ => True end.
Lemma gstateless_kept fmax shape q y v : gstateless y -> fst (modify_gradient fmax shape q y v) = y.
Proof.
  destruct y as [x| |]; cbn [modify_gradient gstateless]; intros H; [|reflexivity|reflexivity]. assert (K := stateless_kept fmax shape x v H). destruct (modify fmax shape x v). cbn [fst] in *. now subst.
Qed.
Lemma each_gstateless fmax shape q xs : Forall gstateless xs -> forall v, fst (each (modify_gradient fmax shape q) xs v) = xs.
Proof.
  induction 1 as [|x xs Hx _ IH]; intros v; [reflexivity|]. cbn [each]. assert (K := gstateless_kept fmax shape q x v Hx). destruct (modify_gradient fmax shape q x v) as [x' v']. cbn [fst] in K. subst x'.
  specialize (IH v'). destruct (each (modify_gradient fmax shape q) xs v'). cbn [fst] in *. now subst.
Qed.
Lemma all_gkept a layers hubs lay fmax st rate batches w g params : created a layers hubs lay -> fits layers w -> fits layers g ->
  forall s l p b, placed_at layers hubs lay s l p b -> 0 < size_of b -> Forall gstateless (lookup (li_name l, p) g) -> forall n,
  lookup (li_name l, p) (t_grad (train fmax layers hubs lay st rate batches n (start w g params))) = lookup (li_name l, p) g.
Proof.
  intros C Fw Fg s l p b V H0 E0. induction n as [|n IH]; [reflexivity|].
  destruct (train_view a layers hubs lay fmax st rate batches w g params C Fw Fg n s l p b V H0) as [T1 _]. rewrite T1. unfold gradient_mods. rewrite IH. now apply each_gstateless.
Qed.

(** ConstrainL2Norm as the only modifier of a view: after every update the weights of each row (the
    incoming weights of a unit) have norm at most [limit], unless the row is [fmax] times too long. *)
Theorem C68_norm : forall a layers hubs lay fmax st rate batches w g params n limit,
  created a layers hubs lay -> fits layers w -> fits layers g -> (0 < limit)%R -> (1 <= fmax)%R ->
  forall s l p b rows cols, placed_at layers hubs lay s l p b -> ~ average l p -> lookup (li_name l, p) w = [VConstrain limit] ->
  2 <= length (fdims b) -> hd 0 (fdims b) = rows -> size_of b = rows * cols -> 0 < cols ->
  let run := fun n => t_step (train fmax layers hubs lay st rate batches n (start w g params)) in
  forall i, i < rows ->
  let place := fun j => s + (i * cols + j) in
  (norm cols (fun j => s_params (run n) (place j) + s_buf (run (S n)) (place j)) <= fmax * limit)%R ->
  (norm cols (fun j => s_params (run (S n)) (place j)) <= limit)%R.
Proof.
  intros a layers hubs lay fmax st rate batches w g params n limit C Fw Fg Hl Hf s l p b rows cols V NA E D2 Hr Hs Hc run i Hi place HN. assert (H0 : 0 < size_of b) by nia.
  destruct (train_view a layers hubs lay fmax st rate batches w g params C Fw Fg n s l p b V H0) as [_ [_ [T3 T4]]].
  assert (K := all_kept a layers hubs lay fmax st rate batches w g params C Fw Fg s l p b V H0 ltac:(rewrite E; repeat constructor) n). rewrite E in K.
  unfold weight_mods in T4. rewrite K in T4. cbn [each] in T4. change (BuffersModel.prod (fdims b)) with (size_of b) in T4. rewrite (moved_kept a layers hubs lay fmax st rate n (batches n) _ C s l p b V NA) in T4. cbv zeta in T4.
  set (G := snd (gradient_mods layers hubs lay fmax st n (batches n) (train fmax layers hubs lay st rate batches n (start w g params)) s l p b)) in *.
  set (v := cut (size_of b) (fun j => (s_params (run n) (s + j)%nat + s_buf (run (S n)) (s + j)%nat)%R)).
  assert (Ev : cut (size_of b) (fun j => (s_params (t_step (train fmax layers hubs lay st rate batches n (start w g params))) (s + j)%nat + (momentum_of st n * s_buf (t_step (train fmax layers hubs lay st rate batches n (start w g params))) (s + j)%nat - rate_of st rate n * G j))%R) = v).
  { apply cut_ext. intros j Hj. unfold run. now rewrite (T3 j Hj). }
  rewrite Ev in T4. unfold modify in T4. cbv zeta in T4. cbn [snd] in T4. rewrite Hr in T4. change (BuffersModel.prod (fdims b)) with (size_of b) in T4. rewrite Hs in T4. replace (rows * cols / rows) with cols in T4 by (rewrite Nat.mul_comm; symmetry; apply Nat.div_mul; lia).
  destruct (C37_constrain fmax limit (length (fdims b)) cols (mat_of cols v) i Hl Hf D2) as [X _].
  - replace (norm cols (mat_of cols v i)) with (norm cols (fun j => (s_params (run n) (place j) + s_buf (run (S n)) (place j))%R)); [exact HN|].
    unfold norm. f_equal. apply Rsum_ext. intros j Hj. unfold mat_of, v. rewrite !cut_at by (rewrite Hs; nia). reflexivity.
  - replace (norm cols (fun j => s_params (run (S n)) (place j))) with (norm cols (constrain_l2 fmax limit (length (fdims b)) cols (mat_of cols v) i)); [exact X|].
    unfold norm. f_equal. apply Rsum_ext. intros j Hj. assert (Q : i * cols + j < rows * cols) by nia.
    assert (Y : s_params (run (S n)) (place j) = constrain_l2 fmax limit (length (fdims b)) cols (mat_of cols v) i j).
    { unfold run, place. rewrite T4 by lia. rewrite cut_at by exact Q. rewrite (Nat.add_comm (i * cols) j), Nat.div_add, Nat.mod_add, Nat.div_small, Nat.mod_small by lia. reflexivity. }
    now rewrite Y.
Qed.
Print Assumptions C68_norm.

(** ** Decay of weights: training follows the loss with a penalty. *)
Lemma penalty_slope q j r0 (h : R -> R) (v : vec) h' : (j < q)%nat -> v j = r0 -> D r0 h h' ->
  D r0 (fun r => Rsum q (fun i => h (if i =? j then r else v i))) h'.
Proof.
  intros Hj E Hd. apply (D_eq _ _ (Rsum q (fun i => if i =? j then h' else 0%R))).
  - apply (D_sum r0 q (fun i r => h (if i =? j then r else v i))). intros i Hi. destruct (Nat.eqb_spec i j); [exact Hd|apply D_const].
  - rewrite (Rsum_single q j) by (first [assumption | intros i _ Hne; destruct (Nat.eqb_spec i j); [contradiction|reflexivity]]). now rewrite Nat.eqb_refl.
Qed.
Lemma upd_place s j r (point : vec) i : NetworkModel.upd (s + j) r point (s + i) = if i =? j then r else point (s + i).
Proof. unfold NetworkModel.upd. destruct (Nat.eqb_spec i j), (Nat.eqb_spec (s + i) (s + j)); try reflexivity; lia. Qed.

(** What the decay of a view adds to the loss, as a function of all parameters *)
Definition penalty (y : gmod) (s size : nat) (params : vec) : R :=
  match y with
  | GL1 factor => (factor * Rsum size (fun i => Rabs (params (s + i)%nat)))%R
  | GL2 factor => (factor / 2 * Rsum size (fun i => params (s + i)%nat * params (s + i)%nat))%R
  | GValue _ => 0%R
  end.
Definition decays (y : gmod) (x : R) : Prop := match y with GL1 _ => x <> 0%R | GL2 _ => True | GValue _ => False end.
Theorem C68_penalty : forall a layers hubs lay fmax st rate batches w g params n y,
  created a layers hubs lay -> fits layers w -> fits layers g ->
  let run := fun n => t_step (train fmax layers hubs lay st rate batches n (start w g params)) in
  let point := visited st n (run n) in
  smooth_at layers hubs lay (batches n) point ->
  forall s l p b, placed_at layers hubs lay s l p b -> In p (par_names l) -> ~ average l p -> lookup (li_name l, p) g = [y] ->
  forall j, j < size_of b -> decays y (point (s + j)) ->
  exists grad,
    D (point (s + j)) (fun r => let params := NetworkModel.upd (s + j) r point in (batch_loss layers hubs lay (batches n) params + penalty y s (size_of b) params)%R) grad /\
    s_buf (run (S n)) (s + j) = (momentum_of st n * s_buf (run n) (s + j)%nat - rate_of st rate n * grad)%R.
Proof.
  intros a layers hubs lay fmax st rate batches w g params n y C Fw Fg run point Sm s l p b V Hp NA E j Hj Hy. assert (H0 : 0 < size_of b) by lia.
  destruct (C68_update a layers hubs lay fmax st rate batches w g params n C Fw Fg Sm s l p b V NA H0) as [grad [G1 [G2 _]]]. destruct (G2 j Hj) as [Gv _]. destruct (G1 j Hj) as [Gd _]. specialize (Gd Hp).
  rewrite (all_gkept a layers hubs lay fmax st rate batches w g params C Fw Fg s l p b V H0) in Gv by (rewrite E; repeat constructor; destruct y; [destruct Hy|exact I|exact I]). rewrite E in Gv.
  fold (run n) (run (S n)) in Gv, Gd. fold point in Gv, Gd. cbn [each] in Gv.
  assert (B1 : forall r i, NetworkModel.upd (s + j) r point (s + i) = if i =? j then r else point (s + i)) by (intros; apply upd_place).
  destruct y as [x|f|f]; cbn [decays] in Hy; [destruct Hy| |]; cbn [modify_gradient snd] in Gv; rewrite cut_at in Gv by exact Hj; unfold l1_modifier, l2_modifier in Gv; rewrite !cut_at in Gv by exact Hj.
  - eexists. split; [|exact Gv]. cbv zeta. apply D_plus; [exact Gd|]. cbn [penalty]. apply D_scal.
    apply (D_ext _ (fun r => Rsum (size_of b) (fun i => Rabs (if i =? j then r else point (s + i)))) _ (sign (point (s + j)))); [intros r; apply Rsum_ext; intros i _; now rewrite B1|reflexivity|].
    apply (penalty_slope (size_of b) j (point (s + j)) Rabs (fun i => point (s + i))); [exact Hj|reflexivity|]. apply (D_eq _ _ (sign (point (s + j)%nat) * 1)%R); [|lra]. apply (D_abs _ (fun r => r)); [apply D_id|exact Hy].
  - eexists. split; [|exact Gv]. cbv zeta. apply D_plus; [exact Gd|]. cbn [penalty]. apply (D_eq _ _ (f / 2 * (2 * point (s + j)%nat))%R); [|lra]. apply D_scal.
    apply (D_ext _ (fun r => Rsum (size_of b) (fun i => (fun x => x * x)%R (if i =? j then r else point (s + i)))) _ (2 * point (s + j)%nat)%R); [intros r; apply Rsum_ext; intros i _; now rewrite B1|reflexivity|].
    apply (penalty_slope (size_of b) j (point (s + j)) (fun x => x * x)%R (fun i => point (s + i))); [exact Hj|reflexivity|]. apply (D_eq _ _ (1 * point (s + j)%nat + point (s + j)%nat * 1)%R); [|lra]. apply (D_mult _ (fun r => r) (fun r => r)); apply D_id.
Qed.
Print Assumptions C68_penalty.

(** L2Decay also shrinks parameters that no layer trains (the timing of Clockwork layers): with SGD by
    the factor 1 - rate * factor in every update. *)
Theorem C68_untrained_decay : forall a layers hubs lay fmax rate batches w g params n factor,
  created a layers hubs lay -> fits layers w -> fits layers g ->
  let theta := fun n => s_params (t_step (train fmax layers hubs lay Sgd rate batches n (start w g params))) in
  forall s l p b, placed_at layers hubs lay s l p b -> ~ In p (par_names l) -> ~ average l p ->
  lookup (li_name l, p) g = [GL2 factor] -> lookup (li_name l, p) w = [] ->
  forall j, j < size_of b -> theta (S n) (s + j) = (theta n (s + j)%nat * (1 - rate n * factor))%R.
Proof.
  intros a layers hubs lay fmax rate batches w g params n factor C Fw Fg theta s l p b V Hp NA E Ew j Hj. assert (H0 : 0 < size_of b) by lia.
  destruct (train_view a layers hubs lay fmax Sgd rate batches w g params C Fw Fg n s l p b V H0) as [_ [_ [_ T4]]]. unfold theta. rewrite (T4 j Hj). clear T4.
  unfold weight_mods. rewrite (all_kept a layers hubs lay fmax Sgd rate batches w g params C Fw Fg s l p b V H0) by (rewrite Ew; constructor). rewrite Ew. cbn [each snd].
  fold (size_of b). rewrite (moved_kept a layers hubs lay fmax Sgd rate n (batches n) _ C s l p b V NA). cbv zeta. rewrite cut_at by exact Hj. unfold gradient_mods.
  rewrite (all_gkept a layers hubs lay fmax Sgd rate batches w g params C Fw Fg s l p b V H0) by (rewrite E; repeat constructor). rewrite E. cbn [each snd modify_gradient].
  fold (size_of b). rewrite cut_at by exact Hj. unfold l2_modifier, slice. rewrite !cut_at by exact Hj. cbn [visited momentum_of rate_of].
  rewrite (base_kept a layers hubs lay C s l p b j _ _ V Hj NA). destruct (place_element layers hubs lay s l p b j V Hj) as [idx [El _]]. destruct C as [HN HI HL HZ HS HD].
  unfold raw. rewrite (element_untrained a layers hubs lay HN HI HL HZ HS HD (batches n) _ (s + j) l p idx El Hp). lra.
Qed.
Print Assumptions C68_untrained_decay.

(** ** Masked gradients: a weight whose gradient is masked out last never changes. *)
Theorem C68_masked_gradient : forall a layers hubs lay fmax st rate batches w g params n xs mask,
  created a layers hubs lay -> fits layers w -> fits layers g ->
  let theta := fun n => s_params (t_step (train fmax layers hubs lay st rate batches n (start w g params))) in
  forall s l p b, placed_at layers hubs lay s l p b -> ~ average l p ->
  lookup (li_name l, p) g = xs ++ [GValue (VMask mask)] -> lookup (li_name l, p) w = [] ->
  forall j, j < size_of b -> mask j = 0%R -> theta n (s + j) = params (s + j).
Proof.
  intros a layers hubs lay fmax st rate batches w g params n xs mask C Fw Fg theta s l p b V NA E Ew j Hj M. assert (H0 : 0 < size_of b) by lia.
  set (run := fun n => train fmax layers hubs lay st rate batches n (start w g params)).
  assert (G : forall n, (exists xs', lookup (li_name l, p) (t_grad (run n)) = xs' ++ [GValue (VMask mask)]) /\ s_buf (t_step (run n)) (s + j) = 0%R /\ theta n (s + j) = params (s + j)); [|apply G].
  induction n0 as [|k [[xs' I1] [I2 I3]]]; [split; [now exists xs|split; reflexivity]|].
  destruct (train_view a layers hubs lay fmax st rate batches w g params C Fw Fg k s l p b V H0) as [T1 [_ [T3 T4]]]. fold (run k) (run (S k)) in T1, T3, T4.
  assert (Z : snd (gradient_mods layers hubs lay fmax st k (batches k) (run k) s l p b) j = 0%R).
  { unfold gradient_mods. rewrite I1, each_last. cbn [snd modify_gradient modify]. fold (size_of b). rewrite cut_at by exact Hj. unfold mask_values. rewrite M. lra. }
  assert (Zv : s_buf (t_step (run (S k))) (s + j) = 0%R) by (rewrite (T3 j Hj), Z, I2; lra).
  split; [|split; [exact Zv|]].
  - rewrite T1. unfold gradient_mods. rewrite I1, each_last. cbn [fst modify_gradient modify]. now eexists.
  - unfold theta. fold (run (S k)). rewrite (T4 j Hj). unfold weight_mods, run. rewrite (all_kept a layers hubs lay fmax st rate batches w g params C Fw Fg s l p b V H0) by (rewrite Ew; constructor). rewrite Ew. cbn [each snd].
    fold (size_of b). rewrite (moved_kept a layers hubs lay fmax st rate k (batches k) _ C s l p b V NA). cbv zeta. rewrite cut_at by exact Hj. fold (run k). rewrite Z, I2. unfold theta in I3. fold (run k) in I3. rewrite I3. lra.
Qed.
Print Assumptions C68_masked_gradient.

(** Every parameter of every layer has its place. *)
Theorem C68_places : forall a layers hubs lay l p b, created a layers hubs lay -> In l layers -> In (p, b) (li_params l) -> exists s, placed_at layers hubs lay s l p b.
Proof. intros a layers hubs lay l p b [HN HI HL HZ HS HD] Hl Hb. exact (view_place a layers hubs lay HN HI HL HZ l p b Hl Hb). Qed.
Print Assumptions C68_places.

(** ** Examples *)
Definition no_env : env := mkEnv (fun _ _ _ => 0%R) (fun _ _ _ => 0%R) 0%Z 0%R.
Lemma regression_created : created regression_net (layers_of regression_net) (fst (layout_of regression_net)) (snd (layout_of regression_net)).
Proof. destruct (C66_example no_env (fun _ => 0%R)) as [HN [HI [HL [HZ [HS [HD _]]]]]]. now constructor. Qed.
(** The views with installed modifiers, checked by computation *)
Definition fits_b {X} (layers : list linst) (w : installed X) : bool :=
  nodup_b (map (fun e => (fst (fst e) ++ "." ++ snd (fst e))%string) w) &&
  forallb (fun e => existsb (fun l => String.eqb (li_name l) (fst (fst e)) && smem (snd (fst e)) (map fst (li_params l))) layers) w.
Lemma fits_b_ok {X} layers (w : installed X) : fits_b layers w = true -> fits layers w.
Proof.
  unfold fits_b. rewrite andb_true_iff. intros [N F]. split.
  - apply nodup_b_ok in N. apply (NoDup_map_inv (fun k : string * string => (fst k ++ "." ++ snd k)%string)). now rewrite map_map.
  - intros key Hk. apply in_map_iff in Hk. destruct Hk as [e [<- He]]. rewrite forallb_forall in F. specialize (F e He). apply existsb_exists in F. destruct F as [l [Hl F]]. apply andb_true_iff in F. destruct F as [F1 F2].
    apply String.eqb_eq in F1. apply smem_In, in_map_iff in F2. destruct F2 as [[x b] [Ex Hb]]. cbn [fst] in Ex. subst x. exists l, b. auto.
Qed.
(** FC1.W is clipped, Out.W constrained and masked, FC1.bias frozen; L2Decay for FC1.W. *)
Definition some_weights : installed vmod :=
  [(("FC1", "W"), [VMask (fun j => if j =? 0 then 0%R else 1%R); VClip (-1) 1]); (("Out", "W"), [VConstrain 1]); (("FC1", "bias"), [VFreeze (freeze_new None)])].
Definition some_gradients : installed gmod := [(("FC1", "W"), [GL2 (1 / 10)]); (("Out", "bias"), [GL1 1; GValue (VMask (fun _ => 0%R))])].
Example C68_example :
  let layers := layers_of regression_net in
  let hubs := fst (layout_of regression_net) in
  let lay := snd (layout_of regression_net) in
  created regression_net layers hubs lay /\ fits layers some_weights /\ fits layers some_gradients /\
  (exists s l b, placed_at layers hubs lay s l "W" b /\ li_name l = "FC1" /\ In "W" (par_names l) /\ ~ average l "W" /\ size_of b = 6) /\
  (exists s l b, placed_at layers hubs lay s l "W" b /\ li_name l = "Out" /\ ~ average l "W" /\ fdims b = [1; 5] /\ size_of b = 1 * 5) /\
  (exists s l b, placed_at layers hubs lay s l "bias" b /\ li_name l = "Out" /\ ~ average l "bias" /\ size_of b = 1) /\
  forall b params, smooth_at layers hubs lay b params.
Proof.
  intros layers hubs lay. assert (C := regression_created). fold layers hubs lay in C. split; [exact C|]. split; [apply fits_b_ok; vm_compute; reflexivity|]. split; [apply fits_b_ok; vm_compute; reflexivity|].
  assert (X : exists l b, nth_error layers 1 = Some l /\ dget "W" (li_params l) = Some b /\ li_name l = "FC1" /\ li_cls l = CFullyConnected /\ par_names l = ["W"; "bias"] /\ fdims b = [3; 2]).
  { unfold layers. do 2 eexists. do 5 (split; [vm_compute; reflexivity|]). vm_compute; reflexivity. }
  assert (Y : exists l b b', nth_error layers 3 = Some l /\ dget "W" (li_params l) = Some b /\ dget "bias" (li_params l) = Some b' /\ li_name l = "Out" /\ li_cls l = CFullyConnected /\ fdims b = [1; 5] /\ fdims b' = [1]).
  { unfold layers. do 3 eexists. do 6 (split; [vm_compute; reflexivity|]). vm_compute; reflexivity. }
  split; [|split; [|split; [|exact regression_smooth]]]; clearbody layers hubs lay.
  - destruct X as [l [b [E1 [E2 [E3 [E4 [E5 E6]]]]]]]. apply nth_error_In in E1. apply dget_In in E2. destruct (C68_places _ _ _ _ l "W" b C E1 E2) as [s Hs]. exists s, l, b. split; [exact Hs|]. split; [exact E3|].
    split; [rewrite E5; now left|]. split; [intros [K _]; congruence|]. unfold size_of. now rewrite E6.
  - destruct Y as [l [b [b' [E1 [E2 [E2' [E3 [E4 [E5 E6]]]]]]]]]. apply nth_error_In in E1. apply dget_In in E2. destruct (C68_places _ _ _ _ l "W" b C E1 E2) as [s Hs]. exists s, l, b. split; [exact Hs|]. split; [exact E3|].
    split; [intros [K _]; congruence|]. split; [exact E5|]. unfold size_of. now rewrite E5.
  - destruct Y as [l [b [b' [E1 [E2 [E2' [E3 [E4 [E5 E6]]]]]]]]]. apply nth_error_In in E1. apply dget_In in E2'. destruct (C68_places _ _ _ _ l "bias" b' C E1 E2') as [s Hs]. exists s, l, b'. split; [exact Hs|]. split; [exact E3|].
    split; [intros [K _]; congruence|]. unfold size_of. now rewrite E6.
Qed.
(** A network with a Clockwork layer and L2Decay for all its views, as after set_gradient_modifiers(L2Decay(1/10)). *)
Definition clock_net : karch :=
  [entry "Input" "Input" [("default", ["Clock"]); ("targets", ["SE.targets"])]
     [("out_shapes", KDict [("default", tb_shape [2%Z]); ("targets", tb_shape [2%Z])])];
   entry "Clock" "Clockwork" [("default", ["SE"])] [("size", KInt 2)];
   entry "SE" "SquaredError" [("loss", ["Loss"])] [];
   entry "Loss" "Loss" [] []].
Definition all_decay (layers : list linst) : installed gmod := flat_map (fun l => map (fun pb => ((li_name l, fst pb), [GL2 (1 / 10)])) (li_params l)) layers.
Example C68_clock_example :
  let layers := layers_of clock_net in
  let hubs := fst (layout_of clock_net) in
  let lay := snd (layout_of clock_net) in
  created clock_net layers hubs lay /\ fits layers (all_decay layers) /\
  exists s l b, placed_at layers hubs lay s l "timing" b /\ li_name l = "Clock" /\ ~ In "timing" (par_names l) /\ ~ average l "timing" /\ size_of b = 2 /\ lookup (li_name l, "timing") (all_decay layers) = [GL2 (1 / 10)].
Proof.
  intros layers hubs lay. assert (C : created clock_net layers hubs lay).
  { constructor.
    - constructor; [apply nodup_b_ok; reflexivity|]. intros n r kw H E. cbn [In clock_net entry] in H. destruct H as [H|[H|[H|[H|[]]]]]; injection H as <- <- <-; try discriminate E. apply names_b_ok. reflexivity.
    - vm_compute; reflexivity.
    - vm_compute; reflexivity.
    - apply nonnegative_b_ok; vm_compute; reflexivity.
    - apply forallb_forall; vm_compute; reflexivity.
    - vm_compute; reflexivity. }
  split; [exact C|].
  split; [apply fits_b_ok; vm_compute; reflexivity|].
  assert (X : exists l b, nth_error layers 1 = Some l /\ dget "timing" (li_params l) = Some b /\ li_name l = "Clock" /\ li_cls l = CClockwork /\ smem "timing" (par_names l) = false /\ fdims b = [2] /\ length (filter (fun e => same_key (fst e) ("Clock", "timing")) (all_decay layers)) = 1).
  { unfold layers. do 2 eexists. do 6 (split; [vm_compute; reflexivity|]). vm_compute; reflexivity. }
  assert (Z : lookup ("Clock", "timing") (all_decay layers) = [GL2 (1 / 10)]) by reflexivity.
  clearbody layers hubs lay. destruct X as [l [b [E1 [E2 [E3 [E4 [E5 [E6 _]]]]]]]]. apply nth_error_In in E1. apply dget_In in E2. destruct (C68_places _ _ _ _ l "timing" b C E1 E2) as [s Hs]. exists s, l, b. split; [exact Hs|]. split; [exact E3|].
  split; [intros K; apply smem_In in K; congruence|]. split; [intros [K _]; congruence|]. split; [unfold size_of; now rewrite E6|]. now rewrite E3.
Qed.

(** FreezeValues without given weights: the first update changes the weights before it remembers them. *)
Theorem C68_freeze_refuted : exists a layers hubs lay w g s l p b,
  created a layers hubs lay /\ fits layers w /\ fits layers g /\ placed_at layers hubs lay s l p b /\ In p (par_names l) /\ lookup (li_name l, p) w = [VFreeze (freeze_new None)] /\
  forall fmax batches params j, j < size_of b -> s_params (t_step (train fmax layers hubs lay Sgd (fun _ => 1%R) batches 1 (start w g params))) (s + j) = (params (s + j)%nat - 1)%R.
Proof.
  destruct C68_example as [C [_ [_ [[s [l [b [V [En [Hp [NA Hs]]]]]]] _]]]]. set (layers := layers_of regression_net) in *. set (hubs := fst (layout_of regression_net)) in *. set (lay := snd (layout_of regression_net)) in *.
  set (w := [(("FC1", "W"), [VFreeze (freeze_new None)])] : installed vmod). set (g := [(("FC1", "W"), [GValue (VClip 1 1)])] : installed gmod).
  assert (Fw : fits layers w) by (apply fits_b_ok; vm_compute; reflexivity). assert (Fg : fits layers g) by (apply fits_b_ok; vm_compute; reflexivity).
  exists regression_net, layers, hubs, lay, w, g, s, l, "W", b. clearbody layers hubs lay.
  split; [exact C|]. split; [exact Fw|]. split; [exact Fg|]. split; [exact V|]. split; [exact Hp|].
  assert (Lw : lookup (li_name l, "W") w = [VFreeze (freeze_new None)]) by (rewrite En; reflexivity). assert (Lg : lookup (li_name l, "W") g = [GValue (VClip 1 1)]) by (rewrite En; reflexivity).
  split; [exact Lw|]. intros fmax batches params j Hj. assert (H0 : 0 < size_of b) by lia.
  destruct (train_view _ layers hubs lay fmax Sgd (fun _ => 1%R) batches w g params C Fw Fg 0 s l "W" b V H0) as [_ [_ [_ T4]]]. rewrite (T4 j Hj). clear T4.
  unfold weight_mods. change (t_weight (train fmax layers hubs lay Sgd (fun _ => 1%R) batches 0 (start w g params))) with w. rewrite Lw. cbn [each modify freeze_new freeze_call fz_weights fz_device snd].
  fold (size_of b). rewrite (moved_kept _ layers hubs lay fmax Sgd (fun _ => 1%R) 0 (batches 0) _ C s l "W" b V NA). cbv zeta. rewrite !cut_at by exact Hj. unfold gradient_mods. change (t_grad (train fmax layers hubs lay Sgd (fun _ => 1%R) batches 0 (start w g params))) with g. rewrite Lg.
  cbn [each modify_gradient modify snd momentum_of rate_of]. fold (size_of b). rewrite cut_at by exact Hj. cbn [train start t_step stepper_start s_params s_buf].
  match goal with |- context [clip_values 1 1 ?v j] => assert (K := C37_clip 1 1 v j ltac:(lra)); set (c := clip_values 1 1 v j) in * end. destruct K as [K _]. lra.
Qed.
Print Assumptions C68_freeze_refuted.
