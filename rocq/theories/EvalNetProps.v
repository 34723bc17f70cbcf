(** C69: evaluating a network created from an architecture: what evaluation passes compute, what they
    leave alone, and that evaluations between the updates of a training do not influence it. *)
From Coq Require Import String Ascii List ZArith QArith Reals Bool Lia Lra Arith FunctionalExtensionality.
From Verif Require Import NumBase NumpyModel NumpyProps LayersModel LayersProps ConvModel ConvBase NetworkModel NetworkProps NetLayersModel NetLayersProps MemoryPassModel MemoryPassProofs.
From Verif Require Import HubModel LayoutModel BuffersModel BuffersProofs.
From Verif Require Import PyBase PyFacts UtilsModel NamesModel ArchModel ShapesModel SetupModel SetupProps InstanceProofs InstanceProps NetLayoutExtra NetLayoutProofs NetLayoutProps CellsProofs NetMemoryModel NetSizesProofs NetMemoryProofs NetForwardProofs NetForwardProps NetMemoryProps SchedulesModel TrainNetModel TrainNetProofs TrainNetProps ModifiersModel ModifiersProps ModNetModel ModNetProofs ModNetProps EvalNetModel EvalNetProofs.
Import ListNotations.
Open Scope string_scope.
Open Scope list_scope.
Open Scope nat_scope.

(** ** What an evaluation pass computes *)
(** The equation of a layer in an evaluation pass; [arr category name] are the elements of a buffer in row-major order. *)
Definition eval_equation (e : env) (T B : nat) (l : linst) (arr : string -> string -> vec) : Prop :=
  let rows := S T * B in
  let x := nf (li_in l) "default" in
  let inp := mat_of x (arr "inputs" "default") in
  let out := mat_of x (arr "outputs" "default") in
  let pred := mat_of x (arr "outputs" "predictions") in
  let par := arr "parameters" in
  match li_cls l with
  | CDropout => same rows x out inp
  | CBatchNorm => same rows x out (fun i j => ((inp i j + par "mu" j) / par "sigma" j * par "gamma" j + par "beta" j)%R)
  | CSquaredError => equation e T B l arr /\ same rows x pred inp
  | CSigmoidCE => equation e T B l arr /\ same rows x pred (fun i j => (1 / (1 + exp (- inp i j)))%R)
  | CSoftmaxCE => equation e T B l arr /\ same rows x pred (fun i j => (exp (inp i j) / Rsum x (fun k => exp (inp i k)))%R)
  | _ => equation e T B l arr
  end.
Theorem C69_outputs : forall a layers hubs lay b params, created a layers hubs lay ->
  let after := evaluation layers hubs lay b params in
  forall l, In l (tl layers) -> eval_equation (b_env b) (b_time b) (b_size b) l (fun cat x => read (cells layers hubs lay (S (b_time b)) (b_size b) l cat x) after).
Proof.
  intros a layers hubs lay b params [HN HI HL HZ HS HD] after l Hl. assert (Hl' := In_tl l layers Hl).
  set (e := b_env b) in *. set (T := b_time b) in *. set (B := b_size b) in *.
  assert (V := eval_values a layers hubs lay HN HI HL HZ HS HD e T B (prepared layers hubs lay b params) l Hl). cbv zeta in V.
  change (eval_pass layers hubs lay e T B (tl layers) (prepared layers hubs lay b params)) with after in V.
  assert (CN : forall x, NoDup (cells layers hubs lay (S T) B l "outputs" x)) by (intros x; apply (cells_NoDup a layers hubs lay HN HI HL HZ); [exact Hl'|exact own_o]).
  assert (C1 : forall cat n, length (cells layers hubs lay (S T) B l cat n) = sz (S T) B (buffers_of l cat) n).
  { intros cat n. assert (X := cells_total a layers hubs lay HN HI HL HZ T B l cat [n] Hl'). unfold cells_of, total in X. cbn [flat_map fold_right] in X. rewrite app_nil_r in X. lia. }
  (* outputs other than predictions *)
  assert (M : forall x k, In x (out_names (li_cls l) ++ loss_names (li_cls l)) -> k < length (cells layers hubs lay (S T) B l "outputs" x) ->
    after (nth k (cells layers hubs lay (S T) B l "outputs" x) 0) = eval_main layers hubs lay e T B l after (nth k (cells layers hubs lay (S T) B l "outputs" x) 0)).
  { intros x k Hx Hk. rewrite (V x _ (in_or_app _ _ _ (match in_app_or _ _ _ Hx with or_introl H => or_introl H | or_intror H => or_intror (in_or_app _ _ _ (or_introl H)) end)) (nth_In _ 0 Hk)) at 1.
    unfold run_eval. apply write_out. intros K. exact (pred_cell a layers hubs lay HN HI HL HZ T B l _ Hl' K x Hx (nth_In _ 0 Hk)). }
  (* layers that run their forward pass *)
  assert (EQ : li_cls l <> CDropout -> li_cls l <> CBatchNorm -> equation e T B l (fun cat x => read (cells layers hubs lay (S T) B l cat x) after)).
  { intros N1 N2. assert (EM : forall m, eval_main layers hubs lay e T B l m = run_forward (mlayer_of layers hubs lay e T B l) m) by (intros m; unfold eval_main; destruct (li_cls l); congruence || reflexivity).
    assert (ON : m_out (mlayer_of layers hubs lay e T B l) = [] \/ exists x, In x (out_names (li_cls l)) /\ m_out (mlayer_of layers hubs lay e T B l) = cells layers hubs lay (S T) B l "outputs" x).
    { unfold mlayer_of, cells_of. cbn [m_out]. destruct (li_cls l); cbn [out_names flat_map]; rewrite ?app_nil_r; ((left; reflexivity) || (right; eexists; split; [|reflexivity]; cbn; tauto)). }
    assert (LN : m_loss (mlayer_of layers hubs lay e T B l) = [] \/ exists x, In x (loss_names (li_cls l)) /\ m_loss (mlayer_of layers hubs lay e T B l) = cells layers hubs lay (S T) B l "outputs" x).
    { unfold mlayer_of, cells_of. cbn [m_loss]. destruct (li_cls l); cbn [loss_names flat_map]; rewrite ?app_nil_r; ((left; reflexivity) || (right; eexists; split; [|reflexivity]; cbn; tauto)). }
    apply (equation_of_values a layers hubs lay e T B after l HN HI HL HZ HS HD Hl); intros k Hk.
    - destruct ON as [E|[x [Hx E]]]; [rewrite E in Hk; cbn in Hk; lia|]. rewrite E in Hk |- *. rewrite (M x k (in_or_app _ _ _ (or_introl Hx)) Hk), EM. unfold run_forward.
      rewrite write_out; [rewrite E; now rewrite write_in by auto|]. destruct LN as [E'|[y [Hy E']]]; rewrite E'; [intros []|]. intros K.
      destruct (once a layers hubs lay HN HI HL HZ T B l "outputs" y l "outputs" x _ Hl' Hl' own_o own_o K (nth_In _ 0 Hk)) as [_ [_ E2]]. subst y. exact (loss_apart _ _ Hy Hx).
    - destruct LN as [E|[x [Hx E]]]; [rewrite E in Hk; cbn in Hk; lia|]. rewrite E in Hk |- *. rewrite (M x k (in_or_app _ _ _ (or_intror Hx)) Hk), EM. unfold run_forward. rewrite E. now rewrite write_in by auto. }
  (* predictions *)
  assert (PR : pred_names (li_cls l) <> [] -> forall k, k < S T * B * nf (li_in l) "default" ->
    read (cells layers hubs lay (S T) B l "outputs" "predictions") after k = predicted layers hubs lay T B l after k).
  { intros Np k Hk. assert (Ep : pred_names (li_cls l) = ["predictions"]) by (destruct (li_cls l); cbn in *; congruence).
    assert (Hk' : k < length (cells layers hubs lay (S T) B l "outputs" "predictions")) by (rewrite C1; change (buffers_of l "outputs") with (li_out l); now rewrite (pred_size a layers l T B HI Hl' Np)).
    rewrite read_at by exact Hk'. rewrite (V "predictions") at 1; [|rewrite Ep; apply in_or_app; right; apply in_or_app; right; now left|now apply nth_In].
    unfold run_eval. rewrite Ep. unfold cells_of. cbn [flat_map]. rewrite app_nil_r. now rewrite write_in by auto. }
  (* Dropout and BatchNorm *)
  assert (SO := proj1 (proj2 (net_sized a layers l e T B HI HZ Hl' (HS l Hl) none none))).
  unfold eval_equation. cbv zeta. destruct (li_cls l) eqn:Ec; try (apply EQ; discriminate); try (split; [apply EQ; discriminate|]).
  all: cbn [pred_names out_names loss_names app] in *; try (intros i j Hi Hj; assert (Hk : i * nf (li_in l) "default" + j < S T * B * nf (li_in l) "default") by nia).
  all: try (unfold mat_of at 1; rewrite PR by (discriminate || exact Hk); unfold predicted; rewrite Ec; unfold vec_of; rewrite divL, modL by assumption).
  all: try (unfold kind_of in SO; rewrite Ec in SO; cbn [n_out] in SO; unfold total in SO; cbn [fold_right] in SO; rewrite Nat.add_0_r in SO;
    assert (Hk' : i * nf (li_in l) "default" + j < length (cells layers hubs lay (S T) B l "outputs" "default")) by (rewrite C1; change (buffers_of l "outputs") with (li_out l); unfold cells in *; lia);
    unfold mat_of at 1; rewrite read_at by exact Hk'; rewrite (M "default" _ (or_introl eq_refl) Hk'); unfold eval_main; rewrite Ec; cbv zeta; rewrite write_in by auto).
  all: try reflexivity.
  - unfold vec_of. rewrite divL, modL by assumption. reflexivity.
  - unfold sigmoid_ce_forward. cbn [fst]. apply sigmoid_eq.
  - unfold softmax_ce_forward. cbn [fst]. rewrite softmax_plain. assert (X := HS l Hl). unfold supported in X. rewrite Ec in X. apply andb_true_iff in X. destruct X as [_ X]. apply negb_true_iff, Nat.eqb_neq in X.
    replace (S (nf (li_in l) "default" - 1)) with (nf (li_in l) "default") by lia. reflexivity.
Qed.
Print Assumptions C69_outputs.

(** ** What an evaluation pass leaves alone: parameters, gradients, deltas and the data *)
Theorem C69_only_outputs : forall a layers hubs lay b params, created a layers hubs lay ->
  let before := prepared layers hubs lay b params in
  let after := evaluation layers hubs lay b params in
  let arr := fun l cat x => read (cells layers hubs lay (S (b_time b)) (b_size b) l cat x) in
  (forall l cat x, In l layers -> In cat ["parameters"; "gradients"; "output_deltas"] -> arr l cat x after = arr l cat x before) /\
  (forall l0 r x, layers = l0 :: r -> arr l0 "outputs" x after = arr l0 "outputs" x before) /\
  forall s l p bs j, placed_at layers hubs lay s l p bs -> j < size_of bs -> arr l "parameters" p after j = params (s + j).
Proof.
  intros a layers hubs lay b params [HN HI HL HZ HS HD] before after arr.
  set (T := b_time b) in *. set (B := b_size b) in *.
  assert (K : forall l cat x, In l layers -> In cat ["parameters"; "gradients"; "output_deltas"] -> arr l cat x after = arr l cat x before).
  { intros l cat x Hl Hc. apply read_ext. intros A HA. apply pass_keeps. intros l1 y H1 K. apply In_tl in H1.
    assert (own : ~ In cat ["inputs"; "input_deltas"]) by (cbn in *; intuition (subst; discriminate)).
    destruct (once a layers hubs lay HN HI HL HZ T B l1 "outputs" y l cat x A H1 Hl own_o own K HA) as [_ [E _]]. subst cat. cbn in Hc. intuition discriminate. }
  split; [exact K|]. split.
  - intros l0 r x E. apply read_ext. intros A HA. apply pass_keeps. intros l1 y H1 K1. assert (ND := layers_NoDup a layers HN HI).
    assert (Hl0 : In l0 layers) by (rewrite E; now left).
    destruct (once a layers hubs lay HN HI HL HZ T B l1 "outputs" y l0 "outputs" x A (In_tl _ _ H1) Hl0 own_o own_o K1 HA) as [E1 _]. subst l1. rewrite E in ND, H1. cbn in H1. inversion_clear ND. contradiction.
  - intros s l p bs j Hs Hj. assert (Hl := proj1 Hs). rewrite K by (auto; cbn; tauto).
    assert (E := place_read a layers hubs lay HN HI HL HZ s l p bs (S T) B "parameters" before (or_introl eq_refl) Hs). rewrite (view_cells_at a layers hubs lay HN HI l p (S T) B "parameters" Hl) in E.
    unfold arr. rewrite E, slice_at by exact Hj. destruct (place_element layers hubs lay s l p bs j Hs Hj) as [idx [He _]].
    exact (element_read a layers hubs lay HN HI HL HZ b params (b_mem b) (s + j) l p idx He).
Qed.
Print Assumptions C69_only_outputs.

Lemma loss_env layers hubs lay e e' T B m : net_loss layers hubs lay e T B m = net_loss layers hubs lay e' T B m.
Proof. unfold net_loss, mlayers. induction (tl layers) as [|l ls IH]; [reflexivity|]. cbn [map mem_loss]. now rewrite IH. Qed.
(** ** Evaluations depend on the data and the parameters: not on what else is in the memory, not on dropout masks. *)
Definition same_inputs (layers : list linst) (hubs : list hub) (lay : slices) (b b' : batch) : Prop :=
  eval_same (b_env b) (b_env b') /\ same_data layers hubs lay b (mkBatch (b_time b') (b_size b') (b_env b) (b_mem b')).
Theorem C69_eval_data : forall a layers hubs lay b b' params params', created a layers hubs lay ->
  (exists k l p idx, is_element layers hubs lay k l p idx) ->
  same_inputs layers hubs lay b b' -> (forall k l p idx, is_element layers hubs lay k l p idx -> params k = params' k) ->
  (forall l x, In l (tl layers) -> In x (out_names (li_cls l) ++ loss_names (li_cls l) ++ pred_names (li_cls l)) ->
     read (cells layers hubs lay (S (b_time b)) (b_size b) l "outputs" x) (evaluation layers hubs lay b params) =
     read (cells layers hubs lay (S (b_time b')) (b_size b') l "outputs" x) (evaluation layers hubs lay b' params')) /\
  eval_loss layers hubs lay b params = eval_loss layers hubs lay b' params'.
Proof.
  intros a layers hubs lay b b' params params' [HN HI HL HZ HS HD] [k0 [l1 [p1 [idx1 He]]]] [Se Sd] Hp.
  assert (P := prepared_same a layers hubs lay HN HI HL HZ k0 l1 p1 idx1 b _ params params' He Sd Hp). destruct Sd as [E1 [E2 _]]. cbn [b_time b_size] in E1, E2.
  assert (P' : forall A, known layers hubs lay (b_time b) (b_size b) [] A -> prepared layers hubs lay b params A = prepared layers hubs lay b' params' A).
  { intros A HA. rewrite (P A HA). unfold prepared, param_cells. reflexivity. }
  assert (K := eval_of_data a layers hubs lay HN HI HL HZ HS HD (b_env b) (b_time b) (b_size b) _ _ P').
  assert (Ev : evaluation layers hubs lay b' params' = eval_pass layers hubs lay (b_env b) (b_time b) (b_size b) (tl layers) (prepared layers hubs lay b' params')).
  { unfold evaluation. rewrite <- E1, <- E2. symmetry. apply env_pass. exact Se. }
  split.
  - intros l x Hl Hx. rewrite <- E1, <- E2. apply read_ext. intros A HA. rewrite Ev. rewrite app_assoc in Hx. apply in_app_or in Hx. destruct Hx as [Hx|Hx].
    + apply K. right. right. exists l, x. auto.
    + unfold evaluation. assert (Hx' : In x (out_names (li_cls l) ++ loss_names (li_cls l) ++ pred_names (li_cls l))) by (apply in_or_app; right; apply in_or_app; now right).
      rewrite !(eval_values a layers hubs lay HN HI HL HZ HS HD (b_env b) (b_time b) (b_size b) _ l Hl x A Hx' HA).
      apply (eval_agree layers hubs lay); [| |right; now exists x].
      * intros n A' HA'. apply K. destruct (tl_split a layers hubs lay HI HL HZ HS HD (b_env b) (b_time b) (b_size b) l Hl) as [pre [post [E Np]]].
        apply (known_more layers hubs lay (b_time b) (b_size b) pre); [|exact (reads_known a layers hubs lay HN HI HL HZ HS HD (b_env b) (b_time b) (b_size b) pre l post n A' E Np HA')].
        rewrite E. destruct pre; [congruence|]. cbn. intros z Hz. apply in_or_app. now left.
      * intros n A' HA'. apply K. left. exists l, n. split; [now apply In_tl|exact HA'].
  - unfold eval_loss. rewrite Ev. transitivity (net_loss layers hubs lay (b_env b) (b_time b) (b_size b) (eval_pass layers hubs lay (b_env b) (b_time b) (b_size b) (tl layers) (prepared layers hubs lay b' params'))).
    + apply (loss_known layers hubs lay). exact K.
    + rewrite <- E1, <- E2. apply loss_env.
Qed.
Print Assumptions C69_eval_data.

(** Without Dropout and BatchNorm layers evaluation passes compute what training passes compute. *)
Theorem C69_same_loss : forall a layers hubs lay b params, created a layers hubs lay ->
  (forall l, In l (tl layers) -> li_cls l <> CDropout /\ li_cls l <> CBatchNorm) ->
  (forall l x, In l (tl layers) -> In x (out_names (li_cls l) ++ loss_names (li_cls l)) ->
     read (cells layers hubs lay (S (b_time b)) (b_size b) l "outputs" x) (evaluation layers hubs lay b params) =
     read (cells layers hubs lay (S (b_time b)) (b_size b) l "outputs" x) (forward layers hubs lay b (prepared layers hubs lay b params))) /\
  eval_loss layers hubs lay b params = batch_loss layers hubs lay b params.
Proof.
  intros a layers hubs lay b params [HN HI HL HZ HS HD] HC. set (e := b_env b). set (T := b_time b). set (B := b_size b). set (m := prepared layers hubs lay b params).
  set (ml := mlayer_of layers hubs lay e T B).
  assert (G : forall post pre m1 m2, layers = pre ++ post -> pre <> [] -> (forall A, known layers hubs lay T B pre A -> m1 A = m2 A) ->
    forall A, known layers hubs lay T B layers A -> eval_pass layers hubs lay e T B post m1 A = mem_forward (map ml post) m2 A).
  { induction post as [|l post IH]; intros pre m1 m2 E Np H A HA; [rewrite app_nil_r in E; apply H; rewrite <- E; exact HA|]. unfold eval_pass. cbn [fold_left map mem_forward].
    apply (IH (pre ++ [l])); [now rewrite <- app_assoc|destruct pre; discriminate| |exact HA]. clear A HA. intros A HA.
    assert (Hl : In l layers) by (rewrite E; apply in_or_app; right; now left). assert (Ht : In l (tl layers)) by (rewrite E; destruct pre; [congruence|]; cbn; apply in_or_app; right; now left).
    transitivity (run_forward (ml l) m1 A); [|exact (run_known a layers hubs lay HN HI HL HZ HS HD e T B pre l post m1 m2 E Np H A HA)].
    unfold run_eval. rewrite write_out.
    - unfold eval_main. destruct (HC l Ht) as [N1 N2]. destruct (li_cls l); congruence || reflexivity.
    - intros K. apply cells_of_In in K. destruct K as [n [Hn K]]. destruct HA as [[l1 [x [H1 HA]]]|[[l1 [r [x [H1 HA]]]]|[l1 [x [H1 [Hx HA]]]]]].
      + destruct (once a layers hubs lay HN HI HL HZ T B l "outputs" n l1 "parameters" x A Hl H1 own_o own_p K HA) as [_ [X _]]. discriminate X.
      + assert (H1' : In l1 layers) by (rewrite H1; now left). destruct (once a layers hubs lay HN HI HL HZ T B l "outputs" n l1 "outputs" x A Hl H1' own_o own_o K HA) as [X _]. subst l1.
        assert (C := proj1 (first_input a layers HN HI l r H1)). rewrite C in Hn. destruct Hn.
      + assert (H1' : In l1 layers) by (rewrite E; apply In_tl in H1; apply in_app_or in H1; apply in_or_app; destruct H1 as [H1|[<-|[]]]; [now left|right; now left]).
        destruct (once a layers hubs lay HN HI HL HZ T B l "outputs" n l1 "outputs" x A Hl H1' own_o own_o K HA) as [X [_ Y]]. subst l1 x. exact (pred_apart _ _ Hn Hx). }
  assert (Q : forall A, known layers hubs lay T B layers A -> evaluation layers hubs lay b params A = net_forward_pass layers hubs lay e T B m A).
  { intros A HA. unfold evaluation, net_forward_pass, mlayers. fold e T B m ml. destruct layers as [|l0 r] eqn:E; [reflexivity|]. cbn [tl]. apply (G r [l0] m m); [reflexivity|discriminate|reflexivity|exact HA]. }
  split.
  - intros l x Hl Hx. apply read_ext. intros A HA. rewrite Q by (right; right; exists l, x; auto). symmetry. apply (off_train a layers hubs lay HN HI HL HZ HS HD e T B m A).
    intros N. exact (proj1 (proj2 (avg_free a layers hubs lay HN HI HL HZ HS HD e T B l A Hl N)) x HA).
  - rewrite (batch_loss_pass a layers hubs lay HN HI HL HZ HS HD). unfold eval_loss. apply (loss_known layers hubs lay). exact Q.
Qed.
Print Assumptions C69_same_loss.

(** ** Monitoring: evaluations between the updates do not influence the training. *)
Definition tracks (layers : list linst) (hubs : list hub) (lay : slices) (x x' : tstate) : Prop :=
  (forall k l p idx, is_element layers hubs lay k l p idx -> s_params (t_step x) k = s_params (t_step x') k /\ s_buf (t_step x) k = s_buf (t_step x') k) /\
  (forall l p b, In l layers -> In (p, b) (li_params l) -> 0 < size_of b -> lookup (li_name l, p) (t_weight x) = lookup (li_name l, p) (t_weight x') /\ lookup (li_name l, p) (t_grad x) = lookup (li_name l, p) (t_grad x')) /\
  (fits layers (t_weight x) /\ fits layers (t_grad x)) /\ fits layers (t_weight x') /\ fits layers (t_grad x').
Lemma element_unique a layers hubs lay k k' l p idx : created a layers hubs lay -> is_element layers hubs lay k l p idx -> is_element layers hubs lay k' l p idx -> k = k'.
Proof.
  intros [HN HI HL HZ HS HD] H1 H2. destruct (element_views a layers hubs lay HN HI HL HZ k l p idx 1 1 H1) as [v [_ [Hv _]]].
  assert (E1 := proj2 (proj2 H1) 1 1 v Hv). assert (E2 := proj2 (proj2 H2) 1 1 v Hv).
  destruct (element_facts a layers hubs lay HN HI HL HZ k l p idx H1) as [F _]. destruct (F 1 1) as [F1 [_ ND]].
  rewrite NoDup_nth_error in ND. apply ND; [exact F1|congruence].
Qed.
Lemma element_placed a layers hubs lay k l p idx : created a layers hubs lay -> is_element layers hubs lay k l p idx -> exists s b j, placed_at layers hubs lay s l p b /\ k = s + j /\ j < size_of b.
Proof.
  intros C H. assert (Hl := proj1 H). destruct (proj1 (proj2 H)) as [b [Hb Hi]]. destruct (C68_places a layers hubs lay l p b C Hl Hb) as [s Hs]. exists s, b, (ravel (fdims b) idx). split; [exact Hs|].
  split; [|now apply ravel_lt]. apply (element_unique a layers hubs lay k _ l p idx C H). apply Hs. exact Hi.
Qed.
Lemma tracks_views a layers hubs lay x x' : created a layers hubs lay -> (fits layers (t_weight x) /\ fits layers (t_grad x)) -> (fits layers (t_weight x') /\ fits layers (t_grad x')) ->
  (forall s l p b, placed_at layers hubs lay s l p b -> 0 < size_of b ->
     lookup (li_name l, p) (t_weight x) = lookup (li_name l, p) (t_weight x') /\ lookup (li_name l, p) (t_grad x) = lookup (li_name l, p) (t_grad x') /\
     forall j, j < size_of b -> s_params (t_step x) (s + j) = s_params (t_step x') (s + j) /\ s_buf (t_step x) (s + j) = s_buf (t_step x') (s + j)) -> tracks layers hubs lay x x'.
Proof.
  intros C F F' H. split; [|split; [|now split]].
  - intros k l p idx He. destruct (element_placed a layers hubs lay k l p idx C He) as [s [b [j [Hs [-> Hj]]]]]. apply (H s l p b Hs); [lia|exact Hj].
  - intros l p b Hl Hb Hz. destruct (C68_places a layers hubs lay l p b C Hl Hb) as [s Hs]. destruct (H s l p b Hs Hz) as [H1 [H2 _]]. now split.
Qed.
Lemma update_fits a layers hubs lay fmax st rate k b x : created a layers hubs lay -> fits layers (t_weight x) /\ fits layers (t_grad x) ->
  fits layers (t_weight (update fmax layers hubs lay st rate k b x)) /\ fits layers (t_grad (update fmax layers hubs lay st rate k b x)).
Proof.
  intros [HN HI HL HZ HS HD] [F1 F2].
  assert (KW : forall m, map fst (fst (apply_weight_modifiers fmax layers hubs lay (S (b_time b)) (b_size b) (t_weight x) m)) = map fst (t_weight x)) by (intros m; apply (weights_spec a layers hubs lay HN HI HL HZ fmax (S (b_time b)) (b_size b) (t_weight x) m F1)).
  assert (KG : forall m, map fst (fst (apply_gradient_modifiers fmax layers hubs lay (S (b_time b)) (b_size b) (t_grad x) m)) = map fst (t_grad x)) by (intros m; apply (gradients_spec a layers hubs lay HN HI HL HZ fmax (S (b_time b)) (b_size b) (t_grad x) m F2)).
  unfold update. destruct (run_stepper fmax layers hubs lay st rate k b (t_grad x) (t_step x)) as [[g m] v] eqn:E.
  assert (Eg : map fst g = map fst (t_grad x)).
  { unfold run_stepper, backward_modified in E. destruct st; cbv zeta in E;
      match type of E with context [apply_gradient_modifiers fmax layers hubs lay ?T ?B ?w ?q] => specialize (KG q); destruct (apply_gradient_modifiers fmax layers hubs lay T B w q) as [g' m'] end;
      injection E as <- _ _; exact KG. }
  specialize (KW m). destruct (apply_weight_modifiers _ _ _ _ _ _ _ m) as [w m']. cbn [t_weight t_grad]. cbn [fst] in KW. unfold fits. now rewrite Eg, KW.
Qed.
Lemma update_tracks a layers hubs lay fmax st rate k b b' x x' : created a layers hubs lay -> same_data layers hubs lay b b' -> tracks layers hubs lay x x' ->
  tracks layers hubs lay (update fmax layers hubs lay st rate k b x) (update fmax layers hubs lay st rate k b' x').
Proof.
  intros C Sd [H1 [H2 [F F']]]. apply (tracks_views a); [exact C|now apply (update_fits a)|now apply (update_fits a)|]. intros s l p bs Hs Hz.
  assert (C' := C). destruct C' as [HN HI HL HZ HS HD].
  destruct (update_view a layers hubs lay HN HI HL HZ fmax st rate k b x s l p bs Hs (proj1 F) (proj2 F) Hz) as [G1 [G2 [_ [_ [G3 G4]]]]].
  destruct (update_view a layers hubs lay HN HI HL HZ fmax st rate k b' x' s l p bs Hs (proj1 F') (proj2 F') Hz) as [K1 [K2 [_ [_ [K3 K4]]]]].
  assert (P : forall k0 l0 p0 idx, is_element layers hubs lay k0 l0 p0 idx -> visited st k (t_step x) k0 = visited st k (t_step x') k0).
  { intros k0 l0 p0 idx He. destruct (H1 k0 l0 p0 idx He) as [E1 E2]. destruct st; cbn [visited]; now rewrite ?E1, ?E2. }
  assert (EB : forall j, j < size_of bs -> base layers hubs lay b (visited st k (t_step x)) (s + j) = base layers hubs lay b' (visited st k (t_step x')) (s + j)).
  { intros j Hj. destruct (place_element layers hubs lay s l p bs j Hs Hj) as [idx [He _]]. exact (kept_same a layers hubs lay HN HI HL HZ HS HD b b' _ _ (s + j) l p idx He Sd P). }
  assert (ER : forall j, j < size_of bs -> raw layers hubs lay b (visited st k (t_step x)) (s + j) = raw layers hubs lay b' (visited st k (t_step x')) (s + j)).
  { intros j Hj. destruct (place_element layers hubs lay s l p bs j Hs Hj) as [idx [He _]]. exact (gradient_same a layers hubs lay HN HI HL HZ HS HD b b' _ _ (s + j) l p idx He Sd P). }
  destruct (H2 l p bs (proj1 Hs) (proj1 (proj2 Hs)) Hz) as [LW LG].
  assert (EG : gradient_mods layers hubs lay fmax st k b x s l p bs = gradient_mods layers hubs lay fmax st k b' x' s l p bs).
  { unfold gradient_mods. cbv zeta. rewrite LG. assert (X1 := slice_ext _ _ _ _ EB). assert (X2 := slice_ext _ _ _ _ ER). unfold size_of in X1, X2. now rewrite X1, X2. }
  assert (EM : cut (size_of bs) (moved layers hubs lay fmax st rate k b x s l p bs) = cut (size_of bs) (moved layers hubs lay fmax st rate k b' x' s l p bs)).
  { apply cut_ext. intros j Hj. unfold moved. cbv zeta. rewrite EG, (EB j Hj). destruct (place_element layers hubs lay s l p bs j Hs Hj) as [idx [He _]]. now rewrite (proj2 (H1 _ _ _ _ He)). }
  assert (EW : weight_mods layers hubs lay fmax st rate k b x s l p bs = weight_mods layers hubs lay fmax st rate k b' x' s l p bs).
  { unfold weight_mods. unfold size_of in EM. now rewrite EM, LW. }
  split; [now rewrite G2, K2, EW|]. split; [now rewrite G1, K1, EG|]. intros j Hj. unfold size_of in Hj. split.
  - rewrite (G4 j Hj), (K4 j Hj). now rewrite EW.
  - rewrite (G3 j Hj), (K3 j Hj), EG. destruct (place_element layers hubs lay s l p bs j Hs Hj) as [idx [He _]]. now rewrite (proj2 (H1 _ _ _ _ He)).
Qed.
Lemma evaluate_tracks a layers hubs lay b x x' : created a layers hubs lay -> tracks layers hubs lay x x' -> tracks layers hubs lay (evaluate layers hubs lay b x) x'.
Proof.
  intros C [H1 [H2 [F F']]]. split; [|now split]. intros k l p idx He. cbn [evaluate t_step s_params s_buf]. split; [|apply (H1 k l p idx He)].
  rewrite <- (proj1 (H1 k l p idx He)). assert (C' := C). destruct C' as [HN HI HL HZ HS HD].
  destruct (element_placed a layers hubs lay k l p idx C He) as [s [bs [j [Hs [-> Hj]]]]].
  destruct (C69_only_outputs a layers hubs lay b (s_params (t_step x)) C) as [_ [_ E]]. rewrite <- (E s l p bs j Hs Hj).
  assert (X := place_read a layers hubs lay HN HI HL HZ s l p bs (S (b_time b)) (b_size b) "parameters" (evaluation layers hubs lay b (s_params (t_step x))) (or_introl eq_refl) Hs).
  rewrite (view_cells_at a layers hubs lay HN HI l p _ _ "parameters" (proj1 Hs)) in X. rewrite X, slice_at by exact Hj. reflexivity.
Qed.

(** A monitored training ends with the parameters, velocities and modifiers of the plain training (C67, C68)
    on the batches of the updates, whatever is evaluated in between. *)
Theorem C69_monitoring : forall a layers hubs lay fmax st rate events batches w g params, created a layers hubs lay -> fits layers w -> fits layers g ->
  (forall i b, nth_error (update_batches events) i = Some b -> same_data layers hubs lay b (batches i)) ->
  let x := monitored fmax layers hubs lay st rate events 0 (start w g params) in
  let x' := train fmax layers hubs lay st rate batches (length (update_batches events)) (start w g params) in
  (forall k l p idx, is_element layers hubs lay k l p idx -> s_params (t_step x) k = s_params (t_step x') k /\ s_buf (t_step x) k = s_buf (t_step x') k) /\
  forall l p b, In l layers -> In (p, b) (li_params l) -> 0 < size_of b ->
    lookup (li_name l, p) (t_weight x) = lookup (li_name l, p) (t_weight x') /\ lookup (li_name l, p) (t_grad x) = lookup (li_name l, p) (t_grad x').
Proof.
  intros a layers hubs lay fmax st rate events batches w g params C Fw Fg. cbv zeta.
  assert (G : forall events k x, tracks layers hubs lay x (train fmax layers hubs lay st rate batches k (start w g params)) ->
    (forall i b, nth_error (update_batches events) i = Some b -> same_data layers hubs lay b (batches (k + i))) ->
    tracks layers hubs lay (monitored fmax layers hubs lay st rate events k x) (train fmax layers hubs lay st rate batches (k + length (update_batches events)) (start w g params))).
  { clear events. induction events as [|[b|b] r IH]; intros k x Hx Hb; cbn [monitored update_batches flat_map app length] in *.
    - now rewrite Nat.add_0_r.
    - rewrite Nat.add_succ_r, <- Nat.add_succ_l. apply IH.
      + cbn [train]. apply (update_tracks a); [exact C| |exact Hx]. assert (X := Hb 0 b eq_refl). now rewrite Nat.add_0_r in X.
      + intros i b' Hi. rewrite Nat.add_succ_l, <- Nat.add_succ_r. exact (Hb (S i) b' Hi).
    - apply IH; [|exact Hb]. now apply (evaluate_tracks a). }
  intros Hb. assert (X := G events 0 (start w g params)). cbn [Nat.add] in X. destruct X as [X1 [X2 _]]; [|exact Hb|now split].
  cbn [train]. split; [intros; now split|]. split; [intros; now split|]. cbn [start t_weight t_grad]. tauto.
Qed.
Print Assumptions C69_monitoring.

(** ** Example: a classifier with Dropout and BatchNorm; batches with 3 time steps and 2 sequences for
    evaluation, 1 time step and 4 sequences for training *)
Definition classifier_net : karch :=
  [entry "Input" "Input" [("default", ["Drop"]); ("targets", ["SM.targets"])]
     [("out_shapes", KDict [("default", tb_shape [2%Z]); ("targets", tb_shape [1%Z])])];
   entry "Drop" "Dropout" [("default", ["BN"])] [];
   entry "BN" "BatchNorm" [("default", ["Out"])] [];
   entry "Out" "FullyConnected" [("default", ["SM"])] [("size", KInt 3); ("activation", KStr "linear")];
   entry "SM" "SoftmaxCE" [("loss", ["Loss"])] [];
   entry "Loss" "Loss" [] []].
Lemma classifier_created : created classifier_net (layers_of classifier_net) (fst (layout_of classifier_net)) (snd (layout_of classifier_net)).
Proof.
  constructor.
  - constructor; [apply nodup_b_ok; reflexivity|]. intros n r kw H E. cbn [In classifier_net entry] in H. destruct H as [H|[H|[H|[H|[H|[H|[]]]]]]]; injection H as <- <- <-; try discriminate E. apply names_b_ok. reflexivity.
  - vm_compute; reflexivity.
  - vm_compute; reflexivity.
  - apply nonnegative_b_ok; vm_compute; reflexivity.
  - apply forallb_forall; vm_compute; reflexivity.
  - vm_compute; reflexivity.
Qed.
Example C69_example : forall (e e' : env) (m m' params : vec),
  let layers := layers_of classifier_net in
  let hubs := fst (layout_of classifier_net) in
  let lay := snd (layout_of classifier_net) in
  let held_out := mkBatch 2 2 e m in
  let training := fun i => mkBatch 0 4 e' (fun A => m' (A + i)) in
  let events := [Evaluate held_out; Update (training 0); Update (training 1); Evaluate held_out; Evaluate (training 0); Update (training 2); Evaluate held_out] in
  created classifier_net layers hubs lay /\ fits layers [(("Out", "W"), [VClip (-1) 1])] /\ fits layers [(("Out", "bias"), [GL1 1])] /\
  (forall i b, nth_error (update_batches events) i = Some b -> same_data layers hubs lay b (training i)) /\ length (update_batches events) = 3 /\
  (* the probabilities of 3 classes *)
  forall l, nth_error layers 4 = Some l ->
  let arr cat x := read (cells layers hubs lay 3 2 l cat x) (evaluation layers hubs lay held_out params) in
  li_name l = "SM" /\
  forall i j, i < 6 -> j < 3 ->
    let x k := arr "inputs" "default" (i * 3 + k) in
    arr "outputs" "predictions" (i * 3 + j) = (exp (x j) / (exp (x 0%nat) + exp (x 1%nat) + exp (x 2%nat)))%R.
Proof.
  intros e e' m m' params layers hubs lay held_out training events. split; [exact classifier_created|].
  split; [apply fits_b_ok; vm_compute; reflexivity|]. split; [apply fits_b_ok; vm_compute; reflexivity|].
  split. { intros i b Hi. destruct i as [|[|[|i]]]; cbn in Hi; [injection Hi as <-|injection Hi as <-|injection Hi as <-|destruct i; discriminate Hi]; (split; [reflexivity|]; split; [reflexivity|]; split; [reflexivity|]; reflexivity). }
  split; [reflexivity|]. intros l Hl arr.
  assert (Fl : (li_name l, li_cls l, nf (li_in l) "default") = ("SM", CSoftmaxCE, 3)).
  { assert (H : option_map (fun l => (li_name l, li_cls l, nf (li_in l) "default")) (nth_error (layers_of classifier_net) 4) = Some ("SM", CSoftmaxCE, 3)) by (vm_compute; reflexivity).
    unfold layers in Hl. rewrite Hl in H. cbn [option_map] in H. injection H as H1 H2 H3; now rewrite H1, H2, H3. }
  injection Fl as E1 E2 E3. split; [exact E1|]. intros i j Hi Hj x.
  assert (Ht : In l (tl layers)). { apply nth_error_In with (n := 3). rewrite <- Hl. let X := eval vm_compute in (layers_of classifier_net) in change layers with X. reflexivity. }
  assert (Q := C69_outputs classifier_net layers hubs lay held_out params classifier_created l Ht). cbv zeta in Q. unfold eval_equation in Q. rewrite E2 in Q. cbv zeta in Q. rewrite E3 in Q.
  destruct Q as [_ Q]. specialize (Q i j Hi Hj). unfold mat_of in Q. cbn [b_time b_size held_out] in Q. unfold arr. rewrite Q. unfold x, arr. cbn [Rsum]. f_equal. ring.
Qed.
(** The networks of C66 have no Dropout and BatchNorm layers. *)
Example C69_same_example : created regression_net (layers_of regression_net) (fst (layout_of regression_net)) (snd (layout_of regression_net)) /\
  (forall l, In l (tl (layers_of regression_net)) -> li_cls l <> CDropout /\ li_cls l <> CBatchNorm) /\ length (layers_of regression_net) = 6.
Proof.
  split; [exact regression_created|]. split; [|vm_compute; reflexivity].
  assert (X : forallb (fun l => match li_cls l with CDropout | CBatchNorm => false | _ => true end) (tl (layers_of regression_net)) = true) by (vm_compute; reflexivity).
  intros l Hl. rewrite forallb_forall in X. specialize (X l Hl). destruct (li_cls l); split; congruence.
Qed.
