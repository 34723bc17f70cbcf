(** C70 for data sets: what evaluations report does not depend on the minibatches. *)
From Coq Require Import String Ascii List ZArith QArith Reals Bool Lia Lra Arith FunctionalExtensionality Permutation.
From Verif Require Import NumBase NumpyModel LayersModel ConvModel ConvBase NetworkModel NetworkProps NetLayersModel NetLayersProps MemoryPassModel MemoryPassProofs.
From Verif Require HooksModel ScorersModel ScorersProps.
From Verif Require Import HubModel LayoutModel BuffersModel BuffersProofs.
From Verif Require Import PyBase PyFacts UtilsModel NamesModel ArchModel ShapesModel SetupModel SetupProps InstanceProofs InstanceProps NetLayoutExtra NetLayoutProofs NetLayoutProps CellsProofs NetMemoryModel NetSizesProofs NetPartsProofs NetMemoryProofs NetForwardProofs NetForwardProps NetMemoryProps SchedulesModel TrainNetModel TrainNetProofs TrainNetProps ModifiersModel ModifiersProps ModNetModel ModNetProofs ModNetProps EvalNetModel EvalNetProofs EvalNetProps LocalLayersProofs LocalNetProofs LocalNetProofs2 LocalNetProps DataNetModel.
Import ListNotations.
Open Scope string_scope.
Open Scope list_scope.
Open Scope nat_scope.

Lemma own_outputs : ~ In "outputs" ["inputs"; "input_deltas"]. Proof. cbn; intuition discriminate. Qed.
(** Every buffer of the Input layer holds its array. *)
Lemma provide_read a layers hubs lay T B data m l0 r x k : created a layers hubs lay -> layers = l0 :: r -> In x (map fst (li_out l0)) ->
  k < length (cells layers hubs lay T B l0 "outputs" x) -> read (cells layers hubs lay T B l0 "outputs" x) (provide layers hubs lay T B data m) k = data x k.
Proof.
  intros [HN HI HL HZ _ _] El Hx Hk. unfold provide. rewrite El at 2. assert (Hl : In l0 layers) by (rewrite El; now left). rewrite read_eq, (proj2 (Nat.ltb_lt _ _) Hk).
  assert (ND : NoDup (map fst (li_out l0))) by exact (buffers_NoDup a layers HN HI l0 "outputs" Hl).
  assert (Apart : forall y, y <> x -> ~ In (nth k (cells layers hubs lay T B l0 "outputs" x) 0) (cells layers hubs lay T B l0 "outputs" y)).
  { intros y Hy K. destruct (cells_once a layers hubs lay HN HI HL HZ T B l0 "outputs" x l0 "outputs" y _ Hl Hl own_outputs own_outputs (nth_In _ _ Hk) K) as [_ [_ E]]. congruence. }
  generalize m. clear m. revert Hx ND. generalize (map fst (li_out l0)). intros xs. induction xs as [|y ys IH]; intros Hx ND m; [destruct Hx|]. cbn [fold_left]. inversion_clear ND.
  destruct (in_dec string_dec x ys) as [Hin|Hin]; [now apply IH|]. destruct Hx as [->|Hx]; [|contradiction].
  assert (Keep : forall m, fold_left (fun m name => write (cells layers hubs lay T B l0 "outputs" name) (data name) m) ys m (nth k (cells layers hubs lay T B l0 "outputs" x) 0) = m (nth k (cells layers hubs lay T B l0 "outputs" x) 0)).
  { clear IH H0 H. induction ys as [|z zs IHz]; intros m'; [reflexivity|]. cbn [fold_left]. rewrite IHz by (intros K; apply Hin; now right). apply write_out. apply Apart. intros ->. apply Hin. now left. }
  rewrite Keep. apply write_in; [|exact Hk]. exact (cells_NoDup a layers hubs lay HN HI HL HZ T B l0 "outputs" x Hl own_outputs).
Qed.
(** The data of a minibatch *)
Lemma minibatch_value a layers hubs lay T data ids e m l0 r x s t i j : created a layers hubs lay -> layers = l0 :: r -> In (x, s) (li_out l0) -> over_time s ->
  t <= T -> i < length ids -> j < nfeatures s ->
  let b := minibatch layers hubs lay T data ids e m in value layers hubs lay b (b_mem b) l0 "outputs" x t i j = data x t (nth i ids 0) j.
Proof.
  intros CR El Hx Os Ht Hi Hj b. assert (CR' := CR). destruct CR' as [HN HI HL HZ _ _]. assert (Hl : In l0 layers) by (rewrite El; now left).
  assert (N := nf_here a layers HN HI l0 "outputs" x s Hl Hx). change (buffers_of l0 "outputs") with (li_out l0) in N.
  destruct (row_cell a layers hubs lay HN HI HL HZ l0 "outputs" x s (S T) (length ids) t i j Hl Hx Os ltac:(lia) Hi Hj) as [_ [_ [_ [_ [_ [L _]]]]]].
  unfold value. change (buffers_of l0 "outputs") with (li_out l0). unfold b, minibatch. cbn [b_time b_size b_mem]. rewrite N.
  rewrite (provide_read a layers hubs lay (S T) (length ids) (selected layers data ids) m l0 r x _ CR El (in_map fst _ _ Hx) L).
  unfold selected. rewrite El. rewrite N. rewrite (divL _ _ j Hj), (modL _ _ j Hj), (divL _ _ i Hi), (modL _ _ i Hi). reflexivity.
Qed.

(** [e ids], [m ids]: dropout masks and memory when the batch [ids] is processed *)
Section DataSet.
  Variables (a : karch) (layers : list linst) (hubs : list hub) (lay : slices) (T : nat) (data : dataset) (e : list nat -> env) (m : list nat -> vec).
  (** All sequences start with the same context, as they do without context argument (zeros). *)
  Definition same_start : Prop := forall ids ids', (forall name i i' j, e_ctx (e ids) name i j = e_ctx (e ids') name i' j) /\ e_precision (e ids) = e_precision (e ids') /\ e_min (e ids) = e_min (e ids').
  Definition of_ids (ids : list nat) : batch := minibatch layers hubs lay T data ids (e ids) (m ids).
  Definition labelled (id : nat) : Prop := proper_labels layers hubs lay (of_ids [id]) 0 T.
  Lemma minibatch_consists ids : created a layers hubs lay -> same_start -> ids <> [] -> (forall id, In id ids -> labelled id) -> consists layers hubs lay (fun id => of_ids [id]) T (of_ids ids) ids.
  Proof.
    intros CR ST NE LB. split; [reflexivity|]. split; [reflexivity|]. split; [exact NE|]. intros k id Hk. split; [reflexivity|]. split; [reflexivity|].
    assert (Lk : k < length ids) by (apply nth_error_Some; congruence). assert (Nk : nth k ids 0 = id) by (apply nth_error_nth; exact Hk).
    split; [|apply LB; eapply nth_error_In; exact Hk]. destruct (ST [id] ids) as [S1 S2]. constructor.
    - cbn. lia.
    - intros l0 r x s t j El Hx Os Ht Hj. unfold of_ids. rewrite (minibatch_value a layers hubs lay T data [id] _ _ l0 r x s t 0 j CR El Hx Os Ht ltac:(cbn; lia) Hj).
      rewrite (minibatch_value a layers hubs lay T data ids _ _ l0 r x s t k j CR El Hx Os Ht Lk Hj). rewrite Nk. reflexivity.
    - intros l _ j _. apply S1.
    - exact S2.
  Qed.
End DataSet.

(** The total loss reported for a data set of [n] sequences is the same for all groupings into minibatches: it is
    the mean of the losses of the sequences. *)
Theorem C70_dataset_loss : forall a layers hubs lay T data e m n groups params, created a layers hubs lay -> has_parameters layers hubs lay -> timed_losses layers ->
  same_start e -> (forall id, id < n -> labelled layers hubs lay T data e m id) ->
  (forall ids, In ids groups -> ids <> []) -> Permutation (concat groups) (List.seq 0 n) ->
  let b ids := of_ids layers hubs lay T data e m ids in
  ScorersModel.weighted_average (map (fun ids => (INR (b_size (b ids)), eval_loss layers hubs lay (b ids) params)) groups) =
  mean (map (fun id => eval_loss layers hubs lay (b [id]) params) (List.seq 0 n)).
Proof.
  intros a layers hubs lay T data e m n groups params CR HE TL ST LB NE P b.
  assert (X := C70_reported_loss a layers hubs lay (fun id => b [id]) T n (map (fun ids => (b ids, ids)) groups) params CR HE TL). rewrite !map_map in X. cbn [fst snd] in X. apply X.
  - intros b0 ids H. apply in_map_iff in H. destruct H as [ids' [E H]]. injection E as <- <-. apply (minibatch_consists a); auto. intros id Hid. apply LB.
    assert (Hc : In id (List.seq 0 n)) by (apply (Permutation_in _ P); apply in_concat; exists ids'; auto). apply in_seq in Hc. lia.
  - rewrite map_id. exact P.
Qed.
Print Assumptions C70_dataset_loss.
(** The same for scores. *)
Theorem C70_dataset_score : forall a layers hubs lay T data e m n groups params input r targets mask l out kind, created a layers hubs lay -> has_parameters layers hubs lay -> 0 < n ->
  same_start e -> (forall id, id < n -> labelled layers hubs lay T data e m id) ->
  (forall ids, In ids groups -> ids <> []) -> Permutation (concat groups) (List.seq 0 n) ->
  layers = input :: r -> timed (li_out input) targets -> (forall x, mask = Some x -> timed (li_out input) x) ->
  In l (tl layers) -> In out (out_names (li_cls l) ++ pred_names (li_cls l)) -> timed (li_out l) out ->
  let b ids := of_ids layers hubs lay T data e m ids in
  let score ids := scored layers hubs lay params input targets mask l out kind (b ids) in
  ScorersModel.aggregate (map score groups) = ScorersModel.aggregate [score (List.seq 0 n)].
Proof.
  intros a layers hubs lay T data e m n groups params input r targets mask l out kind CR HE Hn ST LB NE P El Ti Tm Hl Ho To b score.
  assert (X := C70_reported_score a layers hubs lay (fun id => b [id]) T n (map (fun ids => (b ids, ids)) groups) (b (List.seq 0 n)) params input r targets mask l out kind CR HE).
  rewrite !map_map in X. cbn [fst snd] in X. unfold score. apply X; auto.
  - intros b0 ids H. apply in_map_iff in H. destruct H as [ids' [E H]]. injection E as <- <-. apply (minibatch_consists a); auto. intros id Hid. apply LB.
    assert (Hc : In id (List.seq 0 n)) by (apply (Permutation_in _ P); apply in_concat; exists ids'; auto). apply in_seq in Hc. lia.
  - apply (minibatch_consists a); auto; [destruct n; [lia|discriminate]|]. intros id Hid. apply in_seq in Hid. apply LB. lia.
  - rewrite map_id. exact P.
Qed.
Print Assumptions C70_dataset_score.

(** ** Example: a network with an Lstm layer for regression, 3 sequences with 4 time steps *)
Definition over_time_b (b : bstruct) : bool :=
  match bs_shape b with DT :: DB :: ds => forallb (fun d => match d with DInt _ => true | _ => false end) ds | _ => false end.
Lemma over_time_b_ok b : over_time_b b = true -> over_time b.
Proof.
  unfold over_time_b, over_time. destruct (bs_shape b) as [|d1 [|d2 ds]]; try discriminate; destruct d1; try discriminate. destruct d2; try discriminate. intros H.
  assert (G : exists f, ds = map DInt f). { induction ds as [|d ds IH]; [now exists []|]. cbn in H. destruct d; try discriminate H. destruct (IH H) as [f ->]. eexists (_ :: f). reflexivity. }
  destruct G as [f ->]. now exists f.
Qed.
Definition timed_losses_b (layers : list linst) : bool :=
  forallb (fun l => match li_cls l with CLoss => match dget "default" (li_in l) with Some b => over_time_b b | None => false end | _ => true end) (tl layers).
Lemma timed_losses_b_ok layers : timed_losses_b layers = true -> timed_losses layers.
Proof.
  intros X l Hl Ec. unfold timed_losses_b in X. rewrite forallb_forall in X. specialize (X l Hl). rewrite Ec in X. destruct (dget "default" (li_in l)) as [b|] eqn:Eb; [|discriminate X]. exists b. split; [now apply dget_In|now apply over_time_b_ok].
Qed.
Definition seven : dataset := fun name t id j => (INR t + INR id * 7)%R.
Example C70_example : forall e m, same_start e ->
  let layers := layers_of regression_net in
  let hubs := fst (layout_of regression_net) in
  let lay := snd (layout_of regression_net) in
  created regression_net layers hubs lay /\ has_parameters layers hubs lay /\ timed_losses layers /\
  (forall id, labelled layers hubs lay 3 seven e m id) /\
  Permutation (concat [[2; 0]; [1]]) (List.seq 0 3) /\
  consists layers hubs lay (fun id => of_ids layers hubs lay 3 seven e m [id]) 3 (of_ids layers hubs lay 3 seven e m [2; 0]) [2; 0] /\
  (exists l input r, layers = input :: r /\ In l (tl layers) /\ li_name l = "Out" /\ In "default" (out_names (li_cls l) ++ pred_names (li_cls l)) /\ timed (li_out l) "default" /\ timed (li_out input) "targets" /\
     value layers hubs lay (of_ids layers hubs lay 3 seven e m [2; 0]) (b_mem (of_ids layers hubs lay 3 seven e m [2; 0])) input "outputs" "default" 3 0 1 = 17%R) /\
  (* the first 3 steps of sequence 1 are those of another sequence with other data afterwards *)
  (forall other, (forall name t id j, t <= 2 -> other name t id j = seven name t 1 j) -> same_sequence layers hubs lay (of_ids layers hubs lay 3 seven e m [1]) 0 (of_ids layers hubs lay 3 other e m [4; 4]) 1 2) /\
  (forall l, In l (tl layers) -> li_cls l <> CDropout /\ li_cls l <> CBatchNorm) /\ forall b params, smooth_at layers hubs lay b params.
Proof.
  intros e m ST layers hubs lay.
  assert (CR : created regression_net layers hubs lay) by exact regression_created. assert (LB : forall id, labelled layers hubs lay 3 seven e m id).
  { intros id l k Hl Ec. exfalso. assert (X : forallb (fun l => match li_cls l with CSoftmaxCE => false | _ => true end) (tl layers) = true) by (vm_compute; reflexivity). rewrite forallb_forall in X. specialize (X l Hl). rewrite Ec in X. discriminate X. }
  split; [exact CR|]. split.
  { destruct (C67_example (mkEnv (fun _ _ _ => 0%R) (fun _ _ _ => 0%R) 0%Z 0%R) (fun _ => 0%R)) as [_ [_ [_ [_ [_ [_ [[l [_ [_ X]]] _]]]]]]]. now exists 5, l, "W", [2; 1]. }
  split.
  { apply timed_losses_b_ok. vm_compute. reflexivity. }
  split; [exact LB|]. split; [exact (perm_trans (perm_swap 0 2 [1]) (perm_skip 0 (perm_swap 1 2 [])))|].
  split; [apply (minibatch_consists regression_net); auto; discriminate|].
  assert (F : exists l input r s st sd, layers = input :: r /\ nth_error (tl layers) 2 = Some l /\ li_name l = "Out" /\ out_names (li_cls l) = ["default"] /\ dget "default" (li_out l) = Some s /\ over_time_b s = true /\
    dget "targets" (li_out input) = Some st /\ over_time_b st = true /\ dget "default" (li_out input) = Some sd /\ over_time_b sd = true /\ nfeatures sd = 2).
  { unfold layers. do 6 eexists. do 10 (split; [vm_compute; reflexivity|]). vm_compute. reflexivity. }
  assert (ND : forall l, In l (tl layers) -> li_cls l <> CDropout /\ li_cls l <> CBatchNorm) by exact (proj1 (proj2 C69_same_example)).
  assert (SM : forall b params, smooth_at layers hubs lay b params) by exact regression_smooth.
  clearbody layers hubs lay. destruct F as [l [input [r [s [st [sd [F1 [F2 [F3 [F4 [F5 [F6 [F7 [F8 [F9 [F10 F11]]]]]]]]]]]]]]]].
  split; [exists l, input, r; split; [exact F1|]; split; [now apply nth_error_In with (n := 2)|]; split; [exact F3|]; split; [rewrite F4; now left|]; split|split; [|split; assumption]].
  - exists s. split; [now apply dget_In|now apply over_time_b_ok].
  - split; [exists st; split; [now apply dget_In|now apply over_time_b_ok]|].
    unfold of_ids. rewrite (minibatch_value regression_net layers hubs lay 3 seven [2; 0] _ _ input r "default" sd 3 0 1 CR F1 (dget_In _ _ _ F9) (over_time_b_ok _ F10)); [|lia|cbn; lia|lia]. unfold seven. cbn. lra.
  - intros other Ho. destruct (ST [1] [4; 4]) as [S1 S2]. constructor; [cbn; lia| |intros z _ j _; apply S1|exact S2].
    intros l0 r0 x s0 t j El Hx Os Ht Hj. unfold of_ids. rewrite (minibatch_value regression_net layers hubs lay 3 seven [1] _ _ l0 r0 x s0 t 0 j CR El Hx Os ltac:(lia) ltac:(cbn; lia) Hj).
    rewrite (minibatch_value regression_net layers hubs lay 3 other [4; 4] _ _ l0 r0 x s0 t 1 j CR El Hx Os ltac:(lia) ltac:(cbn; lia) Hj). symmetry. now apply Ho.
Qed.
(** A classifier with Dropout, BatchNorm and SoftmaxCE layers: the targets are class labels. *)
Lemma labels_of_data a layers hubs lay T data e m id (c : R) : created a layers hubs lay -> has_parameters layers hubs lay ->
  (forall name t k j, (0 <= data name t k j < c)%R) -> (forall l, In l (tl layers) -> li_cls l = CSoftmaxCE -> INR (nf (li_in l) "default") = c) -> labelled layers hubs lay T data e m id.
Proof.
  intros CR HP Hd Hc l k Hl Ec Hk. rewrite (Hc l Hl Ec). assert (CR' := CR). destruct CR' as [HN HI HL HZ HS HD].
  destruct (net_extra a layers HN HI l (In_tl _ _ Hl) (HS l Hl)) as [EX TI]. unfold extra in EX. rewrite Ec in EX. destruct EX as [X1 _].
  destruct (dget "targets" (li_in l)) as [bs|] eqn:Ed; [|unfold nf in X1; rewrite Ed in X1; discriminate X1]. assert (Hb := dget_In _ _ _ Ed).
  assert (Ob : over_time bs) by (apply (TI ltac:(rewrite Ec; discriminate) ltac:(rewrite Ec; discriminate) "targets" bs Hb)). assert (Nb : nfeatures bs = 1) by (unfold nf in X1; now rewrite Ed in X1).
  destruct (tl_split a layers hubs lay HI HL HZ HS HD (e []) 0 1 l Hl) as [pre [post [E Np]]].
  destruct (inputs_source a layers hubs lay HN HI HL HZ HS HD HP pre l post "targets" bs 0 E Np Hb Ob ltac:(lia)) as [l' [y [s' [o [I1 [I2 [I3 [I4 [_ [I5 I6]]]]]]]]]].
  rewrite (I6 (of_ids layers hubs lay T data e m [id]) _ k 0 Hk ltac:(cbn; lia)). unfold of_ids.
  rewrite (minibatch_value a layers hubs lay T data [id] _ _ l' (tl layers) y s' k 0 o CR); [apply Hd|apply I5; rewrite Ec; cbn; tauto|exact I2|exact I3|exact Hk|cbn; lia|exact I4].
Qed.
Example C70_classifier_example : forall e m data, same_start e -> (forall name t k j, (0 <= data name t k j < 3)%R) ->
  let layers := layers_of classifier_net in
  let hubs := fst (layout_of classifier_net) in
  let lay := snd (layout_of classifier_net) in
  created classifier_net layers hubs lay /\ has_parameters layers hubs lay /\ timed_losses layers /\ (forall id, labelled layers hubs lay 2 data e m id) /\
  Permutation (concat [[0; 1]; [2; 3]; [4]]) (List.seq 0 5) /\
  exists l input r, layers = input :: r /\ In l (tl layers) /\ li_name l = "SM" /\ In "predictions" (out_names (li_cls l) ++ pred_names (li_cls l)) /\ timed (li_out l) "predictions" /\ timed (li_out input) "targets".
Proof.
  intros e m data ST Hd layers hubs lay. assert (CR : created classifier_net layers hubs lay) by exact classifier_created. split; [exact CR|].
  assert (X : exists l b v, nth_error layers 3 = Some l /\ li_name l = "Out" /\ dget "W" (li_params l) = Some b /\ fdims b = [3; 2] /\
    view layers hubs lay 1 1 l "parameters" "W" = Some v /\ exists k, nth_error (whole layers hubs lay 1 1 "parameters") k = Some (address v [2; 1])).
  { unfold layers, hubs, lay. do 3 eexists. do 5 (split; [vm_compute; reflexivity|]). exists 13. vm_compute. reflexivity. }
  assert (TL : timed_losses layers) by (apply timed_losses_b_ok; vm_compute; reflexivity).
  assert (C3 : forall l, In l (tl layers) -> li_cls l = CSoftmaxCE -> INR (nf (li_in l) "default") = 3%R).
  { assert (C : forallb (fun l => match li_cls l with CSoftmaxCE => nf (li_in l) "default" =? 3 | _ => true end) (tl layers) = true) by (vm_compute; reflexivity).
    intros l Hl Ec. rewrite forallb_forall in C. specialize (C l Hl). rewrite Ec in C. apply Nat.eqb_eq in C. rewrite C. cbn. lra. }
  assert (F : exists l input r s st, layers = input :: r /\ nth_error (tl layers) 3 = Some l /\ li_name l = "SM" /\ li_cls l = CSoftmaxCE /\ dget "predictions" (li_out l) = Some s /\ over_time_b s = true /\
    dget "targets" (li_out input) = Some st /\ over_time_b st = true).
  { unfold layers. do 5 eexists. do 7 (split; [vm_compute; reflexivity|]). vm_compute. reflexivity. }
  clearbody layers hubs lay. assert (HP : has_parameters layers hubs lay).
  { destruct X as [l [b [v [E1 [E2 [E3 [E4 [E5 [k E6]]]]]]]]]. destruct CR as [HN HI HL HZ _ _]. exists k, l, "W", [2; 1].
    apply (element_at classifier_net layers hubs lay k 3 "Out" "W" b l v [2; 1] HN HI HL HZ E1 E2 E3); [rewrite E4; repeat constructor|exact E5|exact E6]. }
  split; [exact HP|]. split; [exact TL|]. split; [intros id; exact (labels_of_data classifier_net layers hubs lay 2 data e m id 3 CR HP Hd C3)|]. split; [apply Permutation_refl|].
  destruct F as [l [input [r [s [st [F1 [F2 [F3 [F4 [F5 [F6 [F7 F8]]]]]]]]]]]]. exists l, input, r. split; [exact F1|]. split; [now apply nth_error_In with (n := 3)|]. split; [exact F3|]. split; [rewrite F4; cbn; tauto|].
  split; [exists s|exists st]; (split; [now apply dget_In|now apply over_time_b_ok]).
Qed.
