(** C73: Trainer.train on a network created from an architecture. *)
From Coq Require Import String Ascii List ZArith QArith Reals Bool Lia Lra Arith FunctionalExtensionality.
From Verif Require Import NumBase NumpyModel LayersModel ConvModel NetworkModel NetworkProps NetLayersModel MemoryPassModel MemoryPassProofs.
From Verif Require Import HubModel LayoutModel BuffersModel BuffersProofs.
From Verif Require Import PyBase PyFacts UtilsModel NamesModel ArchModel ShapesModel SetupModel SetupProps InstanceProofs InstanceProps NetLayoutExtra NetLayoutProofs NetLayoutProps CellsProofs NetMemoryModel NetSizesProofs NetMemoryProofs NetForwardProofs NetForwardProps NetMemoryProps SchedulesModel TrainNetModel TrainNetProofs TrainNetProps ModifiersModel ModNetModel ModNetProofs ModNetProps EvalNetModel EvalNetProofs EvalNetProps.
From Verif Require Import TrainerModel TrainerProofs TrainerProps TrainRunModel TrainRunProofs.
From Verif Require ScorersModel.
Import ListNotations.
Open Scope string_scope.
Open Scope list_scope.
Open Scope nat_scope.

(** The training of C68 (C67 with modifiers): update i uses the batch i, the learning rate and the momentum that the
    schedules give for it. *)
Definition trained (fmax : R) (layers : list linst) (hubs : list hub) (lay : slices) (me : method) (m : nat) (initial : string -> R)
  (sched : string -> option (string * nat * (nat -> nat -> string -> nat -> option R))) (batches : nat -> batch) (first : tstate) (i : nat) : tstate :=
  ModNetModel.train fmax layers hubs lay (stepper_of me (value m initial sched "momentum")) (value m initial sched "learning_rate") batches i first.
(** The stepper starts without velocity. *)
Definition started (x : tstate) : tstate := ModNetModel.start (t_weight x) (t_grad x) (s_params (t_step x)).

(** Hooks that request a stop only at the end of epochs *)
Definition stops_after_epochs {X} (h : hook R (nworld X)) : Prop :=
  h_scale _ _ h = "epoch" \/ forall e u w l w' v b, h_call _ _ h e u w l = Some (w', v, b) -> b = false.
(** What is assumed of a run: a new trainer, m batches in every epoch, hooks that evaluate the network or set attributes
    of the stepper by schedules (one per attribute). *)
Record setting (layers : list linst) (hubs : list hub) (lay : slices) (X : Type) (new_iterator : nworld X -> nworld X * list batch) (m : nat)
  (sched : string -> option (string * nat * (nat -> nat -> string -> nat -> option R))) (hooks : list (hook R (nworld X))) (s : state R (nworld X)) : Prop := mkSetting {
  ok_element : exists k l p idx, is_element layers hubs lay k l p idx;
  ok_batches : 0 < m;
  ok_schedules : sound_schedules sched;
  ok_iterator : gives_batches X new_iterator m;
  ok_hooks : forall h, In h hooks -> monitors layers hubs lay X h \/ schedules X sched h;
  ok_attributes : forall attr scale k f, sched attr = Some (scale, k, f) -> exists name, In (modify_attribute X name attr scale k f) hooks;
  ok_stops : forall h, In h hooks -> stops_after_epochs h;
  ok_epoch : t_epoch _ _ s = 0;
  ok_update : t_update _ _ s = 0;
  ok_modifiers : fits layers (t_weight (w_net (t_world _ _ s))) /\ fits layers (t_grad (w_net (t_world _ _ s)))
}.

Lemma emit_no_stop X (hooks : list (hook R (nworld X))) : (forall h, In h hooks -> stops_after_epochs h) -> forall s s' stop ev,
  emit_hooks R (nworld X) false hooks "update" s = Some (s', stop, ev) -> stop = false.
Proof.
  induction hooks as [|h r IH]; intros Hs s s' stop ev H; cbn [emit_hooks] in H; [now injection H as _ <- _|].
  assert (Hr : forall h, In h r -> stops_after_epochs h) by (intros z Hz; apply Hs; now right). specialize (IH Hr).
  destruct (String.eqb (h_scale _ _ h) "update") eqn:Es; cbn [negb] in H; [|exact (IH _ _ _ _ H)]. apply String.eqb_eq in Es.
  destruct (h_interval _ _ h =? 0); [discriminate H|]. destruct (negb _); [exact (IH _ _ _ _ H)|].
  destruct (h_call _ _ h _ _ _ _) as [[[w v] b]|] eqn:Eh; [|discriminate H]. destruct (add_log _ _ _) as [ls|]; [|discriminate H].
  match type of H with match ?q with _ => _ end = _ => destruct q as [[[s2 b2] ev2]|] eqn:E2; [|discriminate H] end. injection H as _ <- _.
  rewrite (IH _ _ _ _ E2). destruct (Hs h (or_introl eq_refl)) as [K|K]; [congruence|]. now rewrite (K _ _ _ _ _ _ _ Eh).
Qed.
Lemma batches_no_stop X (hooks : list (hook R (nworld X))) step : (forall h, In h hooks -> stops_after_epochs h) -> forall bs scores s s' stop scores' ev,
  run_batches R (nworld X) batch (R * R) step hooks bs scores s = Some (s', stop, scores', ev) -> stop = false.
Proof.
  intros Hs. induction bs as [|b r IH]; intros scores s s' stop scores' ev H; cbn [run_batches] in H; [now injection H as _ <- _ _|].
  destruct (step _ b) as [[w sc]|]; [|discriminate H]. destruct (emit_hooks _ _ _ _ _ _) as [[[s2 st] ev1]|] eqn:E; [|discriminate H].
  rewrite (emit_no_stop X hooks Hs _ _ _ _ E) in H. match type of H with match ?q with _ => _ end = _ => destruct q as [[[[s3 st3] sc3] ev3]|] eqn:E3; [|discriminate H] end. injection H as _ <- _ _. exact (IH _ _ _ _ _ _ E3).
Qed.
Lemma start_hooks_keep layers hubs lay X sched (hooks : list (hook R (nworld X))) : (forall h, In h hooks -> monitors layers hubs lay X h \/ schedules X sched h) ->
  forall w w', start_hooks R (nworld X) hooks w = Some w' -> w_net w' = w_net w /\ w_attr w' = w_attr w.
Proof.
  induction hooks as [|h r IH]; intros Hh w w' H; cbn [start_hooks] in H; [injection H as <-; auto|].
  destruct (h_start _ _ h w) as [w1|] eqn:E; [|discriminate H]. destruct (IH ltac:(intros z Hz; apply Hh; now right) _ _ H) as [-> ->].
  destruct (Hh h (or_introl eq_refl)) as [[M _]|[name [attr [scale [k [f [-> _]]]]]]]; [exact (M _ _ E)|]. injection E as <-. auto.
Qed.

Lemma training_told : forall a layers hubs lay fmax X me new_iterator m sched hooks fuel s s' fin tr,
  created a layers hubs lay -> setting layers hubs lay X new_iterator m sched hooks s ->
  train_network fmax layers hubs lay X me new_iterator hooks fuel s = Some (s', fin, tr) ->
  let initial := w_attr (t_world _ _ s) in
  let first := started (w_net (t_world _ _ s)) in
  exists batches : nat -> batch,
    t_update _ _ s' = t_epoch _ _ s' * m /\
    (forall e, e < t_epoch _ _ s' -> exists w, snd (new_iterator w) = map batches (List.seq (e * m) m)) /\
    tracks layers hubs lay (w_net (t_world _ _ s')) (trained fmax layers hubs lay me m initial sched batches first (t_update _ _ s')) /\
    Forall (told layers hubs lay fmax X me m initial sched hooks batches first) tr.
Proof.
  intros a layers hubs lay fmax X me it m sched hooks fuel s s' fin tr C [[k0 [l0 [p0 [idx0 E0]]]] Hm Hsc Hit Hh Ha Hst He0 Hu0 [F1 F2]] H initial first.
  unfold train_network, TrainerModel.train in H. unfold start_stepper in H.
  match type of H with match start_hooks _ _ _ ?w with _ => _ end = _ => set (w0 := w) in H end.
  destruct (start_hooks R (nworld X) hooks w0) as [w1|] eqn:E1; [|discriminate H]. destruct (start_hooks_keep layers hubs lay X sched hooks Hh _ _ E1) as [N1 A1].
  set (s1 := mkState R (nworld X) (t_epoch _ _ s) (t_update _ _ s) (t_logs _ _ s) (t_results _ _ s) w1) in H.
  assert (T0 : tracks layers hubs lay (w_net w1) first). { rewrite N1. unfold first, started, w0. cbn [w_net]. split; [intros; split; reflexivity|]. split; [intros; split; reflexivity|]. split; (split; [exact F1|exact F2]). }
  destruct (emit_hooks R (nworld X) false hooks "update" s1) as [[[s2 st2] ev2]|] eqn:E2; [|discriminate H]. assert (st2 = false) by exact (emit_no_stop X hooks Hst _ _ _ _ E2). subst st2.
  destruct (emit_hooks R (nworld X) false hooks "epoch" s2) as [[[s3 st3] ev3]|] eqn:E3; [|discriminate H].
  assert (B0 : exists b : batch, True). { assert (G := Hit w0). destruct (it w0) as [w' [|b bs]]; [|now exists b]. destruct G as [_ [_ G]]. cbn in G. lia. } destruct B0 as [b0 _].
  assert (U1 : t_update _ _ s1 = 0) by exact Hu0. assert (P1 : t_epoch _ _ s1 = 0) by exact He0.
  pose (bt := fun i => nth i (used layers hubs lay fmax X me it hooks fuel s3) b0).
  assert (ER := fun scale s s' stop ev => emit_run a layers hubs lay fmax X me C m initial sched hooks Hh bt first scale hooks s s' stop ev (fun h K => K)).
  destruct (ER "update" s1 s2 false ev2 E2) as [I1 [I2 [I3 [I4 [I5 I6]]]]]; [rewrite U1; exact T0|]. rewrite U1 in I2, I3, I6. rewrite P1 in I1, I6.
  destruct (ER "epoch" s2 s3 st3 ev3 E3) as [J1 [J2 [J3 [_ [_ J6]]]]]; [rewrite I2; exact I3|]. rewrite I2 in J2, J3, J6. rewrite I1 in J1, J6.
  assert (V : forall attr, w_attr (t_world _ _ s3) attr = value_at m initial sched 0 0 attr).
  { apply (emit_values a layers hubs lay fmax X me C m initial sched hooks Hh Ha bt first "epoch" s2 s3 st3 ev3 0 0 E3); [rewrite I2; exact I3| |].
    - intros attr. destruct (sched attr) as [[[scale k] f]|] eqn:Es.
      + destruct (Hsc _ _ _ _ Es) as [[-> | ->] Hk].
        * left. exists k, f. split; [exact Es|]. unfold TrainerModel.count. cbn [String.eqb Ascii.eqb Bool.eqb]. rewrite I1. now apply Nat.mod_0_l; lia.
        * right. destruct (I5 attr) as [k' [f' [Q1 [Q2 Q3]]]].
          { exists k, f. split; [exact Es|]. unfold TrainerModel.count. cbn [String.eqb Ascii.eqb Bool.eqb]. rewrite U1. apply Nat.mod_0_l. lia. }
          { left. destruct (Ha _ _ _ _ Es) as [name Hn]. exists name, k, f. auto. }
          rewrite U1, P1 in Q3. apply (set_update m initial sched Hm Hsc 0 0 attr k' f'); [exact Q1| |].
          { apply Nat.mod_0_l. destruct (Hsc _ _ _ _ Q1). lia. }
          unfold epoch_of. rewrite (Nat.div_small (0 + m - 1) m) by lia. exact Q3.
      + right. destruct (I4 attr) as [I|[k [f [Q1 _]]]]; [|congruence]. rewrite I. change (t_world _ _ s1) with w1. rewrite A1. unfold value_at. rewrite Es. reflexivity.
    - intros attr k f v Q1 Q2 Q3. rewrite I1, I2 in Q3. apply (set_epoch m initial sched Hm Hsc 0 0 attr k f v Q1); [|exact Q3]. apply Nat.mod_0_l. destruct (Hsc _ _ _ _ Q1). lia. }
  assert (D0 : epoch_of m 0 = 0) by (unfold epoch_of; apply Nat.div_small; lia).
  assert (T2 : Forall (told layers hubs lay fmax X me m initial sched hooks bt first) ev2).
  { apply Forall_forall. intros x Hx. destruct (I6 x Hx) as [name [v [bb [h [w [l [w' [-> [Q1 [Q2 [Q3 [Q4 Q5]]]]]]]]]]]]. cbn [told]. exists h, w, l, w'. change (String.eqb "update" "epoch") with false. cbv iota.
    unfold TrainerModel.count. change (String.eqb "update" "epoch") with false. cbv iota. rewrite U1, D0. auto. }
  assert (T3 : Forall (told layers hubs lay fmax X me m initial sched hooks bt first) ev3).
  { apply Forall_forall. intros x Hx. destruct (J6 x Hx) as [name [v [bb [h [w [l [w' [-> [Q1 [Q2 [Q3 [Q4 Q5]]]]]]]]]]]]. cbn [told]. exists h, w, l, w'. change (String.eqb "epoch" "epoch") with true. cbv iota.
    unfold TrainerModel.count. change (String.eqb "epoch" "epoch") with true. cbv iota. rewrite I1. auto. }
  exists bt. destruct st3.
  - injection H as <- _ <-. rewrite J1, J2. split; [reflexivity|]. split; [intros e; lia|]. split; [exact J3|]. apply Forall_app. now split.
  - destruct (run_epochs R (nworld X) batch (R * R) it (run_update fmax layers hubs lay X me) (aggregate_losses X) hooks fuel s3) as [[[s4 fin4] ev4]|] eqn:E4; [|discriminate H]. injection H as <- _ <-.
    destruct (epochs_run_spec a layers hubs lay fmax X me C k0 l0 p0 idx0 E0 it m initial sched Hm Hsc hooks Hh Ha Hit bt first (batches_no_stop X hooks _ Hst) fuel s3 s4 fin4 ev4 E4) as [K1 [K2 [K3 K4]]].
    + rewrite J1, J2. reflexivity.
    + intros i b Hb. rewrite J2. cbn [Nat.add]. unfold bt. exact (nth_error_nth _ _ b0 Hb).
    + rewrite J2. exact J3.
    + rewrite J1, J2. exact V.
    + split; [exact K1|]. split; [intros e Hl; apply K4; lia|]. split; [exact K2|]. apply Forall_app. split; [exact T2|]. apply Forall_app. split; [exact T3|exact K3].
Qed.

Lemma track_fold layers hubs lay bs : forall x scores,
  snd (fold_left (fun p b => (EvalNetModel.evaluate layers hubs lay b (fst p), snd p ++ [(INR (b_size b), eval_loss layers hubs lay b (s_params (t_step (fst p))))])) bs (x, scores)) =
  scores ++ snd (fold_left (fun p b => (EvalNetModel.evaluate layers hubs lay b (fst p), snd p ++ [(INR (b_size b), eval_loss layers hubs lay b (s_params (t_step (fst p))))])) bs (x, [])).
Proof.
  induction bs as [|b r IH]; intros x scores; cbn [fold_left fst snd app]; [now rewrite app_nil_r|]. rewrite IH, (IH _ [_]), <- app_assoc. reflexivity.
Qed.
Lemma fold_first layers hubs lay bs : forall x scores,
  fst (fold_left (fun p b => (EvalNetModel.evaluate layers hubs lay b (fst p), snd p ++ [(INR (b_size b), eval_loss layers hubs lay b (s_params (t_step (fst p))))])) bs (x, scores)) =
  fold_left (fun x b => EvalNetModel.evaluate layers hubs lay b x) bs x.
Proof. induction bs as [|b r IH]; intros x scores; cbn [fold_left fst snd]; [reflexivity|apply IH]. Qed.
Lemma same_inputs_refl layers hubs lay b : same_inputs layers hubs lay b b.
Proof. split; [|repeat split]. unfold eval_same. auto. Qed.
Lemma fold_losses a layers hubs lay x' bs : created a layers hubs lay -> (exists k l p idx, is_element layers hubs lay k l p idx) -> forall x, tracks layers hubs lay x x' ->
  snd (fold_left (fun p b => (EvalNetModel.evaluate layers hubs lay b (fst p), snd p ++ [(INR (b_size b), eval_loss layers hubs lay b (s_params (t_step (fst p))))])) bs (x, [])) =
  map (fun b => (INR (b_size b), eval_loss layers hubs lay b (s_params (t_step x')))) bs.
Proof.
  intros C E. induction bs as [|b r IH]; intros x Ht; cbn [fold_left fst snd app map]; [reflexivity|].
  rewrite track_fold, (IH _ (evaluate_tracks a layers hubs lay b x x' C Ht)). cbn [app]. f_equal. f_equal.
  apply (C69_eval_data a layers hubs lay b b _ _ C E (same_inputs_refl layers hubs lay b)). intros k l p idx He. apply (proj1 Ht k l p idx He).
Qed.
(** The hooks considered: stopping after epochs, and monitoring the loss. *)
Lemma stop_after_epoch_monitors layers hubs lay X name n scale k : monitors layers hubs lay X (stop_after_epoch R (nworld X) name n scale k).
Proof. split; [intros w w' H; injection H as <-; auto|]. intros e u w l w' v b H. injection H as <- _ _. split; [reflexivity|]. now exists []. Qed.
Lemma monitor_loss_monitors layers hubs lay X name scale k iterate : monitors layers hubs lay X (monitor_loss layers hubs lay X name scale k iterate) /\ stops_after_epochs (monitor_loss layers hubs lay X name scale k iterate).
Proof.
  assert (Q : forall e u w l w' v b, h_call _ _ (monitor_loss layers hubs lay X name scale k iterate) e u w l = Some (w', v, b) ->
    w' = mkNW (fold_left (fun x b => EvalNetModel.evaluate layers hubs lay b x) (snd (iterate (w_rest w))) (w_net w)) (w_attr w) (fst (iterate (w_rest w))) /\
    v = aggregate_losses X w (snd (fold_left (fun p b => (EvalNetModel.evaluate layers hubs lay b (fst p), snd p ++ [(INR (b_size b), eval_loss layers hubs lay b (s_params (t_step (fst p))))])) (snd (iterate (w_rest w))) (w_net w, []))) /\ b = false).
  { intros e u w l w' v b H. cbn [monitor_loss h_call] in H. destruct (iterate (w_rest w)) as [r bs]. cbn [fst snd]. rewrite <- (fold_first layers hubs lay bs (w_net w) []). destruct (fold_left _ bs (w_net w, [])) as [x scores]. injection H as <- <- <-. auto. }
  split; [|right; intros e u w l w' v b H; apply (Q _ _ _ _ _ _ _ H)].
  split; [intros w w' H; injection H as <-; auto|]. intros e u w l w' v b H. destruct (Q _ _ _ _ _ _ _ H) as [-> _]. split; [reflexivity|]. now exists (snd (iterate (w_rest w))).
Qed.

(** The trainer trains the network as in C67 and C68, on the batches that its iterators give, with the attributes of the
    stepper given by the schedules; it logs the average training losses of the epochs, and MonitorLoss the average losses
    of the network as it is after c epochs or updates. *)
Theorem C73_training : forall a layers hubs lay fmax X me new_iterator m sched hooks fuel s s' fin tr,
  created a layers hubs lay -> setting layers hubs lay X new_iterator m sched hooks s ->
  train_network fmax layers hubs lay X me new_iterator hooks fuel s = Some (s', fin, tr) ->
  let first := started (w_net (t_world _ _ s)) in
  exists batches : nat -> batch,
    let run := trained fmax layers hubs lay me m (w_attr (t_world _ _ s)) sched batches first in
    t_update _ _ s' = t_epoch _ _ s' * m /\
    (forall e, e < t_epoch _ _ s' -> exists w, snd (new_iterator w) = map batches (List.seq (e * m) m)) /\
    tracks layers hubs lay (w_net (t_world _ _ s')) (run (t_update _ _ s')) /\
    ((forall h, In h hooks -> h_name _ _ h <> "rolling_training") ->
       lists_at ["rolling_training"; "total_loss"] (t_logs _ _ s') = lists_at ["rolling_training"; "total_loss"] (t_logs _ _ s) ++
         map (fun e => ScorersModel.weighted_average (map (fun i => (INR (b_size (batches i)),
                         batch_loss layers hubs lay (batches i) (visited (stepper_of me (value m (w_attr (t_world _ _ s)) sched "momentum")) i (t_step (run i))))) (List.seq (e * m) m)))
             (List.seq 0 (t_epoch _ _ s'))) /\
    (forall name scale k iterate, let h := monitor_loss layers hubs lay X name scale k iterate in
       In h hooks -> (forall h', In h' hooks -> h_name _ _ h' = name -> h' = h) -> forall scale' c v stop, In (Called scale' c name v stop) tr ->
       scale' = scale /\ stop = false /\ exists r, v = VDict [("total_loss", VLeaf (ScorersModel.weighted_average
         (map (fun b => (INR (b_size b), eval_loss layers hubs lay b (s_params (t_step (run (if String.eqb scale "epoch" then c * m else c)))))) (snd (iterate r)))))]).
Proof.
  intros a layers hubs lay fmax X me it m sched hooks fuel s s' fin tr C ST H first.
  destruct (training_told a layers hubs lay fmax X me it m sched hooks fuel s s' fin tr C ST H) as [bt [U [Hit [Tr Told]]]].
  exists bt. intros run. split; [exact U|]. split; [exact Hit|]. split; [exact Tr|]. rewrite Forall_forall in Told. split.
  - intros Hn. unfold train_network in H. rewrite (C20_logs _ _ _ _ _ _ _ _ _ _ _ _ _ _ H "rolling_training" ["total_loss"]). f_equal.
    destruct (C18_numbering _ _ _ _ _ _ _ _ _ _ _ _ _ _ H) as [_ L]. rewrite (ok_epoch _ _ _ _ _ _ _ _ _ ST), Nat.sub_0_r in L. clear H Tr.
    rewrite <- seq_shift in L. revert L. generalize (List.seq 0 (t_epoch _ _ s')). induction tr as [|x r IH]; intros es L; cbn [loggeds flat_map] in L |- *.
    { symmetry in L. apply map_eq_nil in L. now subst es. }
    assert (Tx := Told x (or_introl eq_refl)). assert (IH' := IH (fun y Hy => Told y (or_intror Hy))). destruct x as [scale c name v stop|c|e v].
    + cbn [told] in Tx. destruct Tx as [h [_ [_ [_ [Hh [Hnm _]]]]]]. assert (N := Hn h Hh). rewrite Hnm in N. apply not_eq_sym, String.eqb_neq in N. rewrite N. cbn [app]. apply IH'. exact L.
    + cbn [app]. apply IH'. exact L.
    + cbn [told] in Tx. destruct Tx as [n [-> ->]]. destruct es as [|e0 es]; [discriminate L|]. cbn [map app] in L. injection L as -> L. rewrite String.eqb_refl. cbn [vals_at flat_map fst snd]. rewrite String.eqb_refl. cbn [app map]. f_equal. apply IH'. exact L.
  - intros name scale k iterate h Hh Huniq scale' c v stop Hc. assert (Tx := Told _ Hc). cbn [told] in Tx. destruct Tx as [h' [w [l [w' [H1 [H2 [H3 [H4 H5]]]]]]]].
    assert (h' = h) by exact (Huniq h' H1 H2). subst h'. subst scale'. change (h_scale _ _ h) with scale in H4, H5 |- *. split; [reflexivity|].
    cbn [monitor_loss h_call h] in H5. unfold h, monitor_loss in H5. cbn [h_call] in H5. destruct (iterate (w_rest w)) as [r bs] eqn:Ei.
    assert (F := fold_losses a layers hubs lay _ bs C (ok_element _ _ _ _ _ _ _ _ _ ST) (w_net w) H4).
    destruct (fold_left _ bs (w_net w, [])) as [x scores]. injection H5 as _ <- <-. cbn [snd] in F. split; [reflexivity|]. exists (w_rest w). rewrite Ei. cbn [snd]. unfold aggregate_losses. rewrite F. reflexivity.
Qed.
Print Assumptions C73_training.

(** The attribute that an exponential schedule gives for update i: it is multiplied by the factor after every k epochs (or updates). *)
Theorem C73_exponential : forall m initial sched attr scale k v0 factor i,
  sound_schedules sched -> sched attr = Some (scale, k, exponential v0 factor None None) ->
  value m initial sched attr i = (v0 * factor ^ ((if String.eqb scale "epoch" then i / m else i) / k))%R.
Proof.
  intros m initial sched attr scale k v0 factor i Hs H. destruct (Hs _ _ _ _ H) as [Sc Hk]. unfold value, value_at. rewrite H. unfold exponential. assert (E : (k =? 0) = false) by (apply Nat.eqb_neq; lia).
  assert (L : forall c, last_call k c / k = c / k) by (intros c; unfold last_call; rewrite Nat.mul_comm; apply Nat.div_mul; lia).
  destruct Sc as [-> | ->]; cbn [String.eqb Ascii.eqb Bool.eqb current]; rewrite E; cbn [py_min py_max]; unfold current; cbn [String.eqb Ascii.eqb Bool.eqb]; now rewrite L.
Qed.
Print Assumptions C73_exponential.

(** A network without modifiers that is trained for n epochs of m batches *)
Lemma descent : forall a layers hubs lay fmax X me new_iterator m sched hooks name n fuel s s' fin tr,
  created a layers hubs lay -> setting layers hubs lay X new_iterator m sched hooks s ->
  t_weight (w_net (t_world _ _ s)) = [] -> t_grad (w_net (t_world _ _ s)) = [] ->
  let stop := stop_after_epoch R (nworld X) name n "epoch" 1 in
  In stop hooks -> (forall h, In h hooks -> h = stop \/ forall e u w l w' v b, h_call _ _ h e u w l = Some (w', v, b) -> b = false) ->
  n <= fuel -> train_network fmax layers hubs lay X me new_iterator hooks fuel s = Some (s', fin, tr) ->
  let rate := value m (w_attr (t_world _ _ s)) sched "learning_rate" in
  let st := stepper_of me (value m (w_attr (t_world _ _ s)) sched "momentum") in
  fin = true /\ t_epoch _ _ s' = n /\ t_update _ _ s' = n * m /\
  exists batches : nat -> batch,
    (forall e, e < n -> exists w, snd (new_iterator w) = map batches (List.seq (e * m) m)) /\
    forall k l p idx, is_element layers hubs lay k l p idx ->
      let x := training (step_of st layers hubs lay rate) batches (n * m) (s_params (t_step (w_net (t_world _ _ s)))) in
      s_params x k = s_params (t_step (w_net (t_world _ _ s'))) k /\ s_buf x k = s_buf (t_step (w_net (t_world _ _ s'))) k.
Proof.
  intros a layers hubs lay fmax X me it m sched hooks name n fuel s s' fin tr C ST W0 G0 stop Hin Honly Hf H rate st.
  assert (H19 := C19_stop_after_epoch R (nworld X) batch (R * R) it (run_update fmax layers hubs lay X me) (aggregate_losses X) (start_stepper X) name n 1 m hooks Hin Honly).
  assert (Hlen : forall w, length (snd (it w)) = m) by exact (iterator_length X it m (ok_iterator _ _ _ _ _ _ _ _ _ ST)).
  destruct (H19 Hlen n fuel s s' fin tr) as [Q1 [Q2 Q3]]; [rewrite (ok_epoch _ _ _ _ _ _ _ _ _ ST); lia|now exists n; lia|lia|intros x _ _ Hx; exact Hx|exact H|].
  rewrite (ok_epoch _ _ _ _ _ _ _ _ _ ST) in Q1, Q2, Q3. rewrite (ok_update _ _ _ _ _ _ _ _ _ ST) in Q3. assert (Ef : fin = true) by (rewrite Q1; apply Nat.leb_le; lia). assert (En : t_epoch _ _ s' = n) by lia. rewrite En in Q3.
  assert (Eu : t_update _ _ s' = n * m) by lia. split; [exact Ef|]. split; [exact En|]. split; [exact Eu|].
  destruct (C73_training a layers hubs lay fmax X me it m sched hooks fuel s s' fin tr C ST H) as [bt [_ [Hit [Tr _]]]]. rewrite En in Hit. rewrite Eu in Tr.
  exists bt. split; [exact Hit|]. intros k l p idx He x.
  assert (RUN : t_step (trained fmax layers hubs lay me m (w_attr (t_world _ _ s)) sched bt (started (w_net (t_world _ _ s))) (n * m)) = x).
  { unfold trained, started. rewrite W0, G0. exact (C68_no_modifiers a layers hubs lay fmax st rate bt _ (n * m) C). }
  rewrite <- RUN. destruct (proj1 Tr k l p idx He) as [T1 T2]. split; [now symmetry|now symmetry].
Qed.
(** Gradient descent: n epochs of m batches by SgdStepper are n * m updates; each changes every parameter by the derivative of the
    loss of its batch times the current learning rate. *)
Theorem C73_gradient_descent : forall a layers hubs lay fmax X new_iterator m sched hooks name n fuel s s' fin tr,
  created a layers hubs lay -> setting layers hubs lay X new_iterator m sched hooks s ->
  t_weight (w_net (t_world _ _ s)) = [] -> t_grad (w_net (t_world _ _ s)) = [] ->
  let stop := stop_after_epoch R (nworld X) name n "epoch" 1 in
  In stop hooks -> (forall h, In h hooks -> h = stop \/ forall e u w l w' v b, h_call _ _ h e u w l = Some (w', v, b) -> b = false) ->
  n <= fuel -> train_network fmax layers hubs lay X MSgd new_iterator hooks fuel s = Some (s', fin, tr) ->
  let rate := value m (w_attr (t_world _ _ s)) sched "learning_rate" in
  fin = true /\ t_epoch _ _ s' = n /\ t_update _ _ s' = n * m /\
  exists (batches : nat -> batch) (theta : nat -> nat -> R),
    (forall e, e < n -> exists w, snd (new_iterator w) = map batches (List.seq (e * m) m)) /\
    (forall k l p idx, is_element layers hubs lay k l p idx ->
       theta 0 k = s_params (t_step (w_net (t_world _ _ s))) k /\ theta (n * m) k = s_params (t_step (w_net (t_world _ _ s'))) k) /\
    forall i, i < n * m -> smooth_at layers hubs lay (batches i) (theta i) ->
    forall k l p idx, is_element layers hubs lay k l p idx -> ~ average l p ->
    exists g, theta (S i) k = (theta i k - rate i * g)%R /\
      (In p (par_names l) -> D (theta i k) (fun r => batch_loss layers hubs lay (batches i) (NetworkModel.upd k r (theta i))) g) /\
      (~ In p (par_names l) -> g = 0%R).
Proof.
  intros a layers hubs lay fmax X it m sched hooks name n fuel s s' fin tr C ST W0 G0 stop Hin Honly Hf H rate.
  destruct (descent a layers hubs lay fmax X MSgd it m sched hooks name n fuel s s' fin tr C ST W0 G0 Hin Honly Hf H) as [Q1 [Q2 [Q3 [bt [Hit Fin]]]]]. split; [exact Q1|]. split; [exact Q2|]. split; [exact Q3|].
  exists bt, (fun i => s_params (training (fun k => sgd_step layers hubs lay (rate k)) bt i (s_params (t_step (w_net (t_world _ _ s)))))). split; [exact Hit|]. split.
  - intros k l p idx He. split; [reflexivity|]. exact (proj1 (Fin k l p idx He)).
  - intros i Hi Sm k l p idx He Na. destruct C as [HN HI HL HZ HS HD]. exact (C67_sgd a layers hubs lay rate bt _ i HN HI HL HZ HS HD Sm k l p idx He Na).
Qed.
Print Assumptions C73_gradient_descent.
(** The same for MomentumStepper: steps with momentum. *)
Theorem C73_momentum : forall a layers hubs lay fmax X new_iterator m sched hooks name n fuel s s' fin tr scale,
  created a layers hubs lay -> setting layers hubs lay X new_iterator m sched hooks s ->
  t_weight (w_net (t_world _ _ s)) = [] -> t_grad (w_net (t_world _ _ s)) = [] ->
  let stop := stop_after_epoch R (nworld X) name n "epoch" 1 in
  In stop hooks -> (forall h, In h hooks -> h = stop \/ forall e u w l w' v b, h_call _ _ h e u w l = Some (w', v, b) -> b = false) ->
  n <= fuel -> train_network fmax layers hubs lay X (MMomentum scale) new_iterator hooks fuel s = Some (s', fin, tr) ->
  let rate := value m (w_attr (t_world _ _ s)) sched "learning_rate" in
  let momentum := value m (w_attr (t_world _ _ s)) sched "momentum" in
  fin = true /\ t_epoch _ _ s' = n /\ t_update _ _ s' = n * m /\
  exists (batches : nat -> batch) (theta velocity : nat -> nat -> R),
    (forall e, e < n -> exists w, snd (new_iterator w) = map batches (List.seq (e * m) m)) /\
    (forall k l p idx, is_element layers hubs lay k l p idx ->
       theta 0 k = s_params (t_step (w_net (t_world _ _ s))) k /\ theta (n * m) k = s_params (t_step (w_net (t_world _ _ s'))) k) /\
    (forall k l p idx, is_element layers hubs lay k l p idx -> velocity 0 k = 0%R) /\
    forall i, i < n * m -> smooth_at layers hubs lay (batches i) (theta i) ->
    forall k l p idx, is_element layers hubs lay k l p idx -> ~ average l p ->
    exists g, velocity (S i) k = (momentum i * velocity i k - (if scale : bool then rate i * (1 - momentum i) else rate i) * g)%R /\
      theta (S i) k = (theta i k + velocity (S i) k)%R /\
      (In p (par_names l) -> D (theta i k) (fun r => batch_loss layers hubs lay (batches i) (NetworkModel.upd k r (theta i))) g) /\
      (~ In p (par_names l) -> g = 0%R).
Proof.
  intros a layers hubs lay fmax X it m sched hooks name n fuel s s' fin tr scale C ST W0 G0 stop Hin Honly Hf H rate momentum.
  destruct (descent a layers hubs lay fmax X (MMomentum scale) it m sched hooks name n fuel s s' fin tr C ST W0 G0 Hin Honly Hf H) as [Q1 [Q2 [Q3 [bt [Hit Fin]]]]]. split; [exact Q1|]. split; [exact Q2|]. split; [exact Q3|].
  pose (run := fun i => training (fun k => momentum_step layers hubs lay (rate k) (momentum k) scale) bt i (s_params (t_step (w_net (t_world _ _ s))))).
  exists bt, (fun i => s_params (run i)), (fun i => s_buf (run i)). split; [exact Hit|]. split.
  - intros k l p idx He. split; [reflexivity|]. exact (proj1 (Fin k l p idx He)).
  - split; [reflexivity|]. intros i Hi Sm k l p idx He Na. destruct C as [HN HI HL HZ HS HD]. exact (proj2 (C67_momentum a layers hubs lay rate momentum scale bt _ i HN HI HL HZ HS HD Sm k l p idx He Na)).
Qed.
Print Assumptions C73_momentum.
(** The same for NesterovStepper: steps with momentum, with the derivative at the parameters moved ahead. *)
Theorem C73_nesterov : forall a layers hubs lay fmax X new_iterator m sched hooks name n fuel s s' fin tr scale,
  created a layers hubs lay -> setting layers hubs lay X new_iterator m sched hooks s ->
  t_weight (w_net (t_world _ _ s)) = [] -> t_grad (w_net (t_world _ _ s)) = [] ->
  let stop := stop_after_epoch R (nworld X) name n "epoch" 1 in
  In stop hooks -> (forall h, In h hooks -> h = stop \/ forall e u w l w' v b, h_call _ _ h e u w l = Some (w', v, b) -> b = false) ->
  n <= fuel -> train_network fmax layers hubs lay X (MNesterov scale) new_iterator hooks fuel s = Some (s', fin, tr) ->
  let rate := value m (w_attr (t_world _ _ s)) sched "learning_rate" in
  let momentum := value m (w_attr (t_world _ _ s)) sched "momentum" in
  fin = true /\ t_epoch _ _ s' = n /\ t_update _ _ s' = n * m /\
  exists (batches : nat -> batch) (theta velocity : nat -> nat -> R),
    (forall e, e < n -> exists w, snd (new_iterator w) = map batches (List.seq (e * m) m)) /\
    (forall k l p idx, is_element layers hubs lay k l p idx ->
       theta 0 k = s_params (t_step (w_net (t_world _ _ s))) k /\ theta (n * m) k = s_params (t_step (w_net (t_world _ _ s'))) k) /\
    let ahead := fun i k => (theta i k + momentum i * velocity i k)%R in
    (forall k l p idx, is_element layers hubs lay k l p idx -> velocity 0 k = 0%R) /\
    forall i, i < n * m -> smooth_at layers hubs lay (batches i) (ahead i) ->
    forall k l p idx, is_element layers hubs lay k l p idx -> ~ average l p ->
    exists g, velocity (S i) k = (momentum i * velocity i k - (if scale : bool then rate i * (1 - momentum i) else rate i) * g)%R /\
      theta (S i) k = (theta i k + velocity (S i) k)%R /\
      (In p (par_names l) -> D (ahead i k) (fun r => batch_loss layers hubs lay (batches i) (NetworkModel.upd k r (ahead i))) g) /\
      (~ In p (par_names l) -> g = 0%R).
Proof.
  intros a layers hubs lay fmax X it m sched hooks name n fuel s s' fin tr scale C ST W0 G0 stop Hin Honly Hf H rate momentum.
  destruct (descent a layers hubs lay fmax X (MNesterov scale) it m sched hooks name n fuel s s' fin tr C ST W0 G0 Hin Honly Hf H) as [Q1 [Q2 [Q3 [bt [Hit Fin]]]]]. split; [exact Q1|]. split; [exact Q2|]. split; [exact Q3|].
  pose (run := fun i => training (fun k => nesterov_step layers hubs lay (rate k) (momentum k) scale) bt i (s_params (t_step (w_net (t_world _ _ s))))).
  exists bt, (fun i => s_params (run i)), (fun i => s_buf (run i)). split; [exact Hit|]. split.
  - intros k l p idx He. split; [reflexivity|]. exact (proj1 (Fin k l p idx He)).
  - intros ahead. split; [reflexivity|]. intros i Hi Sm k l p idx He Na. destruct C as [HN HI HL HZ HS HD]. exact (proj2 (C67_nesterov a layers hubs lay rate momentum scale bt _ i HN HI HL HZ HS HD Sm k l p idx He Na)).
Qed.
Print Assumptions C73_nesterov.

(** Example: the network of C67 is trained for two epochs of two batches; after every update the loss on held-out data is monitored
    (the iterator state is a counter), the learning rate is halved after every epoch. *)
Definition example_sched (attr : string) : option (string * nat * (nat -> nat -> string -> nat -> option R)) :=
  if String.eqb attr "learning_rate" then Some ("epoch", 1, exponential 1 (1 / 2) None None) else None.
Definition example_hooks (layers : list linst) (hubs : list hub) (lay : slices) (held_out : batch) : list (hook R (nworld nat)) :=
  [monitor_loss layers hubs lay nat "valid" "update" 1 (fun r => (S r, [held_out; held_out]));
   modify_attribute nat "rate" "learning_rate" "epoch" 1 (exponential 1 (1 / 2) None None);
   stop_after_epoch R (nworld nat) "stop" 2 "epoch" 1].
Definition example_iterator (b : nat -> batch) (w : nworld nat) : nworld nat * list batch :=
  (mkNW (w_net w) (w_attr w) (S (w_rest w)), [b (w_rest w); b (S (w_rest w))]).
Lemma example_runs fmax layers hubs lay held_out b x attrs : exists s' tr,
  train_network fmax layers hubs lay nat MSgd (example_iterator b) (example_hooks layers hubs lay held_out) 5 (mkState R (nworld nat) 0 0 [] [] (mkNW x attrs 0)) = Some (s', true, tr) /\
  length (filter (fun e => match e with Called _ _ name _ _ => String.eqb name "valid" | _ => false end) tr) = 5.
Proof.
  do 2 eexists. split.
  - lazy -[run_stepper update EvalNetModel.evaluate eval_loss net_loss ScorersModel.weighted_average INR stepper_start Rdiv Rinv IZR pow Rmult]. reflexivity.
  - reflexivity.
Qed.
Example C73_example : forall fmax held_out b x attrs,
  let layers := layers_of regression_net in
  let hubs := fst (layout_of regression_net) in
  let lay := snd (layout_of regression_net) in
  let hooks := example_hooks layers hubs lay held_out in
  let s := mkState R (nworld nat) 0 0 [] [] (mkNW (mkT x [] []) attrs 0) in
  created regression_net layers hubs lay /\ setting layers hubs lay nat (example_iterator b) 2 example_sched hooks s /\
  In (stop_after_epoch R (nworld nat) "stop" 2 "epoch" 1) hooks /\
  (forall h, In h hooks -> h = stop_after_epoch R (nworld nat) "stop" 2 "epoch" 1 \/ forall e u w l w' v b, h_call _ _ h e u w l = Some (w', v, b) -> b = false) /\
  (forall h, In h hooks -> h_name _ _ h <> "rolling_training") /\
  (exists s' tr, train_network fmax layers hubs lay nat MSgd (example_iterator b) hooks 5 s = Some (s', true, tr)) /\
  (forall params, smooth_at layers hubs lay held_out params) /\
  value 2 attrs example_sched "learning_rate" 1 = 1%R /\ value 2 attrs example_sched "learning_rate" 2 = (1 / 2)%R.
Proof.
  intros fmax held_out b x attrs layers hubs lay hooks s. split; [exact regression_created|].
  assert (EL : exists k l p idx, is_element layers hubs lay k l p idx).
  { destruct (C67_example (b_env held_out) (b_mem held_out)) as [_ [_ [_ [_ [_ [_ [[l [_ [_ E]]] _]]]]]]]. exists 5, l, "W", [2; 1]. exact E. }
  assert (SM : forall params, smooth_at layers hubs lay held_out params).
  { destruct (C67_example (b_env held_out) (b_mem held_out)) as [_ [_ [_ [_ [_ [_ [_ [Q _]]]]]]]]. intros params. exact (Q held_out params). }
  assert (SS : sound_schedules example_sched).
  { intros attr scale k f H. unfold example_sched in H. destruct (String.eqb attr "learning_rate"); [|discriminate H]. injection H as <- <- <-. split; [now left|lia]. }
  assert (RN := example_runs fmax layers hubs lay held_out b (mkT x [] []) attrs). unfold hooks, s. clearbody layers hubs lay. split; [constructor|].
  - exact EL.
  - lia.
  - exact SS.
  - intros w. cbn [example_iterator]. repeat split.
  - intros h [<-|[<-|[<-|[]]]]; [left; apply monitor_loss_monitors| |left; apply stop_after_epoch_monitors].
    right. exists "rate", "learning_rate", "epoch", 1, (exponential 1 (1 / 2) None None). split; reflexivity.
  - intros attr scale k f H. unfold example_sched in H. destruct (String.eqb attr "learning_rate") eqn:E; [|discriminate H]. apply String.eqb_eq in E. subst attr. injection H as <- <- <-. exists "rate". right. now left.
  - intros h [<-|[<-|[<-|[]]]]; [apply monitor_loss_monitors|now left|now left].
  - reflexivity.
  - reflexivity.
  - split; split; try constructor; intros key [].
  - split; [right; right; now left|]. split.
    + intros h [<-|[<-|[<-|[]]]]; [right| |now left].
      * destruct (proj2 (monitor_loss_monitors layers hubs lay nat "valid" "update" 1 (fun r => (S r, [held_out; held_out])))) as [Q|Q]; [discriminate Q|exact Q].
      * right. intros e u w l w' v bb H. cbn [modify_attribute h_call] in H. destruct (exponential _ _ _ _ _ _ _ _) as [v0|]; [|discriminate H]. now injection H as _ _ <-.
    + split; [intros h [<-|[<-|[<-|[]]]]; discriminate|]. split; [destruct RN as [s' [tr [RN _]]]; exists s', tr; exact RN|]. split; [exact SM|].
      rewrite !(C73_exponential 2 attrs example_sched "learning_rate" "epoch" 1 1 (1 / 2) _ SS eq_refl). cbn. split; lra.
Qed.
