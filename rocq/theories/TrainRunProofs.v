(** Lemmas for C73: the losses a stepper leaves in the memory, and the run of the trainer. *)
From Coq Require Import String Ascii List ZArith QArith Reals Bool Lia Lra Arith FunctionalExtensionality.
From Verif Require Import NumBase NumpyModel LayersModel ConvModel NetworkModel NetworkProps NetLayersModel MemoryPassModel MemoryPassProofs.
From Verif Require Import HubModel LayoutModel BuffersModel BuffersProofs.
From Verif Require Import PyBase PyFacts UtilsModel NamesModel ArchModel ShapesModel SetupModel SetupProps InstanceProofs InstanceProps NetLayoutExtra NetLayoutProofs NetLayoutProps CellsProofs NetMemoryModel NetSizesProofs NetMemoryProofs NetForwardProofs NetForwardProps NetMemoryProps SchedulesModel TrainNetModel TrainNetProofs TrainNetProps ModifiersModel ModNetModel ModNetProofs ModNetProps EvalNetModel EvalNetProofs EvalNetProps.
From Verif Require Import TrainerModel TrainerProofs TrainerProps TrainRunModel.
From Verif Require ScorersModel.
Import ListNotations.
Open Scope string_scope.
Open Scope list_scope.
Open Scope nat_scope.

(** ** The losses after an update *)
Section Loss.
  Variables (a : karch) (layers : list linst) (hubs : list hub) (lay : slices).
  Hypothesis C : created a layers hubs lay.
  Let HN := cr_named _ _ _ _ C.
  Let HI := cr_layers _ _ _ _ C.
  Let HL := cr_layout _ _ _ _ C.
  Let HZ := cr_sizes _ _ _ _ C.
  Let HS := cr_supported _ _ _ _ C.
  Let HD := cr_diff _ _ _ _ C.
  Variables (T B : nat).
  Definition output_cell (A : nat) : Prop := exists l x, In l layers /\ In A (CellsProofs.cells layers hubs lay (S T) B l "outputs" x).
  Lemma output_other A l cat x : output_cell A -> In l layers -> ~ In cat ["inputs"; "input_deltas"] -> cat <> "outputs" -> ~ In A (CellsProofs.cells layers hubs lay (S T) B l cat x).
  Proof.
    intros [l' [x' [Hl' HA']]] Hl Hc Nc HA. destruct (once a layers hubs lay HN HI HL HZ T B l' "outputs" x' l cat x A Hl' Hl own_o Hc HA' HA) as [_ [X _]]. congruence.
  Qed.
  Lemma loss_outputs e m1 m2 : (forall A, output_cell A -> m1 A = m2 A) -> net_loss layers hubs lay e T B m1 = net_loss layers hubs lay e T B m2.
  Proof.
    intros H. unfold net_loss, mlayers. set (ml := mlayer_of layers hubs lay e T B). assert (G : forall ls, (forall l, In l ls -> In l (tl layers)) -> mem_loss (map ml ls) m1 = mem_loss (map ml ls) m2); [|now apply G].
    induction ls as [|l ls IH]; intros Hin; cbn [map mem_loss]; [reflexivity|]. rewrite IH by (intros; apply Hin; now right). f_equal. f_equal.
    apply read_ext. intros A HA. apply H. unfold ml, mlayer_of in HA. cbn [m_loss] in HA. apply cells_of_In in HA. destruct HA as [n [Hn HA]].
    exists l, n. split; [apply In_tl, Hin; now left|exact HA].
  Qed.
  Lemma backward_outputs e m A : output_cell A -> net_backward_pass layers hubs lay e T B m A = m A.
  Proof.
    intros HA. unfold net_backward_pass, mlayers. set (ml := mlayer_of layers hubs lay e T B).
    assert (G : forall ls q, (forall l, In l ls -> In l (tl layers)) -> mem_backward (map ml ls) q A = q A).
    { induction ls as [|l ls IH]; intros q Hin; [reflexivity|]. cbn [map mem_backward]. assert (Hl := Hin l (or_introl eq_refl)).
      unfold run_backward. destruct (k_bwd _ _ _ _ _ _) as [dx g]. rewrite !write_out, MemoryPassProofs.add_out; [apply IH; intros; apply Hin; now right| | |].
      - unfold ml. rewrite (din a layers hubs lay HN HI HL HZ HS HD e T B l Hl). intros H. apply in_map_iff in H. destruct H as [A' [E H]]. unfold mlayer_of in H. cbn [m_in] in H. apply cells_of_In in H. destruct H as [n [_ H]].
        assert (Hc := input_is_cell a layers hubs lay HN HI HL HZ HS HD e T B l n A' Hl H). destruct (cell_delta a layers hubs lay HN HI HL HZ T B A' Hc) as [l' [x' [Hl' [_ K]]]]. rewrite E in K.
        exact (output_other A l' "output_deltas" x' HA Hl' ltac:(cbn; intuition discriminate) ltac:(discriminate) K).
      - unfold ml, mlayer_of. cbn [m_dout]. intros H. apply cells_of_In in H. destruct H as [n [_ H]]. exact (output_other A l "output_deltas" n HA (In_tl _ _ Hl) ltac:(cbn; intuition discriminate) ltac:(discriminate) H).
      - unfold ml, mlayer_of. cbn [m_grad]. intros H. apply cells_of_In in H. destruct H as [n [_ H]]. exact (output_other A l "gradients" n HA (In_tl _ _ Hl) own_g ltac:(discriminate) H). }
    rewrite G by auto. destruct HA as [l [x [Hl HA]]]. exact (clear_out a layers hubs lay HN HI HL HZ HS HD e T B l x A m Hl HA).
  Qed.
End Loss.

Lemma params_outputs a layers hubs lay b k l p idx A : created a layers hubs lay -> is_element layers hubs lay k l p idx -> output_cell layers hubs lay (b_time b) (b_size b) A ->
  ~ In A (param_cells layers hubs lay b).
Proof.
  intros C E HA H. assert (C' := C). destruct C' as [HN HI HL HZ HS HD]. destruct (elements a layers hubs lay HN HI HL HZ) as [total [_ [El [Lt [_ Le]]]]]. assert (Ht := Lt _ _ _ _ E).
  destruct (Le (S (b_time b)) (b_size b) ltac:(lia)) as [Le1 _]. apply (In_nth _ _ 0) in H. destruct H as [j [Hj <-]]. unfold param_cells in Hj. rewrite Le1 in Hj.
  destruct (El j Hj) as [l' [p' [idx' E']]]. assert (K := proj1 (element_cells a layers hubs lay HN HI HL HZ j l' p' idx' (S (b_time b)) (b_size b) E')).
  exact (output_other a layers hubs lay C (b_time b) (b_size b) _ l' "parameters" p' HA (proj1 E') own_p ltac:(discriminate) K).
Qed.
(** The total loss read after the run of a stepper is the loss of the batch for the parameters it visited. *)
Lemma step_loss a layers hubs lay fmax st rate k b g s k0 l0 p0 idx0 : created a layers hubs lay -> is_element layers hubs lay k0 l0 p0 idx0 -> fits layers g ->
  net_loss layers hubs lay (b_env b) (b_time b) (b_size b) (snd (fst (run_stepper fmax layers hubs lay st rate k b g s))) = batch_loss layers hubs lay b (visited st k s).
Proof.
  intros C E F. assert (C' := C). destruct C' as [HN HI HL HZ HS HD].
  assert (G : forall m, net_loss layers hubs lay (b_env b) (b_time b) (b_size b) (snd (backward_modified fmax layers hubs lay b g m)) = net_loss layers hubs lay (b_env b) (b_time b) (b_size b) m).
  { intros m. apply loss_outputs. intros A HA. unfold backward_modified. destruct (C68_gradient_modifiers a layers hubs lay fmax (S (b_time b)) (b_size b) g (backward layers hubs lay b m) C F) as [_ X].
    rewrite X; [now apply (backward_outputs a layers hubs lay C)|]. intros l p Hl. exact (output_other a layers hubs lay C _ _ A l "gradients" p HA Hl own_g ltac:(discriminate)). }
  assert (P : forall v m, net_loss layers hubs lay (b_env b) (b_time b) (b_size b) (write (param_cells layers hubs lay b) v m) = net_loss layers hubs lay (b_env b) (b_time b) (b_size b) m).
  { intros v m. apply loss_outputs. intros A HA. apply write_out. exact (params_outputs a layers hubs lay b k0 l0 p0 idx0 A C E HA). }
  unfold run_stepper. cbv zeta. destruct st as [|mu scale|mu scale]; cbn [visited].
  - match goal with |- context [backward_modified _ _ _ _ _ _ ?q] => specialize (G q); destruct (backward_modified fmax layers hubs lay b g q) as [g' m'] end. cbn [fst snd] in G |- *. rewrite P. exact G.
  - match goal with |- context [backward_modified _ _ _ _ _ _ ?q] => specialize (G q); destruct (backward_modified fmax layers hubs lay b g q) as [g' m'] end. cbn [fst snd] in G |- *. rewrite P. exact G.
  - match goal with |- context [backward_modified _ _ _ _ _ _ ?q] => specialize (G q); destruct (backward_modified fmax layers hubs lay b g q) as [g' m'] end. cbn [fst snd] in G |- *. rewrite P, G.
    rewrite (prepared_again a layers hubs lay HN HI HL HZ b _ (s_params s) k0 l0 p0 idx0 E). unfold batch_loss. do 2 f_equal. unfold prepared. f_equal.
    apply functional_extensionality. intros i. unfold add_tt, mult_st. apply Rplus_comm.
Qed.

(** ** The last call of a hook *)
(** The last multiple of k up to c *)
Definition last_call (k c : nat) : nat := k * (c / k).
Lemma last_call_S k c : 0 < k -> last_call k (S c) = if S c mod k =? 0 then S c else last_call k c.
Proof.
  intros Hk. unfold last_call. assert (E := Nat.div_mod (S c) k ltac:(lia)). assert (E' := Nat.div_mod c k ltac:(lia)).
  assert (L := Nat.mod_upper_bound (S c) k ltac:(lia)). assert (L' := Nat.mod_upper_bound c k ltac:(lia)). destruct (S c mod k =? 0) eqn:Z.
  - apply Nat.eqb_eq in Z. lia.
  - apply Nat.eqb_neq in Z. f_equal. destruct (Nat.lt_trichotomy (S c / k) (c / k)) as [X|[X|X]]; [|exact X|]; exfalso; nia.
Qed.

Section Schedules.
  Variables (m : nat) (initial : string -> R) (sched : string -> option (string * nat * (nat -> nat -> string -> nat -> option R))).
  (** The number of the epoch in which the update with number u (from 1) is done *)
  Definition epoch_of (u : nat) : nat := (u + m - 1) / m.
  (** The value of an attribute of the stepper when e epochs and u updates are completed *)
  Definition value_at (e u : nat) (attr : string) : R :=
    match sched attr with
    | None => initial attr
    | Some (scale, k, f) =>
        let '(e', u') := if String.eqb scale "epoch" then (last_call k e, last_call k e * m) else (epoch_of (last_call k u), last_call k u) in
        match f e' u' scale k with Some v => v | None => 0%R end
    end.
  (** in update i (from 0) *)
  Definition value (attr : string) (i : nat) : R := value_at (i / m) i attr.
  Definition sound_schedules : Prop := forall attr scale k f, sched attr = Some (scale, k, f) -> (scale = "epoch" \/ scale = "update") /\ 0 < k.
End Schedules.

Section Run.
  Variables (a : karch) (layers : list linst) (hubs : list hub) (lay : slices) (fmax : R) (X : Type) (me : method).
  Hypothesis C : created a layers hubs lay.
  Variables (k0 : nat) (l0 : linst) (p0 : string) (idx0 : list nat).
  Hypothesis E0 : is_element layers hubs lay k0 l0 p0 idx0.
  Variable new_iterator : nworld X -> nworld X * list batch.
  Variables (m : nat) (initial : string -> R) (sched : string -> option (string * nat * (nat -> nat -> string -> nat -> option R))).
  Hypothesis Hm : 0 < m.
  Hypothesis Hsched : sound_schedules sched.
  (** What iterators do not do *)
  Definition gives_batches : Prop := forall w, let '(w', bs) := new_iterator w in w_net w' = w_net w /\ w_attr w' = w_attr w /\ length bs = m.
  (** A hook that may evaluate the network but changes neither parameters nor modifiers nor the stepper *)
  Definition monitors (h : hook R (nworld X)) : Prop :=
    (forall w w', h_start _ _ h w = Some w' -> w_net w' = w_net w /\ w_attr w' = w_attr w) /\
    forall e u w l w' v stop, h_call _ _ h e u w l = Some (w', v, stop) ->
      w_attr w' = w_attr w /\ exists bs, w_net w' = fold_left (fun x b => EvalNetModel.evaluate layers hubs lay b x) bs (w_net w).
  Definition schedules (h : hook R (nworld X)) : Prop :=
    exists name attr scale k f, h = modify_attribute X name attr scale k f /\ sched attr = Some (scale, k, f).
  Variable hooks : list (hook R (nworld X)).
  Hypothesis Hhooks : forall h, In h hooks -> monitors h \/ schedules h.
  Hypothesis Hall : forall attr scale k f, sched attr = Some (scale, k, f) -> exists name, In (modify_attribute X name attr scale k f) hooks.
  Hypothesis Hiter : gives_batches.
  Variables (batches : nat -> batch) (first : tstate).
  Let st := stepper_of me (value m initial sched "momentum").
  Let rate := value m initial sched "learning_rate".
  Let run (i : nat) := ModNetModel.train fmax layers hubs lay st rate batches i first.
  Notation state := (state R (nworld X)).
  Notation wd := (t_world R (nworld X)).
  Notation ep := (t_epoch R (nworld X)).
  Notation up := (t_update R (nworld X)).

  (** What the events of a run tell *)
  Definition told (e : TrainerModel.event R) : Prop :=
    match e with
    | Called scale c name v stop =>
        exists h w l w', In h hooks /\ h_name _ _ h = name /\ h_scale _ _ h = scale /\
          let e := if String.eqb scale "epoch" then c else epoch_of m c in
          let u := if String.eqb scale "epoch" then c * m else c in
          tracks layers hubs lay (w_net w) (run u) /\ h_call _ _ h e u w l = Some (w', v, stop)
    | Logged e v => exists n, e = S n /\
        v = VDict [("total_loss", VLeaf (ScorersModel.weighted_average
              (map (fun i => (INR (b_size (batches i)), batch_loss layers hubs lay (batches i) (visited st i (t_step (run i))))) (List.seq (n * m) m))))]
    | Updated _ => True
    end.

  Lemma evaluations_track bs : forall x x', tracks layers hubs lay x x' -> tracks layers hubs lay (fold_left (fun x b => EvalNetModel.evaluate layers hubs lay b x) bs x) x'.
  Proof. induction bs as [|b r IH]; intros x x' H; [exact H|]. cbn [fold_left]. apply IH. now apply (evaluate_tracks a). Qed.

  Definition due (scale : string) (s : state) (attr : string) : Prop :=
    exists k f, sched attr = Some (scale, k, f) /\ TrainerModel.count R (nworld X) scale s mod k = 0.
  Definition set_now (scale : string) (s : state) (attr : string) (v : R) : Prop :=
    exists k f, sched attr = Some (scale, k, f) /\ TrainerModel.count R (nworld X) scale s mod k = 0 /\ f (ep s) (up s) scale k = Some v.

  Lemma emit_run scale hs : forall s s' stop ev, (forall h, In h hs -> In h hooks) -> emit_hooks R (nworld X) false hs scale s = Some (s', stop, ev) ->
    tracks layers hubs lay (w_net (wd s)) (run (up s)) ->
    ep s' = ep s /\ up s' = up s /\ tracks layers hubs lay (w_net (wd s')) (run (up s)) /\
    (forall attr, w_attr (wd s') attr = w_attr (wd s) attr \/ set_now scale s attr (w_attr (wd s') attr)) /\
    (forall attr, due scale s attr -> (exists name k f, sched attr = Some (scale, k, f) /\ In (modify_attribute X name attr scale k f) hs) \/ set_now scale s attr (w_attr (wd s) attr) -> set_now scale s attr (w_attr (wd s') attr)) /\
    forall x, In x ev -> exists name v b h w l w', x = Called scale (TrainerModel.count R (nworld X) scale s) name v b /\ In h hooks /\ h_name _ _ h = name /\ h_scale _ _ h = scale /\
      tracks layers hubs lay (w_net w) (run (up s)) /\ h_call _ _ h (ep s) (up s) w l = Some (w', v, b).
  Proof.
    induction hs as [|h r IH]; intros s s' stop ev Hin H Ht; cbn [emit_hooks] in H.
    { injection H as <- <- <-. split; [reflexivity|]. split; [reflexivity|]. split; [exact Ht|]. split; [now left|]. split; [intros attr _ [[name [k [f [_ []]]]]|K]; exact K|intros x []]. }
    assert (Hr : forall h, In h r -> In h hooks) by (intros z Hz; apply Hin; now right).
    assert (Skip : emit_hooks R (nworld X) false r scale s = Some (s', stop, ev) ->
      (forall attr, due scale s attr -> (exists name k f, sched attr = Some (scale, k, f) /\ modify_attribute X name attr scale k f = h) -> False) ->
      ep s' = ep s /\ up s' = up s /\ tracks layers hubs lay (w_net (wd s')) (run (up s)) /\
      (forall attr, w_attr (wd s') attr = w_attr (wd s) attr \/ set_now scale s attr (w_attr (wd s') attr)) /\
      (forall attr, due scale s attr -> (exists name k f, sched attr = Some (scale, k, f) /\ In (modify_attribute X name attr scale k f) (h :: r)) \/ set_now scale s attr (w_attr (wd s) attr) -> set_now scale s attr (w_attr (wd s') attr)) /\
      forall x, In x ev -> exists name v b h w l w', x = Called scale (TrainerModel.count R (nworld X) scale s) name v b /\ In h hooks /\ h_name _ _ h = name /\ h_scale _ _ h = scale /\
        tracks layers hubs lay (w_net w) (run (up s)) /\ h_call _ _ h (ep s) (up s) w l = Some (w', v, b)).
    { intros K N. destruct (IH s s' stop ev Hr K Ht) as [I1 [I2 [I3 [I4 [I5 I6]]]]]. split; [exact I1|]. split; [exact I2|]. split; [exact I3|]. split; [exact I4|]. split; [|exact I6]. intros attr Hd [[name [k [f [Hs [Hh|Hh]]]]]|Hk]; apply I5; auto.
      - exfalso. apply (N attr Hd). exists name, k, f. auto.
      - left. exists name, k, f. auto. }
    destruct (String.eqb (h_scale _ _ h) scale) eqn:Es; cbn [negb] in H.
    2: { apply Skip; [exact H|]. intros attr _ [name [k [f [_ <-]]]]. cbn [modify_attribute h_scale] in Es. rewrite String.eqb_refl in Es. discriminate Es. }
    apply String.eqb_eq in Es. destruct (h_interval _ _ h =? 0) eqn:Ei; [discriminate H|].
    destruct (TrainerModel.count R (nworld X) scale s mod h_interval _ _ h =? 0) eqn:Ec; cbn [negb] in H.
    2: { apply Skip; [exact H|]. intros attr [k [f [Hs Hc]]] [name [k' [f' [Hs' <-]]]]. rewrite Hs in Hs'. injection Hs' as <- <-. cbn [modify_attribute h_interval] in Ec. rewrite Hc in Ec. discriminate Ec. }
    apply Nat.eqb_eq in Ec. clear Skip. destruct (h_call _ _ h (ep s) (up s) (wd s) (t_logs _ _ s)) as [[[w v] stop1]|] eqn:Eh; [|discriminate H].
    destruct (add_log (h_name _ _ h) v (t_logs _ _ s)) as [ls|] eqn:El; [|discriminate H].
    match type of H with match emit_hooks _ _ _ _ _ ?q with _ => _ end = _ => set (s1 := q) in H end.
    destruct (emit_hooks R (nworld X) false r scale s1) as [[[s2 stop2] ev2]|] eqn:Er; [|discriminate H]. injection H as <- _ <-.
    assert (Ht' : tracks layers hubs lay (w_net w) (run (up s))).
    { destruct (Hhooks h (Hin h (or_introl eq_refl))) as [[_ M]|[name [attr [scale' [k [f [-> Hs]]]]]]].
      - destruct (M _ _ _ _ _ _ _ Eh) as [M1 [bs M2]]. rewrite M2. now apply evaluations_track.
      - cbn [modify_attribute h_call] in Eh. destruct (f (ep s) (up s) scale' k) as [v0|]; [|discriminate Eh]. injection Eh as <- _ _. exact Ht. }
    assert (HB : forall name attr k f, h = modify_attribute X name attr scale k f -> f (ep s) (up s) scale k = Some (w_attr w attr)).
    { intros name attr k f ->. cbn [modify_attribute h_call] in Eh. destruct (f (ep s) (up s) scale k) as [v0|]; [|discriminate Eh]. injection Eh as <- _ _. cbn [w_attr]. now rewrite String.eqb_refl. }
    assert (HA : forall attr, w_attr w attr = w_attr (wd s) attr \/ set_now scale s attr (w_attr w attr)).
    { intros attr. destruct (Hhooks h (Hin h (or_introl eq_refl))) as [[_ M]|[name [attr' [scale' [k [f [Eq Hs]]]]]]].
      - left. destruct (M _ _ _ _ _ _ _ Eh) as [-> _]. reflexivity.
      - rewrite Eq in Es. cbn [modify_attribute h_scale] in Es. subst scale'. destruct (string_dec attr attr') as [->|N].
        + right. exists k, f. split; [exact Hs|]. split; [rewrite Eq in Ec; exact Ec|now apply (HB name)].
        + left. rewrite Eq in Eh. cbn [modify_attribute h_call] in Eh. destruct (f (ep s) (up s) scale k) as [v0|]; [|discriminate Eh]. injection Eh as <- _ _. cbn [w_attr]. apply String.eqb_neq in N. now rewrite N. }
    assert (S1 : forall attr v0, set_now scale s1 attr v0 <-> set_now scale s attr v0) by (intros; reflexivity).
    destruct (IH s1 s2 stop2 ev2 Hr Er Ht') as [I1 [I2 [I3 [I4 [I5 I6]]]]]. split; [exact I1|]. split; [exact I2|]. split; [exact I3|]. split; [|split].
    - intros attr. destruct (I4 attr) as [I|I]; [|right; now apply S1]. change (w_attr (wd s1) attr) with (w_attr w attr) in I. rewrite I. apply HA.
    - intros attr Hd K. apply S1. apply I5; [exact Hd|]. destruct K as [[name [k [f [Hs [Hh|Hh]]]]]|K].
      + right. exists k, f. split; [exact Hs|]. destruct Hd as [k' [f' [Hs' Hc]]]. rewrite Hs in Hs'. injection Hs' as <- <-. split; [exact Hc|]. exact (HB name attr k f Hh).
      + left. exists name, k, f. auto.
      + right. apply S1. change (w_attr (wd s1) attr) with (w_attr w attr). destruct (HA attr) as [->|Q]; [exact K|exact Q].
    - intros x [<-|Hx].
      + exists (h_name _ _ h), v, stop1, h, (wd s), (t_logs _ _ s), w. split; [reflexivity|]. split; [apply Hin; now left|]. split; [reflexivity|]. split; [exact Es|]. split; [exact Ht|exact Eh].
      + exact (I6 x Hx).
  Qed.

  Lemma emit_values scale s s' stop ev e u : emit_hooks R (nworld X) false hooks scale s = Some (s', stop, ev) -> tracks layers hubs lay (w_net (wd s)) (run (up s)) ->
    (forall attr, due scale s attr \/ w_attr (wd s) attr = value_at m initial sched e u attr) ->
    (forall attr k f v, sched attr = Some (scale, k, f) -> TrainerModel.count R (nworld X) scale s mod k = 0 -> f (ep s) (up s) scale k = Some v -> v = value_at m initial sched e u attr) ->
    forall attr, w_attr (wd s') attr = value_at m initial sched e u attr.
  Proof.
    intros H Ht H1 H2 attr. destruct (emit_run scale hooks s s' stop ev (fun h K => K) H Ht) as [_ [_ [_ [I4 [I5 _]]]]].
    assert (N : set_now scale s attr (w_attr (wd s') attr) -> w_attr (wd s') attr = value_at m initial sched e u attr) by (intros [k [f [Q1 [Q2 Q3]]]]; exact (H2 attr k f _ Q1 Q2 Q3)).
    destruct (H1 attr) as [Hd|Hv].
    - apply N. apply I5; [exact Hd|]. left. destruct Hd as [k [f [Hs _]]]. destruct (Hall attr scale k f Hs) as [name Hn]. exists name, k, f. auto.
    - destruct (I4 attr) as [I|I]; [congruence|now apply N].
  Qed.
  Lemma last_call_0 k c : 0 < k -> c mod k = 0 -> last_call k c = c.
  Proof. intros Hk H. unfold last_call. assert (E := Nat.div_mod c k ltac:(lia)). lia. Qed.
  Lemma last_call_zero k : last_call k 0 = 0.
  Proof. unfold last_call. destruct k; [reflexivity|]. rewrite Nat.div_0_l by lia. lia. Qed.
  Lemma epoch_of_S u : epoch_of m (S u) = S (u / m).
  Proof. unfold epoch_of. replace (S u + m - 1) with (u + 1 * m) by lia. rewrite Nat.div_add by lia. lia. Qed.
  (** The values set by the calls *)
  Lemma set_update e u attr k f v : sched attr = Some ("update", k, f) -> u mod k = 0 -> f (epoch_of m u) u "update" k = Some v -> v = value_at m initial sched e u attr.
  Proof. intros Hs Hk Hf. unfold value_at. rewrite Hs. change (String.eqb "update" "epoch") with false. cbv iota. rewrite last_call_0 by (try assumption; apply (Hsched _ _ _ _ Hs)). now rewrite Hf. Qed.
  Lemma set_epoch e u attr k f v : sched attr = Some ("epoch", k, f) -> e mod k = 0 -> f e (e * m) "epoch" k = Some v -> v = value_at m initial sched e u attr.
  Proof. intros Hs Hk Hf. unfold value_at. rewrite Hs. change (String.eqb "epoch" "epoch") with true. cbv iota. rewrite last_call_0 by (try assumption; apply (Hsched _ _ _ _ Hs)). now rewrite Hf. Qed.
  Lemma keep_update e u attr : (exists k f, sched attr = Some ("update", k, f) /\ S u mod k = 0) \/ value_at m initial sched e (S u) attr = value_at m initial sched e u attr.
  Proof.
    unfold value_at. destruct (sched attr) as [[[scale k] f]|] eqn:Hs; [|now right]. destruct (Hsched _ _ _ _ Hs) as [[-> | ->] Hk]; [now right|]. change (String.eqb "update" "epoch") with false. cbv iota.
    rewrite (last_call_S k u Hk). destruct (S u mod k =? 0) eqn:Q; [left|now right]. exists k, f. split; [reflexivity|now apply Nat.eqb_eq].
  Qed.
  Lemma keep_epoch e u attr : (exists k f, sched attr = Some ("epoch", k, f) /\ S e mod k = 0) \/ value_at m initial sched (S e) u attr = value_at m initial sched e u attr.
  Proof.
    unfold value_at. destruct (sched attr) as [[[scale k] f]|] eqn:Hs; [|now right]. destruct (Hsched _ _ _ _ Hs) as [[-> | ->] Hk]; [|now right]. change (String.eqb "epoch" "epoch") with true. cbv iota.
    rewrite (last_call_S k e Hk). destruct (S e mod k =? 0) eqn:Q; [left|now right]. exists k, f. split; [reflexivity|now apply Nat.eqb_eq].
  Qed.

  Lemma same_data_refl b : same_data layers hubs lay b b.
  Proof. repeat split. Qed.
  Lemma stepper_now mu rt k b g s : run_stepper fmax layers hubs lay (stepper_of me (fun _ => mu k)) (fun _ => rt k) 0 b g s = run_stepper fmax layers hubs lay (stepper_of me mu) rt k b g s.
  Proof. destruct me; reflexivity. Qed.
  Definition score_of (i : nat) : R * R := (INR (b_size (batches i)), batch_loss layers hubs lay (batches i) (visited st i (t_step (run i)))).
  Lemma update_run w u w' sc : run_update fmax layers hubs lay X me w (batches u) = Some (w', sc) -> tracks layers hubs lay (w_net w) (run u) ->
    (forall attr, w_attr w attr = value_at m initial sched (u / m) u attr) ->
    tracks layers hubs lay (w_net w') (run (S u)) /\ w_attr w' = w_attr w /\ sc = score_of u.
  Proof.
    intros H Ht Hv. unfold run_update in H. cbv zeta in H. assert (Em := Hv "momentum"). assert (Er := Hv "learning_rate").
    assert (Es : forall g s, run_stepper fmax layers hubs lay (stepper_of me (fun _ => w_attr w "momentum")) (fun _ => w_attr w "learning_rate") 0 (batches u) g s = run_stepper fmax layers hubs lay st rate u (batches u) g s).
    { intros g s. rewrite Em, Er. exact (stepper_now (value m initial sched "momentum") rate u (batches u) g s). }
    assert (Eu : update fmax layers hubs lay (stepper_of me (fun _ => w_attr w "momentum")) (fun _ => w_attr w "learning_rate") 0 (batches u) (w_net w) = update fmax layers hubs lay st rate u (batches u) (w_net w)).
    { unfold update. now rewrite Es. }
    rewrite Es, Eu in H. assert (Ls := step_loss a layers hubs lay fmax st rate u (batches u) (t_grad (w_net w)) (t_step (w_net w)) k0 l0 p0 idx0 C E0 (proj2 (proj1 (proj2 (proj2 Ht))))).
    injection H as <- <-. cbn [w_net w_attr].
    split; [|split; [reflexivity|]].
    - unfold run. cbn [ModNetModel.train]. apply (update_tracks a); [exact C|apply same_data_refl|exact Ht].
    - unfold score_of. f_equal. rewrite Ls. destruct C as [HN HI HL HZ HS HD]. apply (batch_loss_same a layers hubs lay HN HI HL HZ HS HD k0 l0 p0 idx0 _ _ _ _ E0 (same_data_refl _)).
      intros k l p idx He. destruct (proj1 Ht k l p idx He) as [T1 T2]. destruct st; cbn [visited]; now rewrite ?T1, ?T2.
  Qed.

  Notation batches_run := (run_batches R (nworld X) batch (R * R) (run_update fmax layers hubs lay X me) hooks).
  Lemma batches_run_spec e bs : forall scores s s' scores' ev, batches_run bs scores s = Some (s', false, scores', ev) ->
    ep s = S e -> e * m <= up s -> up s + length bs <= S e * m ->
    (forall i b, nth_error bs i = Some b -> batches (up s + i) = b) ->
    tracks layers hubs lay (w_net (wd s)) (run (up s)) -> (forall attr, w_attr (wd s) attr = value_at m initial sched e (up s) attr) ->
    ep s' = S e /\ up s' = up s + length bs /\ tracks layers hubs lay (w_net (wd s')) (run (up s')) /\ (forall attr, w_attr (wd s') attr = value_at m initial sched e (up s') attr) /\
    scores' = scores ++ map score_of (List.seq (up s) (length bs)) /\ Forall told ev.
  Proof.
    induction bs as [|b r IH]; intros scores s s' scores' ev H He Hl Hu Hb Ht Hv; cbn [run_batches length] in H, Hu |- *.
    { injection H as <- <- <-. cbn [List.seq map]. rewrite app_nil_r, Nat.add_0_r. split; [exact He|]. split; [reflexivity|]. split; [exact Ht|]. split; [exact Hv|]. split; [reflexivity|constructor]. }
    destruct (run_update fmax layers hubs lay X me (wd s) b) as [[w sc]|] eqn:Eu; [|discriminate H].
    assert (Eb := Hb 0 b eq_refl). rewrite Nat.add_0_r in Eb. rewrite <- Eb in Eu.
    assert (Ed : up s / m = e) by (symmetry; apply (Nat.div_unique _ _ _ (up s - e * m)); lia).
    destruct (update_run (wd s) (up s) w sc Eu Ht ltac:(rewrite Ed; exact Hv)) as [T1 [A1 S1]].
    match type of H with match emit_hooks _ _ _ _ _ ?q with _ => _ end = _ => set (s1 := q) in H end.
    destruct (emit_hooks R (nworld X) false hooks "update" s1) as [[[s2 stop2] ev2]|] eqn:Er; [|discriminate H]. destruct stop2; [discriminate H|].
    destruct (emit_run "update" hooks s1 s2 false ev2 (fun h K => K) Er T1) as [I1 [I2 [I3 [_ [_ I6]]]]].
    assert (Ve := emit_values "update" s1 s2 false ev2 e (S (up s)) Er T1
      ltac:(intros attr; destruct (keep_update e (up s) attr) as [[k [f [K1 K2]]]|K]; [left; now exists k, f|right; change (w_attr (wd s1) attr) with (w_attr w attr); now rewrite A1, K])
      ltac:(intros attr k f v K1 K2 K3; change (ep s1) with (ep s) in K3; change (up s1) with (S (up s)) in K3; apply (set_update e (S (up s)) attr k f v K1 K2); rewrite epoch_of_S, Ed, <- He; exact K3)).
    destruct (batches_run r (scores ++ [sc]) s2) as [[[[s3 stop3] sc3] ev3]|] eqn:E3; [|discriminate H]. injection H as <- -> <- <-.
    change (ep s1) with (ep s) in I1. change (up s1) with (S (up s)) in I2, I3.
    destruct (IH (scores ++ [sc]) s2 s3 sc3 ev3 E3) as [J1 [J2 [J3 [J4 [J5 J6]]]]]; [congruence|lia|lia| |rewrite I2; exact I3|rewrite I2; exact Ve|].
    { intros i b' Hi. rewrite I2. replace (S (up s) + i) with (up s + S i) by lia. now apply Hb. }
    split; [exact J1|]. split; [rewrite J2, I2; lia|]. split; [exact J3|]. split; [exact J4|]. split.
    - rewrite J5, I2, S1. rewrite <- app_assoc. reflexivity.
    - constructor; [exact Logic.I|]. apply Forall_app. split; [|exact J6]. apply Forall_forall. intros x Hx. destruct (I6 x Hx) as [name [v [bb [h [w0 [l [w' [-> [Q1 [Q2 [Q3 [Q4 Q5]]]]]]]]]]]].
      cbn [told]. exists h, w0, l, w'. change (String.eqb "update" "epoch") with false. cbv iota. change (TrainerModel.count R (nworld X) "update" s1) with (S (up s)).
      change (up s1) with (S (up s)) in Q4, Q5. change (ep s1) with (ep s) in Q5. rewrite epoch_of_S, Ed, <- He. auto.
  Qed.

  Notation epoch_run := (run_epoch R (nworld X) batch (R * R) new_iterator (run_update fmax layers hubs lay X me) (aggregate_losses X) hooks).
  Notation epochs_run := (run_epochs R (nworld X) batch (R * R) new_iterator (run_update fmax layers hubs lay X me) (aggregate_losses X) hooks).
  Hypothesis Hnostop : forall bs scores s s' stop scores' ev, batches_run bs scores s = Some (s', stop, scores', ev) -> stop = false.
  Lemma epoch_run_spec s s' stop ev : epoch_run s = Some (s', stop, ev) -> up s = ep s * m ->
    (forall i b, nth_error (snd (new_iterator (wd s))) i = Some b -> batches (up s + i) = b) ->
    tracks layers hubs lay (w_net (wd s)) (run (up s)) -> (forall attr, w_attr (wd s) attr = value_at m initial sched (ep s) (up s) attr) ->
    ep s' = S (ep s) /\ up s' = S (ep s) * m /\ tracks layers hubs lay (w_net (wd s')) (run (up s')) /\ (forall attr, w_attr (wd s') attr = value_at m initial sched (ep s') (up s') attr) /\ Forall told ev.
  Proof.
    intros H Hu Hb Ht Hv. unfold run_epoch in H. assert (G := Hiter (wd s)). destruct (new_iterator (wd s)) as [w bs] eqn:En. destruct G as [G1 [G2 G3]]. cbn [snd] in Hb.
    match type of H with match run_batches _ _ _ _ _ _ _ _ ?q with _ => _ end = _ => set (s0 := q) in H end.
    destruct (batches_run bs [] s0) as [[[[s1 stop1] scores] ev1]|] eqn:E1; [|discriminate H]. assert (stop1 = false) by exact (Hnostop _ _ _ _ _ _ _ E1). subst stop1.
    destruct (batches_run_spec (ep s) bs [] s0 s1 scores ev1 E1) as [J1 [J2 [J3 [J4 [J5 J6]]]]];
      [reflexivity|change (up s0) with (up s); lia|change (up s0) with (up s); rewrite G3; lia|exact Hb|change (wd s0) with w; rewrite G1; exact Ht|intros attr; change (wd s0) with w; rewrite G2; exact (Hv attr)|].
    change (up s0) with (up s) in J2, J5. rewrite G3 in J2, J5. assert (Eu : up s1 = S (ep s) * m) by lia.
    match type of H with match ?q with _ => _ end = _ => destruct q as [ls|] eqn:El; [|discriminate H] end.
    match type of H with match emit_hooks _ _ _ _ _ ?q with _ => _ end = _ => set (s2 := q) in H end.
    destruct (emit_hooks R (nworld X) false hooks "epoch" s2) as [[[s3 stop3] ev3]|] eqn:E3; [|discriminate H]. injection H as <- <- <-.
    destruct (emit_run "epoch" hooks s2 s3 stop3 ev3 (fun h K => K) E3 J3) as [I1 [I2 [I3 [_ [_ I6]]]]].
    assert (Ve := emit_values "epoch" s2 s3 stop3 ev3 (S (ep s)) (up s1) E3 J3
      ltac:(intros attr; destruct (keep_epoch (ep s) (up s1) attr) as [[k [f [K1 K2]]]|K]; [left; exists k, f; split; [exact K1|]; change (TrainerModel.count R (nworld X) "epoch" s2) with (ep s1); now rewrite J1|right; change (w_attr (wd s2) attr) with (w_attr (wd s1) attr); now rewrite J4, K])
      ltac:(intros attr k f v K1 K2 K3; change (ep s2) with (ep s1) in K3; change (up s2) with (up s1) in K3; change (TrainerModel.count R (nworld X) "epoch" s2) with (ep s1) in K2; rewrite J1 in K2, K3; rewrite Eu in K3 |- *; exact (set_epoch _ _ attr k f v K1 K2 K3))).
    change (ep s2) with (ep s1) in I1. change (up s2) with (up s1) in I2, I3. rewrite I1, I2. split; [exact J1|]. split; [exact Eu|]. split; [exact I3|]. split; [rewrite J1; exact Ve|].
    apply Forall_app. split; [exact J6|]. constructor.
    - cbn [told]. exists (ep s). split; [exact J1|]. unfold aggregate_losses. rewrite J5, Hu. reflexivity.
    - apply Forall_forall. intros x Hx. destruct (I6 x Hx) as [name [v [bb [h [w0 [l [w' [-> [Q1 [Q2 [Q3 [Q4 Q5]]]]]]]]]]]].
      cbn [told]. exists h, w0, l, w'. change (String.eqb "epoch" "epoch") with true. cbv iota. change (TrainerModel.count R (nworld X) "epoch" s2) with (ep s1).
      change (up s2) with (up s1) in Q4, Q5. change (ep s2) with (ep s1) in Q5. rewrite J1 in Q5 |- *. rewrite <- Eu. auto.
  Qed.

  (** The batches that are used *)
  Fixpoint used (fuel : nat) (s : state) : list batch :=
    match fuel with
    | 0 => []
    | S f => snd (new_iterator (wd s)) ++ match epoch_run s with Some (s1, false, _) => used f s1 | _ => [] end
    end.
  Lemma iterator_length w : length (snd (new_iterator w)) = m.
  Proof. assert (G := Hiter w). destruct (new_iterator w) as [w' bs]. apply G. Qed.
  Lemma epochs_run_spec fuel : forall s s' fin ev, epochs_run fuel s = Some (s', fin, ev) -> up s = ep s * m ->
    (forall i b, nth_error (used fuel s) i = Some b -> batches (up s + i) = b) ->
    tracks layers hubs lay (w_net (wd s)) (run (up s)) -> (forall attr, w_attr (wd s) attr = value_at m initial sched (ep s) (up s) attr) ->
    up s' = ep s' * m /\ tracks layers hubs lay (w_net (wd s')) (run (up s')) /\ Forall told ev /\
    forall e, ep s <= e < ep s' -> exists w, snd (new_iterator w) = map batches (List.seq (e * m) m).
  Proof.
    induction fuel as [|f IH]; intros s s' fin ev H Hu Hb Ht Hv; cbn [run_epochs used] in H, Hb.
    { injection H as <- <- <-. split; [exact Hu|]. split; [exact Ht|]. split; [constructor|]. intros e. lia. }
    destruct (epoch_run s) as [[[s1 stop] ev1]|] eqn:E1; [|discriminate H].
    assert (Hb1 : forall i b, nth_error (snd (new_iterator (wd s))) i = Some b -> batches (up s + i) = b).
    { intros i b Hi. apply Hb. rewrite nth_error_app1; [exact Hi|]. apply nth_error_Some. congruence. }
    destruct (epoch_run_spec s s1 stop ev1 E1 Hu Hb1 Ht Hv) as [J1 [J2 [J3 [J4 J5]]]].
    assert (W : exists w, snd (new_iterator w) = map batches (List.seq (ep s * m) m)).
    { exists (wd s). rewrite <- Hu. apply (nth_ext _ _ (batches 0) (batches 0)); [rewrite map_length, seq_length; apply iterator_length|]. intros i Hi. rewrite map_nth, seq_nth by (now rewrite <- (iterator_length (wd s))).
      symmetry. apply Hb1. now apply nth_error_nth'. }
    destruct stop.
    - injection H as <- <- <-. split; [now rewrite J1|]. split; [exact J3|]. split; [exact J5|]. intros e He. replace e with (ep s) by lia. exact W.
    - destruct (epochs_run f s1) as [[[s2 fin2] ev2]|] eqn:E2; [|discriminate H]. injection H as <- <- <-.
      destruct (IH s1 s2 fin2 ev2 E2) as [K1 [K2 [K3 K4]]]; [now rewrite J1| |exact J3|exact J4|].
      + intros i b Hi. replace (up s1 + i) with (up s + (m + i)) by lia. apply Hb. rewrite nth_error_app2; rewrite iterator_length; [|lia]. now replace (m + i - m) with i by lia.
      + split; [exact K1|]. split; [exact K2|]. split; [apply Forall_app; now split|]. intros e He. destruct (Nat.eq_dec e (ep s)) as [->|N]; [exact W|]. apply K4. lia.
  Qed.
End Run.
