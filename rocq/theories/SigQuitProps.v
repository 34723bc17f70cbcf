(** How SIGQUIT stops a training: C76. *)
From Coq Require Import String List Arith Bool Lia.
From Verif Require Import PyBase PyFacts UtilsModel TrainerModel TrainerProofs TrainerProps SigQuitModel.
Import ListNotations.
Open Scope string_scope.
Open Scope list_scope.
Open Scope nat_scope.

Section SigQuit.
  Variables V X Batch Score : Type.
  Variable received : V.
  Variable sig : nat -> bool.
  Variable it : X -> X * list Batch.
  Variable step : X -> Batch -> option (X * Score).
  Variable agg : X -> list Score -> lval V.
  Variable start : X -> option X.
  Notation W := (world X).
  Notation hook := (hook V W).
  Notation state := (state V W).
  Notation train := (train_signals V X Batch Score sig it step agg start).
  Notation proc s := (fst (t_world V W s)).

  (** A hook that has nothing to do with signals. *)
  Definition unrelated (names : list string) (h : hook) : Prop :=
    ~ In (h_name V W h) names /\
    (forall w w', h_start V W h w = Some w' -> fst w' = fst w) /\
    (forall e u w l w' v b, h_call V W h e u w l = Some (w', v, b) -> fst w' = fst w).

  Section One.
    Variable name scale : string.
    Variable interval : nat.
    Notation me := (sigquit_hook V X received name scale interval).
    (** The names of the StopOnSigQuit hooks that are started before. *)
    Variable silent : list string.
    Hypothesis other_names : ~ In name silent.
    Notation free := (unrelated (name :: silent)).
    Definition earlier (h : hook) : Prop := free h \/ exists a sc k, In a silent /\ h = sigquit_hook V X received a sc k.
    Definition mine (h : hook) : Prop := h = me \/ earlier h.

    (** What the calls of the hook are, after the events [pre]. *)
    Definition right (pre ev : list (event V)) : Prop :=
      forall l sc c nm v stop r, ev = l ++ Called sc c nm v stop :: r ->
        (nm = name -> stop = existsb sig (updates (pre ++ l)) /\ v = if stop then VLeaf received else VNone) /\
        (In nm silent -> stop = false /\ v = VNone).
    Definition inv (pre : list (event V)) (s : state) : Prop :=
      p_quit (proc s) name = existsb sig (updates pre) /\ p_handler (proc s) = Some name /\ p_clock (proc s) = t_update V W s /\
      forall a, In a silent -> p_quit (proc s) a = false.

    Lemma right_nil pre : right pre [].
    Proof. intros l sc c nm v stop r E. destruct l; discriminate. Qed.
    Lemma right_app pre a b : right pre a -> right (pre ++ a) b -> right pre (a ++ b).
    Proof.
      intros Ha Hb l sc c nm v stop r E. destruct (app_split _ _ _ _ _ E) as [[r' [E1 E2]]|[l' [E1 E2]]].
      - exact (Ha _ _ _ _ _ _ _ E1).
      - subst l. rewrite app_assoc. exact (Hb _ _ _ _ _ _ _ E1).
    Qed.
    Lemma right_one pre x : (forall sc c nm v stop, x = Called sc c nm v stop -> ~ In nm (name :: silent)) -> right pre [x].
    Proof.
      intros H [|y l] sc c nm v stop r E; [|destruct l; discriminate]. injection E as E _. specialize (H _ _ _ _ _ E). split.
      - intros ->. exfalso. apply H. left. reflexivity.
      - intros Hin. exfalso. apply H. right. exact Hin.
    Qed.
    Lemma no_update pre sc c nm v b : updates (pre ++ [@Called V sc c nm v b]) = updates pre.
    Proof. rewrite updates_app. cbn. apply app_nil_r. Qed.

    Lemma emit_right hooks sc : Forall mine hooks -> forall s s' stop ev pre, emit_hooks V W false hooks sc s = Some (s', stop, ev) -> inv pre s ->
      inv (pre ++ ev) s' /\ right pre ev.
    Proof.
      induction 1 as [|h hooks Hh _ IH]; intros s s' stop ev pre E I; cbn [emit_hooks] in E.
      - injection E as <- <- <-. rewrite app_nil_r. split; [exact I | apply right_nil].
      - destruct (negb (String.eqb (h_scale V W h) sc)); [exact (IH _ _ _ _ _ E I)|]. destruct (h_interval V W h =? 0); [discriminate|].
        destruct (negb (count V W sc s mod h_interval V W h =? 0)); [exact (IH _ _ _ _ _ E I)|].
        destruct (h_call V W h (t_epoch V W s) (t_update V W s) (t_world V W s) (t_logs V W s)) as [[[w v] st]|] eqn:Ec; [|discriminate].
        destruct (add_log (h_name V W h) v (t_logs V W s)) as [ls|]; [|discriminate].
        destruct (emit_hooks V W false hooks sc _) as [[[s2 st2] ev2]|] eqn:Er; [|discriminate]. injection E as <- <- <-.
        set (x := Called sc (count V W sc s) (h_name V W h) v st) in *.
        assert (Q : fst w = proc s /\ right pre [x]).
        { destruct Hh as [->|[[Hn [_ Hc]]|[a [sc0 [k0 [Ha ->]]]]]].
          - cbn in Ec. destruct I as [I _]. assert (Ev : w = t_world V W s /\ st = p_quit (proc s) name /\ v = if st then VLeaf received else VNone) by (destruct (p_quit (proc s) name); injection Ec as <- <- <-; repeat split).
            destruct Ev as [-> [Est Hv]]. split; [reflexivity|]. intros [|y l] sc' c' nm' v' stop' r' E'; [|destruct l; discriminate]. injection E' as <- <- <- <- <- _. split.
            + intros _. rewrite app_nil_r. split; [congruence | exact Hv].
            + intros Hin. exfalso. exact (other_names Hin).
          - split; [exact (Hc _ _ _ _ _ _ _ Ec)|]. apply right_one. intros sc' c' nm' v' stop' E'. unfold x in E'. injection E' as _ _ <- _ _. exact Hn.
          - cbn in Ec. destruct I as [_ [_ [_ I]]]. rewrite (I a Ha) in Ec. injection Ec as <- <- <-. split; [reflexivity|].
            intros [|y l] sc' c' nm' v' stop' r' E'; [|destruct l; discriminate]. injection E' as <- <- <- <- <- _. split.
            + intros En. exfalso. cbn in En. subst a. exact (other_names Ha).
            + intros _. split; reflexivity. }
        destruct Q as [Q1 Q2]. destruct (IH _ _ _ _ (pre ++ [x]) Er) as [J1 J2].
        { destruct I as [I1 [I2 [I3 I4]]]. unfold inv. cbn [t_world t_update]. rewrite Q1. unfold x. rewrite no_update. split; [exact I1|]. split; [exact I2|]. split; [exact I3 | exact I4]. }
        rewrite <- app_assoc in J1. split; [exact J1|]. exact (right_app pre [x] ev2 Q2 J2).
    Qed.

    Lemma step_inv b s w sc pre : sq_step X Batch Score sig step (t_world V W s) b = Some (w, sc) -> inv pre s ->
      inv (pre ++ [Updated (S (t_update V W s))]) (mkState V W (t_epoch V W s) (S (t_update V W s)) (t_logs V W s) (t_results V W s) w).
    Proof.
      intros E [I1 [I2 [I3 I4]]]. unfold sq_step in E. destruct (step (snd (t_world V W s)) b) as [[x sc']|]; [|discriminate]. cbn [p_clock p_quit p_handler] in E. rewrite I3 in E.
      unfold inv. cbn [t_world t_update]. rewrite updates_app, existsb_app. cbn [updates flat_map app existsb]. rewrite orb_false_r, <- I1.
      destruct (sig (S (t_update V W s))).
      - unfold receive in E. cbn [p_handler] in E. rewrite I2 in E. injection E as <- _. cbn. rewrite String.eqb_refl, orb_true_r. split; [reflexivity|]. split; [reflexivity|]. split; [congruence|]. intros a Ha. destruct (String.eqb_spec a name) as [->|]; [destruct (other_names Ha) | exact (I4 a Ha)].
      - injection E as <- _. cbn. rewrite orb_false_r. split; [reflexivity|]. split; [exact I2|]. split; [congruence | exact I4].
    Qed.

    Lemma batches_right hooks : Forall mine hooks -> forall bs scores s s' stop scores' ev pre,
      run_batches V W Batch Score (sq_step X Batch Score sig step) hooks bs scores s = Some (s', stop, scores', ev) -> inv pre s -> inv (pre ++ ev) s' /\ right pre ev.
    Proof.
      intros Hh. induction bs as [|b bs IH]; intros scores s s' stop scores' ev pre E I; cbn [run_batches] in E.
      - injection E as <- <- <- <-. rewrite app_nil_r. split; [exact I | apply right_nil].
      - destruct (sq_step X Batch Score sig step (t_world V W s) b) as [[w sc]|] eqn:Es; [|discriminate]. pose proof (step_inv _ _ _ _ _ Es I) as I1. cbn [t_update] in E.
        set (u := @Updated V (S (t_update V W s))) in *. assert (U : right pre [u]) by (apply right_one; intros; discriminate).
        destruct (emit_hooks V W false hooks "update" _) as [[[s2 st] ev2]|] eqn:Ee; [|discriminate]. destruct (emit_right hooks "update" Hh _ _ _ _ _ Ee I1) as [I2 R2].
        rewrite <- app_assoc in I2. cbn [app] in I2. pose proof (right_app pre [u] ev2 U R2) as R. cbn [app] in R. destruct st.
        + injection E as <- <- <- <-. split; [exact I2 | exact R].
        + destruct (run_batches V W Batch Score _ hooks bs _ s2) as [[[[s3 st3] sc3] ev3]|] eqn:Eb; [|discriminate]. injection E as <- <- <- <-.
          destruct (IH _ _ _ _ _ _ _ Eb I2) as [I3 R3]. rewrite <- app_assoc in I3. split; [exact I3|]. exact (right_app pre (u :: ev2) ev3 R R3).
    Qed.

    Lemma epochs_right hooks : Forall mine hooks -> forall fuel s s' fin ev pre,
      run_epochs V W Batch Score (sq_iterator X Batch it) (sq_step X Batch Score sig step) (sq_aggregate V X Score agg) hooks fuel s = Some (s', fin, ev) -> inv pre s ->
      right pre ev.
    Proof.
      intros Hh. induction fuel as [|fuel IH]; intros s s' fin ev pre E I; cbn [run_epochs] in E.
      - injection E as <- <- <-. apply right_nil.
      - assert (Q : forall s1 st ev1, run_epoch V W Batch Score (sq_iterator X Batch it) (sq_step X Batch Score sig step) (sq_aggregate V X Score agg) hooks s = Some (s1, st, ev1) -> inv (pre ++ ev1) s1 /\ right pre ev1).
        { intros s1 st ev1 Er. unfold run_epoch, sq_iterator in Er. destruct (it (snd (t_world V W s))) as [x bs].
          destruct (run_batches V W Batch Score _ hooks bs [] _) as [[[[s2 st2] sc2] ev2]|] eqn:Eb; [|discriminate].
          destruct (batches_right hooks Hh _ _ _ _ _ _ _ pre Eb) as [I2 R2]; [exact I|].
          destruct (add_log "rolling_training" _ (t_logs V W s2)) as [ls|]; [|discriminate].
          destruct (emit_hooks V W false hooks "epoch" _) as [[[s3 st3] ev3]|] eqn:Ee; [|discriminate]. injection Er as <- <- <-.
          set (lg := @Logged V (t_epoch V W s2) _) in *. assert (I2' : inv ((pre ++ ev2) ++ [lg]) (mkState V W (t_epoch V W s2) (t_update V W s2) ls (t_results V W s2) (t_world V W s2))).
          { destruct I2 as [A1 [A2 [A3 A4]]]. unfold inv. cbn [t_world t_update]. rewrite (updates_app _ (pre ++ ev2)). cbn [updates flat_map lg]. rewrite app_nil_r. split; [exact A1|]. split; [exact A2|]. split; [exact A3 | exact A4]. }
          destruct (emit_right hooks "epoch" Hh _ _ _ _ _ Ee I2') as [I3 R3]. split.
          - rewrite <- !app_assoc in I3. exact I3.
          - apply right_app; [exact R2|]. apply (right_app _ [lg] ev3); [|exact R3]. apply right_one. intros; discriminate. }
        destruct (run_epoch V W Batch Score _ _ _ hooks s) as [[[s1 st] ev1]|] eqn:Er; [|discriminate]. destruct (Q _ _ _ eq_refl) as [I1 R1]. destruct st.
        + injection E as <- <- <-. exact R1.
        + destruct (run_epochs V W Batch Score _ _ _ hooks fuel s1) as [[[s2 f2] ev2]|] eqn:Ee; [|discriminate]. injection E as <- <- <-. exact (right_app _ _ _ R1 (IH _ _ _ _ _ Ee I1)).
    Qed.

    Lemma start_others hooks : Forall free hooks -> forall w w', start_hooks V W hooks w = Some w' -> fst w' = fst w.
    Proof.
      induction 1 as [|h hooks [_ [Hs _]] _ IH]; intros w w' E; cbn in E; [congruence|]. destruct (h_start V W h w) as [w1|] eqn:E1; [|discriminate]. rewrite (IH _ _ E). exact (Hs _ _ E1).
    Qed.
    Lemma start_keeps h1 h2 a : Forall earlier h1 -> Forall free h2 -> forall w w', start_hooks V W (h1 ++ me :: h2) w = Some w' ->
      p_quit (fst w) a = false -> p_quit (fst w') a = false.
    Proof.
      intros H1 H2. induction H1 as [|h h1 Hh _ IH]; intros w w' E Hq; cbn [app start_hooks] in E.
      - cbn in E. rewrite (start_others h2 H2 _ _ E). cbn. destruct (String.eqb a name); [reflexivity | exact Hq].
      - destruct (h_start V W h w) as [w1|] eqn:E1; [|discriminate]. apply (IH _ _ E). destruct Hh as [[_ [Hs _]]|[b [sc [k [_ ->]]]]]; [now rewrite (Hs _ _ E1)|].
        cbn in E1. injection E1 as <-. cbn. destruct (String.eqb a b); [reflexivity | exact Hq].
    Qed.
    Lemma start_all h1 h2 : Forall earlier h1 -> Forall free h2 -> forall w w', start_hooks V W (h1 ++ me :: h2) w = Some w' ->
      p_quit (fst w') name = false /\ p_handler (fst w') = Some name /\ p_clock (fst w') = p_clock (fst w) /\
      forall a sc k, In (sigquit_hook V X received a sc k) h1 -> p_quit (fst w') a = false.
    Proof.
      intros H1 H2. induction H1 as [|h h1 Hh H1 IH]; intros w w' E; cbn [app start_hooks] in E.
      - cbn in E. rewrite (start_others h2 H2 _ _ E). cbn. rewrite String.eqb_refl. split; [reflexivity|]. split; [reflexivity|]. split; [reflexivity|]. intros a sc k [].
      - destruct (h_start V W h w) as [w1|] eqn:E1; [|discriminate]. destruct (IH _ _ E) as [A [B [C D]]]. split; [exact A|]. split; [exact B|]. split.
        + rewrite C. destruct Hh as [[_ [Hs _]]|[b [sc [k [_ ->]]]]]; [now rewrite (Hs _ _ E1)|]. cbn in E1. injection E1 as <-. reflexivity.
        + intros a sc k [Q|Q]; [|exact (D a sc k Q)]. subst h. apply (start_keeps h1 h2 a H1 H2 _ _ E). cbn in E1. injection E1 as <-. cbn. now rewrite String.eqb_refl.
    Qed.

    Variables h1 h2 : list hook.
    Hypothesis H1 : Forall earlier h1.
    Hypothesis H2 : Forall free h2.
    Hypothesis all_silent : forall a, In a silent -> exists sc k, In (sigquit_hook V X received a sc k) h1.

    Lemma train_right fuel s s' fin tr : p_clock (proc s) = t_update V W s -> train (h1 ++ me :: h2) fuel s = Some (s', fin, tr) -> right [] tr.
    Proof.
      intros Hc E. unfold train_signals, TrainerModel.train, sq_begin in E. destruct (start (snd (t_world V W s))) as [x|]; [|discriminate].
      destruct (start_hooks V W (h1 ++ me :: h2) _) as [w1|] eqn:Es; [|discriminate]. destruct (start_all h1 h2 H1 H2 _ _ Es) as [A [B [C D]]]. cbn [fst] in C.
      assert (Hh : Forall mine (h1 ++ me :: h2)). { apply Forall_app. split; [|constructor; [left; reflexivity|]]; (eapply Forall_impl; [|eassumption]); intros h Q; right; [exact Q | left; exact Q]. }
      assert (I : inv [] (mkState V W (t_epoch V W s) (t_update V W s) (t_logs V W s) (t_results V W s) w1)).
      { unfold inv. cbn [t_world t_update updates flat_map existsb]. split; [exact A|]. split; [exact B|]. split; [congruence|]. intros a Ha. destruct (all_silent a Ha) as [sc [k Q]]. exact (D a sc k Q). }
      destruct (emit_hooks V W false _ "update" _) as [[[s2 st2] ev2]|] eqn:E2; [|discriminate]. destruct (emit_right _ _ Hh _ _ _ _ _ E2 I) as [I2 R2]. destruct st2; [injection E as <- <- <-; exact R2|].
      destruct (emit_hooks V W false _ "epoch" s2) as [[[s3 st3] ev3]|] eqn:E3; [|discriminate]. destruct (emit_right _ _ Hh _ _ _ _ _ E3 I2) as [I3 R3]. destruct st3; [injection E as <- <- <-; exact (right_app _ _ _ R2 R3)|].
      destruct (run_epochs V W Batch Score _ _ _ _ fuel s3) as [[[s4 f4] ev4]|] eqn:E4; [|discriminate]. injection E as <- <- <-. apply (right_app _ _ _ R2). apply (right_app _ _ _ R3). exact (epochs_right _ Hh _ _ _ _ _ _ E4 I3).
    Qed.

    (** ** C76: the StopOnSigQuit hook that is started last requests a stop at exactly
        those of its calls before which a signal arrived in this training (whatever
        the state of its flag and the process' handler were before), and logs the
        message then. *)
    Theorem C76_calls : forall fuel s s' fin tr, p_clock (proc s) = t_update V W s ->
      train (h1 ++ me :: h2) fuel s = Some (s', fin, tr) ->
      forall l sc c v stop r, tr = l ++ Called sc c name v stop :: r ->
        (stop = true <-> exists m, In (Updated m) l /\ sig m = true) /\ v = if stop then VLeaf received else VNone.
    Proof.
      intros fuel s s' fin tr Hc E l sc c v stop r Et. destruct (train_right _ _ _ _ _ Hc E l sc c name v stop r Et) as [R _]. destruct (R eq_refl) as [Hs Hv]. cbn [app] in Hs. split; [|exact Hv]. rewrite Hs, existsb_exists. split; intros [m [M1 M2]]; exists m; (split; [|exact M2]).
      - clear -M1. unfold updates in M1. apply in_flat_map in M1. destruct M1 as [e [Q1 Q2]]. destruct e; try destruct Q2 as []; subst; [exact Q1 | destruct H].
      - unfold updates. apply in_flat_map. exists (Updated m). split; [exact M1 | left; reflexivity].
    Qed.

    (** The StopOnSigQuit hooks before it never request a stop, whatever signals
        arrive (so the claim is false of each of them). *)
    Theorem C76_earlier_hooks_refuted : forall fuel s s' fin tr, p_clock (proc s) = t_update V W s ->
      train (h1 ++ me :: h2) fuel s = Some (s', fin, tr) ->
      forall a sc c v stop, In a silent -> In (Called sc c a v stop) tr -> stop = false /\ v = VNone.
    Proof.
      intros fuel s s' fin tr Hc E a sc c v stop Ha Hin. apply in_split in Hin. destruct Hin as [l [r Et]]. destruct (train_right _ _ _ _ _ Hc E l sc c a v stop r Et) as [_ R]. exact (R Ha).
    Qed.

    Lemma in_updates (tr : list (event V)) m : In m (updates tr) <-> In (Updated m) tr.
    Proof.
      unfold updates. rewrite in_flat_map. split.
      - intros [e [Q1 Q2]]. destruct e; try destruct Q2 as []; subst; [exact Q1 | destruct H].
      - intros H. exists (Updated m). split; [exact H | left; reflexivity].
    Qed.
    Lemma in_names sc n (tr : list (event V)) : In name (names_at sc n tr) -> exists l v stop r, tr = l ++ Called sc n name v stop :: r.
    Proof.
      unfold names_at. rewrite in_flat_map. intros [e [Q1 Q2]]. destruct e as [s' n' nm v st| |]; try (destruct Q2; fail).
      destruct (String.eqb_spec s' sc) as [->|]; [|destruct Q2]. destruct (Nat.eqb_spec n' n) as [->|]; [|destruct Q2]. destruct Q2 as [->|[]].
      apply in_split in Q1. destruct Q1 as [l [r ->]]. eauto.
    Qed.
    Lemma due_me sc c : scale = sc -> c mod interval = 0 -> In name (due_hooks V W (h1 ++ me :: h2) sc c).
    Proof.
      intros -> Hc. unfold due_hooks. apply in_map_iff. exists (sigquit_hook V X received name sc interval). split; [reflexivity|]. apply filter_In. split; [apply in_or_app; right; left; reflexivity|]. cbn. now rewrite String.eqb_refl, Hc.
    Qed.
    Lemma updates_steps (l : list (event V)) : updates (steps l) = updates l.
    Proof. induction l as [|e l IH]; [reflexivity|]. destruct e; cbn; [exact IH | now f_equal | exact IH]. Qed.
    Lemma loggeds_steps (l : list (event V)) : loggeds (steps l) = loggeds l.
    Proof. induction l as [|e l IH]; [reflexivity|]. destruct e; cbn; [exact IH | exact IH | now f_equal]. Qed.
    Lemma seq_last a n (l : list nat) c : seq a n = l ++ [c] -> c = a + n - 1 /\ 0 < n.
    Proof.
      intros E. destruct n as [|n]; [destruct l; discriminate|]. rewrite seq_S in E. apply app_inj_tail in E. lia.
    Qed.

    (** With the timescale 'update', no update is done after the first multiple of
        the interval that follows the update in which a signal arrived. *)
    Theorem C76_updates : scale = "update" -> forall fuel s s' fin tr, p_clock (proc s) = t_update V W s ->
      train (h1 ++ me :: h2) fuel s = Some (s', fin, tr) ->
      forall m c, In (Updated m) tr -> sig m = true -> m <= c -> c mod interval = 0 -> t_update V W s' <= c.
    Proof.
      intros Hsc fuel s s' fin tr Hc E m c Hm Hs Hmc Hd. destruct (Nat.le_gt_cases (t_update V W s') c) as [L|L]; [exact L|]. exfalso.
      destruct (C18_numbering _ _ _ _ _ _ _ _ _ _ _ _ _ _ E) as [N _]. assert (M := proj2 (in_updates tr m) Hm). rewrite N in M. apply in_seq in M.
      assert (Q : In name (names_at "update" c tr)). { rewrite (C18_update_hooks _ _ _ _ _ _ _ _ _ _ _ _ _ _ E c). replace ((t_update V W s <=? c) && (c <=? t_update V W s')) with true by (symmetry; apply andb_true_intro; split; apply Nat.leb_le; lia). exact (due_me "update" c Hsc Hd). }
      destruct (in_names _ _ _ Q) as [l [v [stop [r Et]]]].
      destruct (C18_position _ _ _ _ _ _ _ _ _ _ _ _ _ _ E _ _ _ _ _ _ _ Et) as [[_ [[_ P]|[P _]]]|[[_ [l' P]]|[P _]]]; [lia | discriminate | | discriminate].
      assert (U : updates l = updates l' ++ [c]) by (rewrite <- updates_steps, P, updates_app; reflexivity).
      assert (T : updates tr = updates l ++ updates r) by (rewrite Et, updates_app; reflexivity).
      assert (Hml : In m (updates l)).
      { assert (Hr : updates l = seq (S (t_update V W s)) (length (updates l))).
        { rewrite N in T. pose proof (f_equal (firstn (length (updates l))) T) as F. rewrite firstn_app, Nat.sub_diag, firstn_all in F. cbn [firstn] in F. rewrite app_nil_r in F.
          pose proof (f_equal (@length nat) T) as G. rewrite app_length, seq_length in G. rewrite <- F at 1. clear -G.
          replace (t_update V W s' - t_update V W s) with (length (updates l) + length (updates r)) by lia. rewrite seq_app, firstn_app, seq_length, Nat.sub_diag. cbn [firstn]. rewrite app_nil_r. apply firstn_all2. now rewrite seq_length. }
        pose proof Hr as Hr'. rewrite U in Hr' at 1. symmetry in Hr'. apply seq_last in Hr'. rewrite Hr. apply in_seq. lia. }
      destruct (C76_calls _ _ _ _ _ Hc E _ _ _ _ _ _ Et) as [K _]. assert (stop = true) as -> by (apply K; exists m; split; [now apply in_updates | exact Hs]).
      destruct (C20_stop _ _ _ _ _ _ _ _ _ _ _ _ _ _ E) as [_ Z]. specialize (Z _ _ _ _ _ _ Et). rewrite Z, app_nil_r, N, U in T. apply seq_last in T. lia.
    Qed.

    (** With the timescale 'epoch', the training ends after the first epoch whose
        number is a multiple of the interval and that was not finished when the
        signal arrived. *)
    Theorem C76_epochs : scale = "epoch" -> forall fuel s s' fin tr, p_clock (proc s) = t_update V W s ->
      train (h1 ++ me :: h2) fuel s = Some (s', fin, tr) ->
      forall l m r c, tr = l ++ Updated m :: r -> sig m = true -> t_epoch V W s < c -> (forall e v, In (Logged e v) l -> e < c) ->
      c mod interval = 0 -> t_epoch V W s' <= c.
    Proof.
      intros Hsc fuel s s' fin tr Hc E l m r c Em Hs Hec Hl Hd. destruct (Nat.le_gt_cases (t_epoch V W s') c) as [L|L]; [exact L|]. exfalso.
      destruct (C18_numbering _ _ _ _ _ _ _ _ _ _ _ _ _ _ E) as [N N2]. destruct (C20_stop _ _ _ _ _ _ _ _ _ _ _ _ _ _ E) as [_ Z].
      assert (Q : In name (names_at "epoch" c tr)).
      { rewrite (C18_epoch_hooks_partial _ _ _ _ _ _ _ _ _ _ _ _ _ _ E).
        - replace ((t_epoch V W s <=? c) && (c <=? t_epoch V W s')) with true by (symmetry; apply andb_true_intro; split; apply Nat.leb_le; lia). exact (due_me "epoch" c Hsc Hd).
        - intros nm v Hin. apply in_split in Hin. destruct Hin as [a [b Eb]]. specialize (Z _ _ _ _ _ _ Eb).
          assert (Ua : updates a = []).
          { destruct (C18_position _ _ _ _ _ _ _ _ _ _ _ _ _ _ E _ _ _ _ _ _ _ Eb) as [[P _]|[[_ [l' P]]|[P _]]]; [now rewrite <- updates_steps, P | | discriminate].
            exfalso. assert (In (t_update V W s) (updates tr)) as Hu by (rewrite Eb, updates_app; apply in_or_app; left; rewrite <- updates_steps, P, updates_app; apply in_or_app; right; left; reflexivity).
            rewrite N in Hu. apply in_seq in Hu. lia. }
          assert (In m (updates tr)) as Hu by (apply in_updates; rewrite Em; apply in_or_app; right; left; reflexivity).
          rewrite Eb, updates_app in Hu. cbn [updates flat_map app] in Hu. change (flat_map _ b) with (updates b) in Hu. rewrite Ua, Z in Hu. destruct Hu. }
      destruct (in_names _ _ _ Q) as [a [v [stop [b Et]]]].
      destruct (C18_position _ _ _ _ _ _ _ _ _ _ _ _ _ _ E _ _ _ _ _ _ _ Et) as [[_ [[P _]|[_ P]]]|[[P _]|[_ [l' [w P]]]]]; [discriminate | lia | discriminate |].
      assert (Hlog : In (Logged c w) a). { assert (In (Logged c w) (steps a)) as H by (rewrite P; apply in_or_app; right; left; reflexivity). unfold steps in H. apply filter_In in H. exact (proj1 H). }
      assert (Hu : In (Updated m) a).
      { rewrite Em in Et. symmetry in Et. destruct (app_split _ _ _ _ _ Et) as [[r1 [E1 _]]|[l1 [E1 E2]]].
        - rewrite E1. apply in_or_app. right. left. reflexivity.
        - exfalso. rewrite E2 in Hl. specialize (Hl c w (in_or_app _ _ _ (or_introl Hlog))). lia. }
      destruct (C76_calls _ _ _ _ _ Hc E _ _ _ _ _ _ Et) as [K _]. assert (stop = true) as -> by (apply K; exists m; split; assumption).
      destruct (train_spec _ _ _ _ _ _ _ _ _ _ _ _ _ _ E) as []. destruct (r_after _ _ _ _ _ _ Et) as [_ G]. cbn in G.
      assert (T : loggeds tr = loggeds l' ++ [c]). { rewrite Et, loggeds_app. cbn [loggeds flat_map app]. change (flat_map _ b) with (loggeds b). rewrite G, app_nil_r, <- loggeds_steps, P, loggeds_app. reflexivity. }
      rewrite N2 in T. apply seq_last in T. lia.
    Qed.
  End One.
End SigQuit.
Print Assumptions C76_calls.
Print Assumptions C76_earlier_hooks_refuted.
Print Assumptions C76_updates.
Print Assumptions C76_epochs.

(** Epochs of three updates.  The world counts them, the hooks differ. *)
Definition ex_train (sig : nat -> bool) (hooks : list (hook string (world nat))) (p : process) : option (nat * nat * bool * logs string) :=
  match train_signals string nat unit unit sig (fun x => (x, [tt; tt; tt])) (fun x _ => Some (S x, tt)) (fun _ _ => VNone) Some hooks 4
          (mkState string (world nat) 0 0 [] [] (p, 0)) with
  | None => None
  | Some (s, fin, _) => Some (t_epoch _ _ s, t_update _ _ s, fin, t_logs _ _ s)
  end.
Definition quit_hook := sigquit_hook string nat "Received SIGQUIT signal.".
Definition no_handler : process := mkProcess (fun _ => false) None 0.
(** A signal in the fifth update: the default hook stops after the second epoch,
    one that is called at every fourth update in the eighth; without a signal, or
    with one of an earlier training, the four epochs the example looks at are run;
    without the hook the process ends. *)
Example C76_case :
  ex_train (Nat.eqb 5) [quit_hook "q" "epoch" 1] no_handler = Some (2, 6, true, [("q", DLeaf ["Received SIGQUIT signal."])]) /\
  ex_train (Nat.eqb 5) [quit_hook "q" "update" 4] no_handler = Some (3, 8, true, [("q", DLeaf ["Received SIGQUIT signal."])]) /\
  ex_train (fun _ => false) [quit_hook "q" "epoch" 1] (mkProcess (fun _ => true) (Some "q") 0) = Some (4, 12, false, []) /\
  ex_train (Nat.eqb 5) [] no_handler = None.
Proof. repeat split. Qed.
(** Two StopOnSigQuit hooks: only the one that is started last hears of signals, so
    the first, which is to stop at updates, never does. *)
Theorem C76_two_hooks_refuted :
  ex_train (Nat.eqb 4) [quit_hook "fast" "update" 1; quit_hook "slow" "epoch" 3] no_handler = Some (3, 9, true, [("slow", DLeaf ["Received SIGQUIT signal."])]) /\
  ex_train (Nat.eqb 4) [quit_hook "slow" "epoch" 3; quit_hook "fast" "update" 1] no_handler = Some (2, 4, true, [("fast", DLeaf ["Received SIGQUIT signal."])]).
Proof. split; reflexivity. Qed.
Print Assumptions C76_two_hooks_refuted.
