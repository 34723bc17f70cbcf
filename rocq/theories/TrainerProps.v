(** Properties of the trainer: C18 - C21. *)
From Coq Require Import String List Arith ZArith Bool Lia Permutation Sorting.Sorted.
From Verif Require Import PyBase PyFacts UtilsModel TrainerModel TrainerProofs.
Import ListNotations.
Open Scope string_scope.
Open Scope list_scope.
Open Scope nat_scope.

Section Props.
  Variables V W Batch Score : Type.
  Variable new_iterator : W -> W * list Batch.
  Variable train_step : W -> Batch -> option (W * Score).
  Variable aggregate : W -> list Score -> lval V.
  Variable start : W -> option W.
  Notation hook := (hook V W).
  Notation state := (state V W).
  Notation train := (train V W Batch Score new_iterator train_step aggregate start).

  (** The specification: names of the hooks with this timescale whose interval
      divides n, in the order of the trainer's hooks. *)
  Definition due_hooks (hooks : list hook) (scale : string) (n : nat) : list string :=
    map (h_name V W) (filter (fun h => String.eqb (h_scale V W h) scale && (n mod h_interval V W h =? 0)) hooks).

  (** ** C18 *)
  (** A run (also one cut off after [fuel] epochs) that ends with update_nr [u']
      calls at update count n exactly the due update hooks, each once, in order,
      for the counts from the initial one (before training) to [u']. *)
  Theorem C18_update_hooks : forall hooks fuel s s' fin tr, train hooks fuel s = Some (s', fin, tr) -> forall n,
    names_at "update" n tr =
    if (t_update V W s <=? n) && (n <=? t_update V W s') then due_hooks hooks "update" n else [].
  Proof. intros hooks fuel s s' fin tr H. exact (r_update _ _ _ _ _ _ _ (train_spec _ _ _ _ _ _ _ _ _ _ _ _ _ _ H)). Qed.

  (** The same for epoch hooks, if no update hook requests a stop before
      training. *)
  Theorem C18_epoch_hooks_partial : forall hooks fuel s s' fin tr, train hooks fuel s = Some (s', fin, tr) ->
    (forall name v, ~ In (Called "update" (t_update V W s) name v true) tr) -> forall n,
    names_at "epoch" n tr =
    if (t_epoch V W s <=? n) && (n <=? t_epoch V W s') then due_hooks hooks "epoch" n else [].
  Proof. intros hooks fuel s s' fin tr H. exact (r_epoch _ _ _ _ _ _ _ (train_spec _ _ _ _ _ _ _ _ _ _ _ _ _ _ H)). Qed.

  (** No other calls. *)
  Theorem C18_only_these : forall hooks fuel s s' fin tr, train hooks fuel s = Some (s', fin, tr) -> forall scale n,
    scale <> "epoch" -> scale <> "update" -> names_at scale n tr = [].
  Proof. intros hooks fuel s s' fin tr H. exact (r_other _ _ _ _ _ _ _ (train_spec _ _ _ _ _ _ _ _ _ _ _ _ _ _ H)). Qed.

  (** The updates and epochs are numbered consecutively. *)
  Theorem C18_numbering : forall hooks fuel s s' fin tr, train hooks fuel s = Some (s', fin, tr) ->
    updates tr = seq (S (t_update V W s)) (t_update V W s' - t_update V W s) /\
    loggeds tr = seq (S (t_epoch V W s)) (t_epoch V W s' - t_epoch V W s).
  Proof. intros hooks fuel s s' fin tr H. destruct (train_spec _ _ _ _ _ _ _ _ _ _ _ _ _ _ H). now split. Qed.

  (** A call at count n happens directly (i.e. with only other calls in between)
      after the n-th update / the end of the n-th epoch, or before training. *)
  Theorem C18_position : forall hooks fuel s s' fin tr, train hooks fuel s = Some (s', fin, tr) ->
    forall l scale n name v stop r, tr = l ++ Called scale n name v stop :: r ->
    (steps l = [] /\ (scale = "update" /\ n = t_update V W s \/ scale = "epoch" /\ n = t_epoch V W s)) \/
    (scale = "update" /\ exists l', steps l = l' ++ [Updated n]) \/
    (scale = "epoch" /\ exists l' w, steps l = l' ++ [Logged n w]).
  Proof.
    intros hooks fuel s s' fin tr H l scale n name v stop r E.
    assert (P := r_pos _ _ _ _ _ _ _ (train_spec _ _ _ _ _ _ _ _ _ _ _ _ _ _ H)).
    rewrite E in P. apply pos_app in P. destruct P as [_ P]. cbn [pos_ok] in P. destruct P as [P _].
    rewrite last_steps in P. destruct (rev (steps l)) as [|x xs] eqn:R.
    - left. split; [|exact P]. apply (f_equal (@rev _)) in R. now rewrite rev_involutive in R.
    - assert (R' : steps l = rev xs ++ [x]) by (apply (f_equal (@rev _)) in R; rewrite rev_involutive in R; exact R).
      destruct x as [| m | m w]; cbn [matches] in P; [destruct P | |]; destruct P as [-> ->]; right; [left | right]; split; eauto.
  Qed.

  Lemma only_logged (r : list (event V)) m : updates r = [] -> loggeds r = [m] ->
    exists r1 w r2, r = r1 ++ Logged m w :: r2 /\ steps r1 = [] /\ steps r2 = [].
  Proof.
    induction r as [|x r IH]; intros U L; [discriminate|]. destruct x as [sc n nm v b|n|n v].
    - destruct (IH U L) as [r1 [w [r2 [-> [S1 S2]]]]]. now exists (Called sc n nm v b :: r1), w, r2.
    - discriminate.
    - cbn [loggeds flat_map app] in L. injection L as -> L. exists [], v, r. split; [reflexivity|]. split; [reflexivity|].
      clear IH. change (updates r = []) in U. change (loggeds r = []) in L. induction r as [|[sc n nm v' b|n|n v'] r IH]; try discriminate; [reflexivity|].
      exact (IH U L).
  Qed.

  Lemma named scale n (l : list (event V)) name v b r : In name (names_at scale n (l ++ Called scale n name v b :: r)).
  Proof. rewrite names_app. apply in_or_app. right. cbn [names_at flat_map]. rewrite String.eqb_refl, Nat.eqb_refl. now left. Qed.

  (** ** C20 *)
  (** Whenever a hook requests a stop, all hooks due at that point are called. *)
  Theorem C20_remaining_hooks : forall hooks fuel s s' fin tr, train hooks fuel s = Some (s', fin, tr) ->
    forall scale n name v, In (Called scale n name v true) tr -> names_at scale n tr = due_hooks hooks scale n.
  Proof.
    intros hooks fuel s s' fin tr H scale n name v Hin. destruct (train_spec _ _ _ _ _ _ _ _ _ _ _ _ _ _ H) as [].
    apply in_split in Hin. destruct Hin as [l [r E]].
    assert (Hn : In name (names_at scale n tr)) by (rewrite E; apply named).
    destruct (String.eqb_spec scale "update") as [->|N1].
    { rewrite r_update in *. destruct (_ && _) in *; [reflexivity | destruct Hn]. }
    destruct (String.eqb_spec scale "epoch") as [->|N2]; [|rewrite r_other in Hn by assumption; destruct Hn].
    rewrite r_epoch in *.
    - destruct (_ && _) in *; [reflexivity | destruct Hn].
    - intros nm w Hu. destruct (r_prestop (ex_intro _ nm (ex_intro _ w Hu))) as [_ [_ Z]]. rewrite Z in Hn. destruct Hn.
    - intros nm w Hu. destruct (r_prestop (ex_intro _ nm (ex_intro _ w Hu))) as [_ [_ Z]]. rewrite Z in Hn. destruct Hn.
  Qed.

  (** Training ends if and only if a hook requests a stop, and then no further
      update is done. *)
  Theorem C20_stop : forall hooks fuel s s' fin tr, train hooks fuel s = Some (s', fin, tr) ->
    (fin = true <-> exists scale n name v, In (Called scale n name v true) tr) /\
    (forall l scale n name v r, tr = l ++ Called scale n name v true :: r -> updates r = []).
  Proof.
    intros hooks fuel s s' fin tr H. destruct (train_spec _ _ _ _ _ _ _ _ _ _ _ _ _ _ H) as [].
    split; [|intros l scale n name v r Q; apply (r_after _ _ _ _ _ _ Q)]. rewrite r_fin, existsb_exists. split.
    - intros [x [Hx Sx]]. destruct x; try discriminate. simpl in Sx. subst. eauto 6.
    - intros [sc [n [nm [v Hin]]]]. eexists. split; [exact Hin | reflexivity].
  Qed.

  (** After a stop during an epoch the scores of that epoch are logged, then all
      due epoch hooks are called, and that is all that happens besides calls. *)
  Theorem C20_epoch_completed : forall hooks fuel s s' fin tr, train hooks fuel s = Some (s', fin, tr) ->
    forall l n name v r, tr = l ++ Called "update" n name v true :: r -> t_update V W s < n ->
    exists r1 w r2, r = r1 ++ Logged (t_epoch V W s') w :: r2 /\ steps r1 = [] /\ steps r2 = [] /\
      names_at "epoch" (t_epoch V W s') r2 = due_hooks hooks "epoch" (t_epoch V W s').
  Proof.
    intros hooks fuel s s' fin tr H l n name v r E Hn.
    assert (P := C18_position _ _ _ _ _ _ H).
    destruct (C18_numbering _ _ _ _ _ _ H) as [_ Ln].
    destruct (train_spec _ _ _ _ _ _ _ _ _ _ _ _ _ _ H) as [].
    destruct (r_after _ _ _ _ _ _ E) as [U L].
    change (String.eqb "update" "update") with true in L. rewrite (proj2 (Nat.ltb_lt _ _) Hn) in L. cbn [andb] in L.
    destruct (only_logged r _ U L) as [r1 [w [r2 [Er [S1 S2]]]]].
    exists r1, w, r2. split; [assumption|]. split; [assumption|]. split; [assumption|].
    assert (Nd : NoDup (loggeds tr)) by (rewrite Ln; apply seq_NoDup).
    assert (He : t_epoch V W s < t_epoch V W s').
    { assert (Hi : In (t_epoch V W s') (loggeds tr)).
      { rewrite E, loggeds_app. apply in_or_app. right. cbn [loggeds flat_map app]. fold (loggeds r). rewrite L. now left. }
      rewrite Ln in Hi. apply in_seq in Hi. lia. }
    assert (Nm : names_at "epoch" (t_epoch V W s') tr = due_hooks hooks "epoch" (t_epoch V W s')).
    { rewrite r_epoch.
      - rewrite (proj2 (Nat.leb_le _ _)) by lia. now rewrite Nat.leb_refl.
      - intros nm x Hin. destruct r_prestop as [Z _]; [now exists nm, x | lia]. }
    rewrite <- Nm. rewrite E, Er.
    replace (l ++ Called "update" n name v true :: r1 ++ Logged (t_epoch V W s') w :: r2)
      with ((l ++ Called "update" n name v true :: r1 ++ [Logged (t_epoch V W s') w]) ++ r2) by (rewrite <- !app_assoc; cbn; now rewrite <- app_assoc).
    rewrite names_app. set (a := l ++ Called "update" n name v true :: r1).
    replace (l ++ Called "update" n name v true :: r1 ++ [Logged (t_epoch V W s') w]) with (a ++ [Logged (t_epoch V W s') w]) by (unfold a; rewrite <- app_assoc; reflexivity).
    assert (Et : tr = a ++ Logged (t_epoch V W s') w :: r2) by (rewrite E, Er; unfold a; rewrite <- app_assoc; reflexivity).
    rewrite names_app. cbn [names_at flat_map]. rewrite app_nil_r.
    destruct (names_at "epoch" (t_epoch V W s') a) as [|nm0 rest] eqn:Ea; [reflexivity|]. exfalso.
    assert (Hin : In nm0 (names_at "epoch" (t_epoch V W s') a)) by (rewrite Ea; now left).
    unfold names_at in Hin. apply in_flat_map in Hin. destruct Hin as [x [Hx Hnm]]. destruct x as [sc m nm x b| |]; try contradiction.
    destruct (String.eqb_spec sc "epoch") as [->|]; [|destruct Hnm]. destruct (Nat.eqb_spec m (t_epoch V W s')) as [->|]; [|destruct Hnm].
    apply in_split in Hx. destruct Hx as [a1 [a2 Ha]].
    assert (Et2 : tr = a1 ++ Called "epoch" (t_epoch V W s') nm x b :: (a2 ++ Logged (t_epoch V W s') w :: r2)) by (rewrite Et, Ha, <- app_assoc; reflexivity).
    destruct (P _ _ _ _ _ _ _ Et2) as [[_ [[D _]|[_ D]]]|[[D _]|[_ [l' [w' D]]]]]; try discriminate; [lia|].
    assert (Hi : In (t_epoch V W s') (loggeds a1)).
    { unfold loggeds. apply in_flat_map. exists (Logged (t_epoch V W s') w'). split; [|now left].
      assert (Hs : In (Logged (t_epoch V W s') w') (steps a1)) by (rewrite D; apply in_or_app; right; now left).
      unfold steps in Hs. apply filter_In in Hs. tauto. }
    rewrite Et2, loggeds_app in Nd. cbn [loggeds flat_map app] in Nd. fold (loggeds (a2 ++ Logged (t_epoch V W s') w :: r2)) in Nd.
    rewrite loggeds_app in Nd. cbn [loggeds flat_map app] in Nd.
    apply in_split in Hi. destruct Hi as [b1 [b2 Hb]]. fold (loggeds a1) in Nd. rewrite Hb, <- app_assoc in Nd. apply NoDup_remove_2 in Nd. apply Nd.
    apply in_or_app. right. apply in_or_app. right. apply in_or_app. right. now left.
  Qed.

  (** Every list in the logs grows exactly by the values returned by the calls of
      the hook of that name (and, for "rolling_training", the scores of the
      epochs), in order. *)
  Theorem C20_logs : forall hooks fuel s s' fin tr, train hooks fuel s = Some (s', fin, tr) -> forall name path,
    lists_at (name :: path) (t_logs V W s') = lists_at (name :: path) (t_logs V W s) ++
    flat_map (fun e => match e with
      | Called _ _ nm v _ => if String.eqb name nm then vals_at path v else []
      | Logged _ v => if String.eqb name "rolling_training" then vals_at path v else []
      | Updated _ => [] end) tr.
  Proof. intros hooks fuel s s' fin tr H. exact (r_logs _ _ _ _ _ _ _ (train_spec _ _ _ _ _ _ _ _ _ _ _ _ _ _ H)). Qed.

  (** ** C19 *)
  Section StopAfterEpoch.
    Variables (name : string) (n k m : nat).
    Let sae : hook := stop_after_epoch V W name n "epoch" k.
    Variable hooks : list hook.
    Hypothesis Hin : In sae hooks.
    Hypothesis Honly : forall h, In h hooks -> h = sae \/ forall e u w l w' v b, h_call V W h e u w l = Some (w', v, b) -> b = false.
    Hypothesis Hm : forall w, length (snd (new_iterator w)) = m.


    Lemma emit_sae_update hs : forall s s' stop ev, (forall h, In h hs -> In h hooks) -> emit_hooks V W false hs "update" s = Some (s', stop, ev) -> stop = false.
    Proof.
      induction hs as [|h r IH]; intros s s' stop ev Hs H.
      - cbn in H. now injection H as _ <- _.
      - assert (Hr : forall h, In h r -> In h hooks) by (intros; apply Hs; now right). cbn [emit_hooks] in H.
        destruct (String.eqb_spec (h_scale V W h) "update") as [Es|]; cbn [negb] in H; [|exact (IH _ _ _ _ Hr H)].
        destruct (h_interval V W h =? 0); [discriminate|].
        destruct (count V W "update" s mod h_interval V W h =? 0); cbn [negb] in H; [|exact (IH _ _ _ _ Hr H)].
        destruct (h_call V W h _ _ _ _) as [[[w v] st]|] eqn:Ec; [|discriminate]. destruct (add_log _ v _) as [ls|]; [|discriminate].
        destruct (emit_hooks V W false r "update" _) as [[[s2 st2] ev2]|] eqn:E; [|discriminate]. injection H as _ <- _.
        rewrite (IH _ _ _ _ Hr E). destruct (Honly h (Hs h (or_introl eq_refl))) as [->|Hf]; [discriminate Es|]. now rewrite (Hf _ _ _ _ _ _ _ Ec).
    Qed.

    Lemma emit_sae_epoch hs : forall s s' stop ev, (forall h, In h hs -> In h hooks) -> emit_hooks V W false hs "epoch" s = Some (s', stop, ev) ->
      (In sae hs -> 0 < k) /\ (stop = true <-> In sae hs /\ t_epoch V W s mod k = 0 /\ n <= t_epoch V W s).
    Proof.
      induction hs as [|h r IH]; intros s s' stop ev Hs H.
      - cbn in H. injection H as _ <- _. split; [intros []|]. split; [discriminate | intros [[] _]].
      - assert (Hr : forall h, In h r -> In h hooks) by (intros; apply Hs; now right). cbn [emit_hooks] in H.
        destruct (String.eqb_spec (h_scale V W h) "epoch") as [Es|Es]; cbn [negb] in H.
        2:{ destruct (IH _ _ _ _ Hr H) as [A B].
            assert (Nh : h <> sae) by (intros ->; now apply Es).
            split; [intros [->|Hi]; [contradiction | now apply A]|]. rewrite B. split; [intros [X Y]; split; [now right | exact Y]|].
            intros [[->|X] Y]; [contradiction | now split]. }
        destruct (Nat.eqb_spec (h_interval V W h) 0) as [|Hi0]; [discriminate|].
        destruct (Nat.eqb_spec (count V W "epoch" s mod h_interval V W h) 0) as [Em|Em]; cbn [negb] in H.
        2:{ destruct (IH _ _ _ _ Hr H) as [A B]. change (count V W "epoch" s) with (t_epoch V W s) in Em.
            split; [intros [->|Hi]; [cbn in Hi0; lia | now apply A]|]. rewrite B. split; [intros [X Y]; split; [now right | exact Y]|].
            intros [[->|X] Y]; [cbn [sae stop_after_epoch h_interval] in Em; tauto | now split]. }
        destruct (h_call V W h _ _ _ _) as [[[w v] st]|] eqn:Ec; [|discriminate]. destruct (add_log _ v _) as [ls|]; [|discriminate].
        destruct (emit_hooks V W false r "epoch" _) as [[[s2 st2] ev2]|] eqn:E; [|discriminate]. injection H as _ <- _.
        destruct (IH _ _ _ _ Hr E) as [A B]. cbn [t_epoch] in B.
        destruct (Honly h (Hs h (or_introl eq_refl))) as [->|Hf].
        + cbn [sae stop_after_epoch h_call h_interval] in Ec, Hi0, Em. injection Ec as _ _ <-.
          split; [intros _; lia|]. rewrite orb_true_iff, B, Nat.leb_le. split; [|tauto].
          intros [X|[X Y]]; [|split; [now right | exact Y]]. split; [now left | now split].
        + rewrite (Hf _ _ _ _ _ _ _ Ec). cbn [orb].
          split; [intros [->|Hi]; [cbn in Hi0; lia | now apply A]|]. rewrite B. split; [intros [X Y]; split; [now right | exact Y]|].
          intros [[->|X] Y]; [|now split]. exfalso.
          cbn [sae stop_after_epoch h_call] in Ec, Hf. assert (Q := Hf n 0 w [] w VNone true). rewrite Nat.leb_refl in Q. discriminate (Q eq_refl).
    Qed.

    Lemma batches_no_stop bs : forall scores s s' stop scores' ev,
      run_batches V W Batch Score train_step hooks bs scores s = Some (s', stop, scores', ev) -> stop = false.
    Proof.
      induction bs as [|b r IH]; intros scores s s' stop scores' ev H; cbn [run_batches] in H; [now injection H as _ <- _ _|].
      destruct (train_step _ b) as [[w sc]|]; [|discriminate].
      destruct (emit_hooks V W false hooks "update" _) as [[[s2 st] ev1]|] eqn:E; [|discriminate].
      apply emit_sae_update in E; [|auto]. subst st.
      destruct (run_batches V W Batch Score train_step hooks r _ s2) as [[[[s3 st3] sc3] ev3]|] eqn:Er; [|discriminate]. injection H as _ <- _ _. exact (IH _ _ _ _ _ _ Er).
    Qed.

    Lemma epoch_sae s s' stop ev : run_epoch V W Batch Score new_iterator train_step aggregate hooks s = Some (s', stop, ev) ->
      t_epoch V W s' = S (t_epoch V W s) /\ t_update V W s' = t_update V W s + m /\ (stop = true <-> S (t_epoch V W s) mod k = 0 /\ n <= S (t_epoch V W s)).
    Proof.
      intros H. unfold run_epoch in H. destruct (new_iterator (t_world V W s)) as [w bs] eqn:Ei.
      destruct (run_batches V W Batch Score train_step hooks bs [] _) as [[[[s1 st1] sc] ev1]|] eqn:Eb; [|discriminate].
      destruct (batches_spec V W Batch Score train_step hooks 0 0 bs [] _ s1 st1 sc ev1 None Eb) as [K1 [_ [_ [_ [_ [_ [_ [K8 _]]]]]]]].
      assert (st1 = false) by exact (batches_no_stop _ _ _ _ _ _ _ Eb). subst st1. specialize (K8 eq_refl). cbn [t_epoch t_update] in K1, K8.
      destruct (add_log "rolling_training" _ _) as [ls|]; [|discriminate].
      destruct (emit_hooks V W false hooks "epoch" _) as [[[s3 st2] ev2]|] eqn:E; [|discriminate]. injection H as <- <- _.
      destruct (emit_spec V W hooks "epoch" _ _ _ _ E) as [H1 [H2 _]]. cbn [t_epoch t_update] in H1, H2.
      destruct (emit_sae_epoch hooks _ _ _ _ ltac:(auto) E) as [_ B]. cbn [t_epoch] in B.
      rewrite H1, H2, K1, K8. split; [reflexivity|]. split; [assert (Q := Hm (t_world V W s)); rewrite Ei in Q; cbn in Q; lia|].
      cbn [orb]. rewrite B, K1. tauto.
    Qed.

    Lemma epochs_sae E fuel : forall s s' fin ev,
      run_epochs V W Batch Score new_iterator train_step aggregate hooks fuel s = Some (s', fin, ev) ->
      t_epoch V W s < E -> E mod k = 0 -> n <= E -> (forall x, t_epoch V W s < x -> x mod k = 0 -> n <= x -> E <= x) ->
      fin = (E <=? t_epoch V W s + fuel) /\ t_epoch V W s' = Nat.min E (t_epoch V W s + fuel) /\
      t_update V W s' = t_update V W s + m * (t_epoch V W s' - t_epoch V W s).
    Proof.
      induction fuel as [|f IH]; intros s s' fin ev H HE Hk Hn Hmin; cbn [run_epochs] in H.
      - injection H as <- <- <-. rewrite Nat.add_0_r. split; [symmetry; apply Nat.leb_gt; lia|]. split; [lia|]. rewrite Nat.sub_diag. lia.
      - destruct (run_epoch V W Batch Score new_iterator train_step aggregate hooks s) as [[[s1 st] ev1]|] eqn:Ee; [|discriminate].
        destruct (epoch_sae _ _ _ _ Ee) as [A1 [A2 A3]].
        destruct st.
        + injection H as <- <- <-. destruct (proj1 A3 eq_refl) as [B1 B2]. assert (E <= S (t_epoch V W s)) by (apply Hmin; auto). rewrite A1, A2.
          split; [symmetry; apply Nat.leb_le; lia|]. split; [lia|]. replace (S (t_epoch V W s) - t_epoch V W s) with 1 by lia. lia.
        + destruct (run_epochs V W Batch Score new_iterator train_step aggregate hooks f s1) as [[[s2 fin2] ev2]|] eqn:E2; [|discriminate]. injection H as <- <- <-.
          assert (Ne : S (t_epoch V W s) <> E) by (intros Q; rewrite <- Q in Hk, Hn; assert (X : false = true) by (apply A3; now split); discriminate).
          destruct (IH s1 s2 fin2 ev2 E2) as [B1 [B2 B3]]; try assumption; [lia | intros x Hx; apply Hmin; lia |].
          rewrite A1, A2 in *. split; [rewrite B1; f_equal; lia|]. split; [rewrite B2; lia|]. rewrite B3.
          replace (t_epoch V W s2 - t_epoch V W s) with (S (t_epoch V W s2 - S (t_epoch V W s))) by (rewrite B2; lia). lia.
    Qed.

    (** C19: with StopAfterEpoch(n, interval = k) as the only hook that may
        request a stop and m batches per epoch, training (unless an exception is
        raised) ends exactly at the epoch E that is the first multiple of k from
        the current epoch on with E >= n: [fuel] epochs are enough if and only if
        E is reached within them. *)
    Theorem C19_stop_after_epoch : forall E fuel s s' fin tr,
      t_epoch V W s <= E -> Nat.divide k E -> n <= E -> (forall x, t_epoch V W s <= x -> Nat.divide k x -> n <= x -> E <= x) ->
      train hooks fuel s = Some (s', fin, tr) ->
      fin = (E <=? t_epoch V W s + fuel) /\ t_epoch V W s' = Nat.min E (t_epoch V W s + fuel) /\
      t_update V W s' = t_update V W s + m * (t_epoch V W s' - t_epoch V W s).
    Proof.
      intros E fuel s s' fin tr HE Hk Hn Hmin H. unfold TrainerModel.train in H.
      destruct (start _) as [w0|]; [|discriminate]. destruct (start_hooks V W hooks w0) as [w1|]; [|discriminate].
      destruct (emit_hooks V W false hooks "update" _) as [[[s2 st1] ev1]|] eqn:E1; [|discriminate].
      destruct (emit_spec V W hooks "update" _ _ _ _ E1) as [H1 [H2 _]]. cbn [t_epoch t_update] in H1, H2.
      apply emit_sae_update in E1; [|auto]. subst st1.
      destruct (emit_hooks V W false hooks "epoch" s2) as [[[s3 st2] ev2]|] eqn:E2; [|discriminate].
      destruct (emit_spec V W hooks "epoch" _ _ _ _ E2) as [I1 [I2 _]].
      destruct (emit_sae_epoch hooks _ _ _ _ ltac:(auto) E2) as [K B]. specialize (K Hin). rewrite H1 in *. rewrite H2 in *.
      assert (Dv : forall x, Nat.divide k x <-> x mod k = 0) by (intros x; rewrite Nat.mod_divide by lia; tauto).
      destruct st2.
      - injection H as <- <- <-. destruct (proj1 B eq_refl) as [_ [B1 B2]]. assert (E <= t_epoch V W s) by (apply Hmin; [lia | now apply Dv | lia]).
        rewrite I1, I2. split; [symmetry; apply Nat.leb_le; lia|]. split; [lia|]. rewrite Nat.sub_diag. lia.
      - destruct (run_epochs V W Batch Score new_iterator train_step aggregate hooks fuel s3) as [[[s4 fin4] ev3]|] eqn:E3; [|discriminate].
        injection H as <- <- <-.
        assert (Ne : t_epoch V W s <> E) by (intros Q; rewrite <- Q in Hk, Hn; apply Dv in Hk; assert (X : false = true) by (apply B; now split); discriminate).
        destruct (epochs_sae E fuel s3 s4 fin4 ev3 E3) as [C1 [C2 C3]]; rewrite ?I1; try assumption; [lia | now apply Dv | |].
        + intros x Hx Hkx Hnx. apply Hmin; [lia | now apply Dv | assumption].
        + rewrite I1, I2 in *. now split.
    Qed.
  End StopAfterEpoch.
End Props.
Print Assumptions C18_update_hooks.
Print Assumptions C18_epoch_hooks_partial.
Print Assumptions C18_only_these.
Print Assumptions C18_numbering.
Print Assumptions C18_position.
Print Assumptions C20_remaining_hooks.
Print Assumptions C20_stop.
Print Assumptions C20_epoch_completed.
Print Assumptions C20_logs.
Print Assumptions C19_stop_after_epoch.

(** The epoch E of C19 for a fresh trainer: it always exists. *)
Theorem C19_first_multiple : forall n k, 0 < k ->
  let E := k * ((n + k - 1) / k) in Nat.divide k E /\ n <= E /\ forall x, Nat.divide k x -> n <= x -> E <= x.
Proof.
  intros n k Hk E. split; [now exists ((n + k - 1) / k); unfold E; lia|].
  assert (D := Nat.div_mod (n + k - 1) k ltac:(lia)). assert (M := Nat.mod_upper_bound (n + k - 1) k ltac:(lia)).
  split; [unfold E; nia|]. intros x [q ->] Hx. unfold E. rewrite (Nat.mul_comm q k) in *. apply Nat.mul_le_mono_l.
  assert (k * ((n + k - 1) / k) < k * (q + 1)) by nia. apply Nat.mul_lt_mono_pos_l in H; lia.
Qed.
Print Assumptions C19_first_multiple.

(** Example: the world is a number (the sum of the batches seen), two batches
    per epoch; "sum" logs it every second update, "acc" logs a dictionary every
    epoch, StopAfterEpoch(2). *)
Definition ex_sum (stop_at : nat) : hook nat nat :=
  mkHook nat nat "sum" "update" 2 (fun w => Some w) (fun _ u w _ => Some (w, VLeaf w, (0 <? stop_at) && (stop_at <=? u))).
Definition ex_acc : hook nat nat :=
  mkHook nat nat "acc" "epoch" 1 (fun w => Some w) (fun e _ w _ => Some (w, VDict [("e", VLeaf e); ("w", VLeaf w)], false)).
Definition ex_hooks (stop_at : nat) : list (hook nat nat) := [stop_after_epoch nat nat "stop" 2 "epoch" 1; ex_sum stop_at; ex_acc].
Definition ex_train (stop_at fuel : nat) :=
  train nat nat nat nat (fun w => (w, [1; 10])) (fun w b => Some (w + b, b)) (fun _ sc => VDict [("Loss", VLeaf (fold_right Nat.add 0 sc))])
    (fun w => Some w) (ex_hooks stop_at) fuel (mkState nat nat 0 0 [] [] 0).
Example C18_example : exists s' tr, ex_train 0 5 = Some (s', true, tr) /\ t_epoch nat nat s' = 2 /\ t_update nat nat s' = 4 /\
  names_at "epoch" 0 tr = ["stop"; "acc"] /\ names_at "update" 0 tr = ["sum"] /\ names_at "update" 1 tr = [] /\
  names_at "update" 2 tr = ["sum"] /\ names_at "epoch" 2 tr = ["stop"; "acc"] /\
  lists_at ["sum"] (t_logs nat nat s') = [0; 11; 22] /\ lists_at ["acc"; "w"] (t_logs nat nat s') = [0; 11; 22] /\
  lists_at ["rolling_training"; "Loss"] (t_logs nat nat s') = [11; 11] /\ In (Called "epoch" 2 "stop" VNone true) tr.
Proof. eexists. eexists. split; [vm_compute; reflexivity|]. vm_compute. repeat split; tauto. Qed.
(** A stop during the first epoch (C20_epoch_completed). *)
Example C20_example : exists s' tr, ex_train 2 5 = Some (s', true, tr) /\ t_epoch nat nat s' = 1 /\ t_update nat nat s' = 2 /\
  In (Called "update" 2 "sum" (VLeaf 11) true) tr /\ lists_at ["rolling_training"; "Loss"] (t_logs nat nat s') = [11] /\
  names_at "epoch" 1 tr = ["stop"; "acc"].
Proof. eexists. eexists. split; [vm_compute; reflexivity|]. vm_compute. repeat split; tauto. Qed.
(** The hypotheses of C19_stop_after_epoch are met. *)
Example C19_example : In (stop_after_epoch nat nat "stop" 2 "epoch" 1) (ex_hooks 0) /\
  (forall h, In h (ex_hooks 0) -> h = stop_after_epoch nat nat "stop" 2 "epoch" 1 \/
     forall e u w l w' v b, h_call nat nat h e u w l = Some (w', v, b) -> b = false) /\
  t_epoch nat nat (mkState nat nat 0 0 [] [] 0) <= 2 /\ exists s' tr, ex_train 0 2 = Some (s', true, tr).
Proof.
  split; [now left|]. split.
  - intros h [<-|[<-|[<-|[]]]]; [now left | right | right]; intros e u w l w' v b H; injection H as _ _ <-; reflexivity.
  - split; [cbn; lia|]. eexists. eexists. vm_compute. reflexivity.
Qed.

(** C18 / C20 are false when an update hook requests a stop before training:
    the epoch hooks are then not called (trainer.py:83, "or" does not evaluate
    its second argument). *)
Theorem C18_stop_before_training_refuted :
  ~ (forall V W Batch Score new_iterator train_step aggregate start hooks fuel s s' fin tr,
     train V W Batch Score new_iterator train_step aggregate start hooks fuel s = Some (s', fin, tr) ->
     names_at "epoch" (t_epoch V W s) tr = due_hooks V W hooks "epoch" (t_epoch V W s)).
Proof.
  intros H.
  set (h := mkHook nat nat "quit" "update" 1 (fun w => Some w) (fun _ _ w _ => Some (w, VNone, true))).
  specialize (H nat nat nat nat (fun w => (w, [1])) (fun w b => Some (w, b)) (fun _ _ => VNone) (fun w => Some w) [h; ex_acc] 1
    (mkState nat nat 0 0 [] [] 0) _ _ _ eq_refl). vm_compute in H. discriminate H.
Qed.
Print Assumptions C18_stop_before_training_refuted.

(** ** C21 *)
Section Priorities.
  Variable hook_name : nat -> string.
  Local Notation add_hooks := (add_hooks hook_name).

  Definition increasing (p : nat -> Z) (l : list nat) : Prop := StronglySorted (fun a b => (p a < p b)%Z) l.

  Lemma zmax_spec l x : In x l -> (x <= zmax l)%Z.
  Proof.
    assert (G : forall r y, (y <= fold_left Z.max r y)%Z /\ forall x, In x r -> (x <= fold_left Z.max r y)%Z).
    { induction r as [|z r IH]; intros y; cbn [fold_left]; [split; [lia | intros ? []]|].
      destruct (IH (Z.max y z)) as [A B]. split; [lia|]. intros x0 [<-|Hx]; [lia | now apply B]. }
    destruct l as [|y r]; [intros []|]. cbn [zmax]. destruct (G r y) as [A B]. intros [<-|Hx]; [exact A | now apply B].
  Qed.

  Lemma increasing_ext p q l : (forall x, In x l -> p x = q x) -> increasing p l -> increasing q l.
  Proof.
    intros E H. unfold increasing in *. induction H as [|a l Hl IH Hf]; constructor.
    - apply IH. intros. apply E. now right.
    - rewrite Forall_forall in *. intros b Hb. rewrite <- (E a), <- (E b); [now apply Hf | now right | now left].
  Qed.
  Lemma increasing_snoc p l h : increasing p l -> (forall x, In x l -> (p x < p h)%Z) -> increasing p (l ++ [h]).
  Proof.
    intros H Hh. induction H as [|a l Hl IH Hf]; cbn.
    - repeat constructor.
    - constructor; [apply IH; intros; apply Hh; now right|]. rewrite Forall_forall in *. intros b Hb. apply in_app_or in Hb.
      destruct Hb as [Hb|[<-|[]]]; [now apply Hf | apply Hh; now left].
  Qed.

  (** The hooks trainer [t] gets: in the order of the successful calls. *)
  Lemma add_hooks_increasing t ops : forall w, increasing (w_priority w) (w_hooks w t) ->
    (forall t' h, In (t', h) ops -> In h (w_hooks (add_hooks ops w) t) -> t' = t) ->
    increasing (w_priority (add_hooks ops w)) (w_hooks (add_hooks ops w) t).
  Proof.
    induction ops as [|[t' h] r IH]; intros w Hi Ho; [exact Hi|]. cbn [TrainerModel.add_hooks] in *.
    assert (Grow : forall ops w x, In x (w_hooks w t) -> In x (w_hooks (add_hooks ops w) t)).
    { clear. induction ops as [|[t' h] r IH]; intros w x Hx; [exact Hx|]. cbn [TrainerModel.add_hooks]. apply IH.
      unfold add_hook. destruct (smem _ _); [exact Hx|]. cbn [w_hooks]. destruct (Nat.eqb_spec t t') as [<-|]; [apply in_or_app; now left | exact Hx]. }
    apply IH; [|intros t2 h2 H2; apply Ho; now right].
    unfold add_hook in *. destruct (smem (hook_name h) _) eqn:Sm; [exact Hi|]. cbn [w_priority w_hooks].
    assert (Nh : forall x, In x (w_hooks w t') -> x <> h).
    { intros x Hx ->. apply smem_false in Sm. apply Sm. now apply in_map. }
    destruct (Nat.eqb_spec t t') as [<-|Nt].
    - apply increasing_snoc.
      + apply (increasing_ext (w_priority w)); [|exact Hi]. intros x Hx. destruct (Nat.eqb_spec x h) as [->|]; [destruct (Nh h Hx eq_refl) | reflexivity].
      + intros x Hx. rewrite Nat.eqb_refl. destruct (Nat.eqb_spec x h) as [->|]; [destruct (Nh h Hx eq_refl)|].
        assert (Q := zmax_spec (map (w_priority w) (w_hooks w t ++ [h])) (w_priority w x)). rewrite map_app in Q.
        specialize (Q ltac:(apply in_or_app; left; now apply in_map)). rewrite map_app. lia.
    - apply (increasing_ext (w_priority w)); [|exact Hi]. intros x Hx. destruct (Nat.eqb_spec x h) as [->|]; [|reflexivity].
      exfalso. apply Nt. symmetry. apply (Ho t' h); [now left|]. apply Grow. cbn [w_hooks]. destruct (Nat.eqb_spec t t'); [contradiction | exact Hx].
  Qed.

  Lemma isort_sorted_perm (l l' : list (string * Z)) : StronglySorted (fun a b => (snd a < snd b)%Z) l -> Permutation l l' ->
    isort (fun a b => (snd a <=? snd b)%Z) l' = l.
  Proof.
    intros S P.
    assert (Ss : StronglySorted (fun a b => (snd a <=? snd b)%Z = true) (isort (fun a b => (snd a <=? snd b)%Z) l')).
    { apply (isort_sorted (fun a b : string * Z => (snd a <=? snd b)%Z)); intros x y; [|intros z]; rewrite !Z.leb_le; lia. }
    assert (Pp : Permutation l (isort (fun a b => (snd a <=? snd b)%Z) l')) by (etransitivity; [exact P | symmetry; apply isort_perm]).
    revert Ss Pp. generalize (isort (fun a b : string * Z => (snd a <=? snd b)%Z) l') as m. clear P.
    induction S as [|x l Sl IH Hf]; intros m Sm Pm.
    - now apply Permutation_nil in Pm.
    - destruct m as [|y m]; [symmetry in Pm; apply Permutation_nil in Pm; discriminate|].
      inversion Sm as [|? ? Sm1 Sm2]; subst. rewrite Forall_forall in Hf, Sm2.
      assert (y = x).
      { assert (I1 : In x (y :: m)) by (eapply Permutation_in; [exact Pm | now left]).
        assert (I2 : In y (x :: l)) by (eapply Permutation_in; [symmetry; exact Pm | now left]).
        destruct I1 as [|I1]; [assumption|]. destruct I2 as [|I2]; [now symmetry|].
        specialize (Hf _ I2). specialize (Sm2 _ I1). apply Z.leb_le in Sm2. lia. }
      subst y. f_equal. apply IH; [assumption|]. exact (Permutation_cons_inv Pm).
  Qed.

  (** C21: after any sequence of add_hook calls on any trainers, starting with
      arbitrary priorities of the hooks (e.g. from earlier use), a trainer [t]
      none of whose hooks is added to another trainer gets its hooks back in the
      order in which they were added, whatever the order of the description's
      dictionary. *)
  Theorem C21_hook_order : forall (priorities : nat -> Z) (ops : list (nat * nat)) (t : nat),
    let w := add_hooks ops (mkWorld priorities (fun _ => [])) in
    (forall t' h, In (t', h) ops -> In h (w_hooks w t) -> t' = t) ->
    forall description, Permutation (describe_hooks hook_name w t) description ->
    init_from_description description = map hook_name (w_hooks w t).
  Proof.
    intros priorities ops t w Ho d Pd. unfold init_from_description.
    assert (Hi : increasing (w_priority w) (w_hooks w t)).
    { apply add_hooks_increasing; [constructor | exact Ho]. }
    rewrite (isort_sorted_perm (describe_hooks hook_name w t) d); [|clear - Hi | exact Pd].
    - unfold describe_hooks. rewrite map_map. reflexivity.
    - unfold describe_hooks, increasing in *. induction Hi as [|a l Hl IH Hf]; cbn [map]; constructor; [exact IH|].
      rewrite Forall_forall in *. intros x Hx. apply in_map_iff in Hx. destruct Hx as [b [<- Hb]]. cbn [snd]. now apply Hf.
  Qed.

  (** The hooks of [t] are the hooks of the calls for [t], in order, without the
      rejected ones (name already present). *)
  Fixpoint accepted (names : list string) (hs : list nat) : list nat :=
    match hs with
    | [] => []
    | h :: r => if smem (hook_name h) names then accepted names r else h :: accepted (hook_name h :: names) r
    end.
  Theorem C21_order_of_addition : forall (priorities : nat -> Z) (ops : list (nat * nat)) (t : nat),
    w_hooks (add_hooks ops (mkWorld priorities (fun _ => []))) t = accepted [] (map snd (filter (fun th => fst th =? t) ops)).
  Proof.
    assert (Acc : forall hs n1 n2, (forall x, In x n1 <-> In x n2) -> accepted n1 hs = accepted n2 hs).
    { induction hs as [|h r IH]; intros n1 n2 E; cbn [accepted]; [reflexivity|].
      assert (Q : smem (hook_name h) n1 = smem (hook_name h) n2).
      { apply Bool.eq_iff_eq_true. rewrite !smem_In. apply E. }
      rewrite Q. destruct (smem _ n2); [now apply IH|]. f_equal. apply IH. intros x. cbn [In]. rewrite E. tauto. }
    assert (G : forall ops t w, w_hooks (add_hooks ops w) t = w_hooks w t ++ accepted (map hook_name (w_hooks w t)) (map snd (filter (fun th => fst th =? t) ops))).
    { induction ops as [|[t' h] r IH]; intros t w; cbn [TrainerModel.add_hooks filter map accepted]; [now rewrite app_nil_r|].
      rewrite IH. unfold add_hook. cbn [fst]. destruct (Nat.eqb_spec t' t) as [->|N].
      - cbn [map snd accepted]. destruct (smem (hook_name h) (map hook_name (w_hooks w t))); [reflexivity|]. cbn [w_hooks].
        rewrite Nat.eqb_refl, <- app_assoc. cbn [app]. do 2 f_equal. apply Acc. intros x. rewrite map_app. rewrite in_app_iff. cbn. tauto.
      - destruct (smem _ _); [reflexivity|]. cbn [w_hooks]. destruct (Nat.eqb_spec t t') as [->|]; [now destruct N | reflexivity]. }
    intros p ops t. rewrite G. reflexivity.
  Qed.
End Priorities.
Print Assumptions C21_hook_order.
Print Assumptions C21_order_of_addition.

Definition ex_names (h : nat) : string := nth h ["a"; "b"; "c"; "d"] "x".
Example C21_example :
  let w := add_hooks ex_names [(0, 2); (1, 3); (0, 1); (0, 2); (0, 0)] (mkWorld (fun h => Z.of_nat (10 - h)) (fun _ => [])) in
  w_hooks w 0 = [2; 1; 0] /\ describe_hooks ex_names w 0 = [("c", 9%Z); ("b", 10%Z); ("a", 11%Z)] /\
  init_from_description [("a", 11%Z); ("b", 10%Z); ("c", 9%Z)] = ["c"; "b"; "a"].
Proof. vm_compute. repeat split. Qed.

(** C21 is false if a hook is also added to another trainer, because that
    changes its priority. *)
Theorem C21_shared_hook_refuted :
  ~ (forall hook_name priorities ops t, let w := add_hooks hook_name ops (mkWorld priorities (fun _ => [])) in
     forall description, Permutation (describe_hooks hook_name w t) description ->
     init_from_description description = map hook_name (w_hooks w t)).
Proof.
  intros H. specialize (H ex_names (fun _ => 0%Z) [(0, 0); (0, 1); (1, 2); (1, 3); (1, 0)] 0 _ (Permutation_refl _)).
  vm_compute in H. discriminate H.
Qed.
Print Assumptions C21_shared_hook_refuted.
