(** What SaveLogs writes, and when it fails: C77. *)
From Coq Require Import String List Arith Bool Lia.
From Verif Require Import PyBase PyFacts UtilsModel TrainerModel TrainerProofs TrainerProps SaveLogsModel.
Import ListNotations.
Open Scope string_scope.
Open Scope list_scope.
Open Scope nat_scope.

(** All lists of values of nested logs, with their paths. *)
Fixpoint leaves {V} (t : dtree (list V)) : list (list string * list V) :=
  match t with
  | DLeaf xs => [([], xs)]
  | DDict d => flat_map (fun kx => map (fun px => (fst kx :: fst px, snd px)) (leaves (snd kx))) d
  end.

Section SaveLogs.
  Variable A : Type.
  Notation entry := (entry A).
  Notation save := (save_recursively A).
  Notation item := (save_item A).
  Definition is_text (e : entry) : bool := match e with Text _ => true | Number _ => false end.
  Definition text_free (l : list (list string * list entry)) : Prop := forall p xs e, In (p, xs) l -> In e xs -> is_text e = false.

  Lemma tree_ind {V} (P : dtree V -> Prop) : (forall x, P (DLeaf x)) -> (forall d, Forall (fun kx => P (snd kx)) d -> P (DDict d)) -> forall t, P t.
  Proof. intros H1 H2. fix IH 1. intros [x|d]; [apply H1 | apply H2]. induction d as [|[k w] r IHr]; constructor; [apply IH | exact IHr]. Qed.

  Lemma item_dict d : item (DDict d) = let (f, ok) := save d in (Some (DDict f), ok).
  Proof.
    cbn [save_item]. set (go := fix go (items : list (string * dtree (list entry))) : file A * bool := _).
    assert (H : forall l, go l = save l). { induction l as [|[k x] r IH]; [reflexivity|]. cbn [go save_recursively]. fold go. now rewrite IH. } now rewrite H.
  Qed.

  Lemma numbers_spec (xs : list entry) : match numbers A xs with Some ns => xs = map Number ns | None => exists e, In e xs /\ is_text e = true end.
  Proof.
    induction xs as [|[a|s] r IH]; cbn; [reflexivity | | exists (Text s); split; [left|]; reflexivity]. destruct (numbers A r) as [ns|]; cbn.
    - now rewrite IH.
    - destruct IH as [e [H1 H2]]. exists e. split; [right|]; assumption.
  Qed.

  Definition renum (l : list (list string * list A)) : list (list string * list entry) := map (fun px => (fst px, map Number (snd px))) l.
  Lemma renum_under k l : renum (map (fun px => (k :: fst px, snd px)) l) = map (fun px => (k :: fst px, snd px)) (renum l).
  Proof. unfold renum. rewrite !map_map. reflexivity. Qed.

  Definition good (t : dtree (list entry)) (r : option (dtree (list A)) * bool) : Prop :=
    match r with
    | (Some t', true) => renum (leaves t') = leaves t
    | (_, false) => ~ text_free (leaves t)
    | (None, true) => False
    end.
  Lemma save_good d : Forall (fun kx => good (snd kx) (item (snd kx))) d ->
    good (DDict d) (let (f, ok) := save d in (Some (DDict f), ok)).
  Proof.
    induction 1 as [|[k x] d Hx _ IH]; [reflexivity|]. cbn [snd] in Hx. cbn [save_recursively].
    destruct (item x) as [[y|] [|]]; cbn [good] in Hx.
    - destruct (save d) as [f [|]]; cbn [good leaves flat_map fst snd] in *.
      + unfold renum in *. rewrite map_app. fold (renum (map (fun px => (k :: fst px, snd px)) (leaves y))). rewrite renum_under. unfold renum. rewrite Hx. f_equal. exact IH.
      + intros T. apply IH. intros p xs e Hp. apply (T p xs e). apply in_or_app. right. exact Hp.
    - cbn [good leaves flat_map fst snd]. intros T. apply Hx. intros p xs e Hp. apply (T (k :: p) xs e). apply in_or_app. left. apply in_map_iff. exists (p, xs). split; [reflexivity | exact Hp].
    - destruct Hx.
    - cbn [good leaves flat_map fst snd]. intros T. apply Hx. intros p xs e Hp. apply (T (k :: p) xs e). apply in_or_app. left. apply in_map_iff. exists (p, xs). split; [reflexivity | exact Hp].
  Qed.
  Lemma item_good t : good t (item t).
  Proof.
    induction t as [xs|d IH] using tree_ind.
    - cbn [save_item]. pose proof (numbers_spec xs) as N. destruct (numbers A xs) as [ns|]; cbn.
      + now rewrite N.
      + intros T. destruct N as [e [H1 H2]]. rewrite (T [] xs e (or_introl eq_refl) H1) in H2. discriminate.
    - rewrite item_dict. now apply save_good.
  Qed.

  (** ** C77 *)
  (** Saving works exactly if there is no text in the logs, and then the file has
      the same values at the same paths in the same order. *)
  Theorem C77_saved : forall l f ok, save l = (f, ok) ->
    (ok = true <-> forall p xs s, In (p, xs) (leaves (DDict l)) -> ~ In (Text s) xs) /\
    (ok = true -> map (fun px => (fst px, map Number (snd px))) (leaves (DDict f)) = leaves (DDict l)).
  Proof.
    intros l f ok E. pose proof (item_good (DDict l)) as G. rewrite item_dict, E in G.
    assert (Q : (forall p xs s, In (p, xs) (leaves (DDict l)) -> ~ In (Text s) xs) <-> text_free (leaves (DDict l))).
    { split; intros H p xs.
      - intros [a|s] Hp He; [reflexivity|]. destruct (H p xs s Hp He).
      - intros s Hp He. discriminate (H p xs (Text s) Hp He). }
    rewrite Q. destruct ok; cbn [good] in G.
    - split; [|intros _; exact G]. split; [intros _|reflexivity]. rewrite <- G. intros p xs e Hp He. unfold renum in Hp. apply in_map_iff in Hp. destruct Hp as [[p' ns] [Hp _]]. injection Hp as <- <-. apply in_map_iff in He. destruct He as [a [<- _]]. reflexivity.
    - split; [|discriminate]. split; [discriminate | intros T; destruct (G T)].
  Qed.

  Lemma item_lists : forall t t' p, item t = (Some t', true) ->
    match p, t, t' with
    | [], DLeaf xs, DLeaf ns => xs = map Number ns
    | _ :: _, DDict d, DDict d' => lists_at p d = map Number (lists_at p d')
    | _, DLeaf _, DLeaf _ => True
    | _, DDict _, DDict _ => True
    | _, _, _ => False
    end.
  Proof.
    induction t as [xs|d IH] using tree_ind; intros t' p E.
    - cbn in E. pose proof (numbers_spec xs) as N. destruct (numbers A xs) as [ns|]; [|discriminate]. injection E as <-. destruct p; [exact N | exact I].
    - rewrite item_dict in E. destruct (save d) as [f ok] eqn:Es. injection E as <- ->. destruct p as [|k p]; [exact I|].
      revert f Es. induction IH as [|[k' x] d Hx _ IHd]; intros f Es; cbn [save_recursively] in Es; [injection Es as <-; reflexivity|].
      cbn [snd] in Hx. destruct (item x) as [[y|] [|]] eqn:Ei; try discriminate. destruct (save d) as [f' ok'] eqn:Es'. injection Es as <- ->. specialize (IHd f' eq_refl).
      cbn [lists_at dget] in *. destruct (String.eqb k k').
      + specialize (Hx y p eq_refl). destruct x as [xs|dx], y as [ns|dy]; destruct p; try reflexivity; try contradiction; exact Hx.
      + exact IHd.
  Qed.
  Lemma save_lists l f : save l = (f, true) -> forall k p, lists_at (k :: p) l = map Number (lists_at (k :: p) f).
  Proof. intros E k p. pose proof (item_lists (DDict l) (DDict f) (k :: p)) as H. rewrite item_dict, E in H. exact (H eq_refl). Qed.

  Section Training.
    Variables X Batch Score : Type.
    Notation W := (lworld A X).
    Notation hook := (hook entry W).
    Notation state := (state entry W).
    Variable new_iterator : W -> W * list Batch.
    Variable train_step : W -> Batch -> option (W * Score).
    Variable aggregate : W -> list Score -> lval entry.
    Variable start : W -> option W.
    (** Nothing but the hook touches its file. *)
    Hypothesis it_file : forall w, fst (fst (new_iterator w)) = fst w.
    Hypothesis step_file : forall w b w' sc, train_step w b = Some (w', sc) -> fst w' = fst w.
    Hypothesis start_file : forall w w', start w = Some w' -> fst w' = fst w.
    Notation train := (train entry W Batch Score new_iterator train_step aggregate start).
    Variable name scale : string.
    Variable interval : nat.
    Notation me := (save_logs_hook A X name scale interval).
    Definition other (h : hook) : Prop :=
      h_name entry W h <> name /\
      (forall w w', h_start entry W h w = Some w' -> fst w' = fst w) /\
      (forall e u w l w' v b, h_call entry W h e u w l = Some (w', v, b) -> fst w' = fst w).
    Definition mine (h : hook) : Prop := h = me \/ other h.
    Variable L0 : logs entry.
    Variable F0 : file A.

    Definition uncalled (tr : list (event entry)) : Prop := forall sc c v stop, ~ In (Called sc c name v stop) tr.
    Definition at_path (pre : list (event entry)) k p : list entry := lists_at (k :: p) L0 ++ logged_values k p pre.
    Definition inv (pre : list (event entry)) (s : state) : Prop :=
      (forall k p, lists_at (k :: p) (t_logs entry W s) = at_path pre k p) /\
      (forall l sc c v stop r, pre = l ++ Called sc c name v stop :: r ->
         stop = false /\ v = VNone /\ (forall k p e, In e (at_path l k p) -> is_text e = false) /\
         (uncalled r -> forall k p, map Number (lists_at (k :: p) (fst (t_world entry W s))) = at_path l k p)) /\
      (uncalled pre -> fst (t_world entry W s) = F0).

    Lemma at_app pre ev k p : at_path (pre ++ ev) k p = at_path pre k p ++ logged_values k p ev.
    Proof. unfold at_path. now rewrite values_app, app_assoc. Qed.
    Lemma inv_other pre s x s' : inv pre s -> (forall sc c v stop, x <> Called sc c name v stop) -> fst (t_world entry W s') = fst (t_world entry W s) ->
      (forall k p, lists_at (k :: p) (t_logs entry W s') = lists_at (k :: p) (t_logs entry W s) ++ logged_values k p [x]) -> inv (pre ++ [x]) s'.
    Proof.
      intros [I1 [I2 I3]] Hx Hf Hl. split; [|split].
      - intros k p. now rewrite Hl, I1, at_app.
      - intros l sc c v stop r E. destruct (app_split _ _ _ _ _ E) as [[r1 [E1 E2]]|[l1 [E1 E2]]].
        + destruct (I2 _ _ _ _ _ _ E1) as [Q1 [Q2 [Q3 Q4]]]. split; [exact Q1|]. split; [exact Q2|]. split; [exact Q3|]. rewrite Hf. intros U. apply Q4. intros sc' c' v' st' Hin. apply (U sc' c' v' st'). rewrite E2. apply in_or_app. left. exact Hin.
        + exfalso. destruct l1; [injection E1 as E1 _; exact (Hx _ _ _ _ E1) | destruct l1; discriminate].
      - intros U. rewrite Hf. apply I3. intros sc c v stop Hin. apply (U sc c v stop). apply in_or_app. left. exact Hin.
    Qed.
    Lemma inv_call pre s f c sc s' : inv pre s -> save (t_logs entry W s) = (f, true) -> fst (t_world entry W s') = f -> t_logs entry W s' = t_logs entry W s ->
      inv (pre ++ [Called sc c name VNone false]) s'.
    Proof.
      intros [I1 [I2 I3]] Es Hf Hl. split; [|split].
      - intros k p. rewrite Hl, I1, at_app. cbn. rewrite vals_nil. destruct (String.eqb k name); now rewrite app_nil_r.
      - intros l sc' c' v stop r E. destruct (app_split _ _ _ _ _ E) as [[r1 [E1 E2]]|[l1 [E1 E2]]].
        + destruct (I2 _ _ _ _ _ _ E1) as [Q1 [Q2 [Q3 _]]]. split; [exact Q1|]. split; [exact Q2|]. split; [exact Q3|]. intros U. exfalso. apply (U sc c VNone false). rewrite E2. apply in_or_app. right. left. reflexivity.
        + destruct l1 as [|y l1]; [|destruct l1; discriminate]. rewrite app_nil_r in E2. injection E1 as _ _ <- <- _. subst l. split; [reflexivity|]. split; [reflexivity|]. split.
          * intros k p e. rewrite <- I1, (save_lists _ _ Es). intros He. apply in_map_iff in He. destruct He as [a [<- _]]. reflexivity.
          * intros _ k p. rewrite Hf, <- I1. symmetry. exact (save_lists _ _ Es k p).
      - intros U. exfalso. apply (U sc c VNone false). apply in_or_app. right. left. reflexivity.
    Qed.

    Lemma emit_inv hooks sc : Forall mine hooks -> forall s s' stop ev pre, emit_hooks entry W false hooks sc s = Some (s', stop, ev) -> inv pre s -> inv (pre ++ ev) s'.
    Proof.
      induction 1 as [|h hooks Hh _ IH]; intros s s' stop ev pre E I; cbn [emit_hooks] in E.
      - injection E as <- <- <-. now rewrite app_nil_r.
      - destruct (negb (String.eqb (h_scale entry W h) sc)); [exact (IH _ _ _ _ _ E I)|]. destruct (h_interval entry W h =? 0); [discriminate|].
        destruct (negb (count entry W sc s mod h_interval entry W h =? 0)); [exact (IH _ _ _ _ _ E I)|].
        destruct (h_call entry W h (t_epoch entry W s) (t_update entry W s) (t_world entry W s) (t_logs entry W s)) as [[[w v] st]|] eqn:Ec; [|discriminate].
        destruct (add_log (h_name entry W h) v (t_logs entry W s)) as [ls|] eqn:Ea; [|discriminate].
        destruct (emit_hooks entry W false hooks sc _) as [[[s2 st2] ev2]|] eqn:Er; [|discriminate]. injection E as <- <- <-.
        change (Called sc (count entry W sc s) (h_name entry W h) v st :: ev2) with ([Called sc (count entry W sc s) (h_name entry W h) v st] ++ ev2). rewrite app_assoc.
        apply (IH _ _ _ _ _ Er). destruct Hh as [->|[Hn [_ Hc]]].
        + cbn [save_logs_hook h_call h_name] in *. destruct (save (t_logs entry W s)) as [f ok] eqn:Es. destruct ok; [|discriminate]. injection Ec as <- <- <-. cbn in Ea. injection Ea as <-.
          apply (inv_call pre s f); [exact I | exact Es | reflexivity | reflexivity].
        + apply (inv_other pre s); [exact I | | exact (Hc _ _ _ _ _ _ _ Ec) |].
          * intros sc' c' v' st' E'. injection E' as _ _ E' _ _. exact (Hn E').
          * intros k p. cbn [t_logs]. rewrite (add_log_spec _ _ _ _ k p Ea). cbn. now rewrite app_nil_r.
    Qed.

    Lemma batches_inv hooks : Forall mine hooks -> forall bs scores s s' stop scores' ev pre,
      run_batches entry W Batch Score train_step hooks bs scores s = Some (s', stop, scores', ev) -> inv pre s -> inv (pre ++ ev) s'.
    Proof.
      intros Hh. induction bs as [|b bs IH]; intros scores s s' stop scores' ev pre E I; cbn [run_batches] in E.
      - injection E as <- <- <- <-. now rewrite app_nil_r.
      - destruct (train_step (t_world entry W s) b) as [[w sc]|] eqn:Es; [|discriminate]. cbn [t_update] in E. set (u := @Updated entry (S (t_update entry W s))) in *.
        set (s1 := mkState entry W (t_epoch entry W s) (S (t_update entry W s)) (t_logs entry W s) (t_results entry W s) w) in *.
        assert (I1 : inv (pre ++ [u]) s1). { apply (inv_other pre s); [exact I | intros; discriminate | exact (step_file _ _ _ _ Es) |]. intros k p. cbn. now rewrite app_nil_r. }
        destruct (emit_hooks entry W false hooks "update" s1) as [[[s2 st] ev2]|] eqn:Ee; [|discriminate]. pose proof (emit_inv hooks "update" Hh _ _ _ _ _ Ee I1) as I2.
        rewrite <- app_assoc in I2. cbn [app] in I2. destruct st.
        + injection E as <- <- <- <-. exact I2.
        + destruct (run_batches entry W Batch Score _ hooks bs _ s2) as [[[[s3 st3] sc3] ev3]|] eqn:Eb; [|discriminate]. injection E as <- <- <- <-.
          pose proof (IH _ _ _ _ _ _ _ Eb I2) as I3. rewrite <- app_assoc in I3. exact I3.
    Qed.

    Lemma epochs_inv hooks : Forall mine hooks -> forall fuel s s' fin ev pre,
      run_epochs entry W Batch Score new_iterator train_step aggregate hooks fuel s = Some (s', fin, ev) -> inv pre s -> inv (pre ++ ev) s'.
    Proof.
      intros Hh. induction fuel as [|fuel IH]; intros s s' fin ev pre E I; cbn [run_epochs] in E.
      - injection E as <- <- <-. now rewrite app_nil_r.
      - assert (Q : forall s1 st ev1, run_epoch entry W Batch Score new_iterator train_step aggregate hooks s = Some (s1, st, ev1) -> inv (pre ++ ev1) s1).
        { intros s1 st ev1 Er. unfold run_epoch in Er. pose proof (it_file (t_world entry W s)) as Hi. destruct (new_iterator (t_world entry W s)) as [w bs]. cbn [fst] in Hi.
          destruct (run_batches entry W Batch Score _ hooks bs [] _) as [[[[s2 st2] sc2] ev2]|] eqn:Eb; [|discriminate].
          assert (I2 : inv (pre ++ ev2) s2). { apply (batches_inv hooks Hh _ _ _ _ _ _ _ pre Eb). destruct I as [A1 [A2 A3]]. unfold inv. cbn [t_logs t_world]. rewrite Hi. split; [exact A1|]. split; [exact A2 | exact A3]. }
          destruct (add_log "rolling_training" _ (t_logs entry W s2)) as [ls|] eqn:Ea; [|discriminate].
          set (s2' := mkState entry W (t_epoch entry W s2) (t_update entry W s2) ls (t_results entry W s2) (t_world entry W s2)) in *.
          destruct (emit_hooks entry W false hooks "epoch" s2') as [[[s3 st3] ev3]|] eqn:Ee; [|discriminate]. injection Er as <- <- <-.
          assert (I3 : inv ((pre ++ ev2) ++ [Logged (t_epoch entry W s2) (aggregate (t_world entry W s2) sc2)]) s2').
          { apply (inv_other (pre ++ ev2) s2); [exact I2 | intros; discriminate | reflexivity |]. intros k p. cbn [s2' t_logs]. rewrite (add_log_spec _ _ _ _ k p Ea). cbn [logged_values flat_map]. now rewrite app_nil_r. }
          pose proof (emit_inv hooks "epoch" Hh _ _ _ _ _ Ee I3) as I4. rewrite <- !app_assoc in I4. exact I4. }
        destruct (run_epoch entry W Batch Score _ _ _ hooks s) as [[[s1 st] ev1]|] eqn:Er; [|discriminate]. pose proof (Q _ _ _ eq_refl) as I1. destruct st.
        + injection E as <- <- <-. exact I1.
        + destruct (run_epochs entry W Batch Score _ _ _ hooks fuel s1) as [[[s2 f2] ev2]|] eqn:Ee; [|discriminate]. injection E as <- <- <-. rewrite app_assoc. exact (IH _ _ _ _ _ Ee I1).
    Qed.

    Lemma start_inv hooks : Forall mine hooks -> forall w w', start_hooks entry W hooks w = Some w' -> fst w' = fst w.
    Proof.
      induction 1 as [|h hooks Hh _ IH]; intros w w' E; cbn in E; [congruence|]. destruct (h_start entry W h w) as [w1|] eqn:E1; [|discriminate]. rewrite (IH _ _ E).
      destruct Hh as [->|[_ [Hs _]]]; [cbn in E1; congruence | exact (Hs _ _ E1)].
    Qed.
    Lemma train_inv hooks fuel s s' fin tr : Forall mine hooks -> t_logs entry W s = L0 -> fst (t_world entry W s) = F0 -> train hooks fuel s = Some (s', fin, tr) -> inv tr s'.
    Proof.
      intros Hh HL HF E. unfold TrainerModel.train in E. destruct (start (t_world entry W s)) as [w0|] eqn:E0; [|discriminate]. destruct (start_hooks entry W hooks w0) as [w1|] eqn:Es; [|discriminate].
      set (s1 := mkState entry W (t_epoch entry W s) (t_update entry W s) (t_logs entry W s) (t_results entry W s) w1) in *.
      assert (I : inv [] s1). { split; [|split].
        - intros k p. unfold at_path. cbn. now rewrite app_nil_r, HL.
        - intros l sc c v stop r Q. destruct l; discriminate.
        - intros _. cbn. rewrite (start_inv hooks Hh _ _ Es), (start_file _ _ E0). exact HF. }
      destruct (emit_hooks entry W false hooks "update" s1) as [[[s2 st2] ev2]|] eqn:E2; [|discriminate]. pose proof (emit_inv _ _ Hh _ _ _ _ _ E2 I) as I2. cbn [app] in I2. destruct st2; [injection E as <- <- <-; exact I2|].
      destruct (emit_hooks entry W false hooks "epoch" s2) as [[[s3 st3] ev3]|] eqn:E3; [|discriminate]. pose proof (emit_inv _ _ Hh _ _ _ _ _ E3 I2) as I3. destruct st3; [injection E as <- <- <-; exact I3|].
      destruct (run_epochs entry W Batch Score _ _ _ hooks fuel s3) as [[[s4 f4] ev4]|] eqn:E4; [|discriminate]. injection E as <- <- <-. rewrite app_assoc. exact (epochs_inv _ Hh _ _ _ _ _ _ E4 I3).
    Qed.
  End Training.

  (** In a training that raises no exception, SaveLogs never requests a stop and
      everything that was logged before one of its calls is a number; after the
      training the file holds, at every path, what the logs held at the last call:
      the values from before the training and those of the events before the call. *)
  Theorem C77_training : forall X Batch Score it (step : lworld A X -> Batch -> option (lworld A X * Score)) agg start,
    (forall w, fst (fst (it w)) = fst w) -> (forall w b w' sc, step w b = Some (w', sc) -> fst w' = fst w) -> (forall w w', start w = Some w' -> fst w' = fst w) ->
    forall name scale interval h1 h2, Forall (other X name) h1 -> Forall (other X name) h2 ->
    forall fuel s s' fin tr, train entry (lworld A X) Batch Score it step agg start (h1 ++ save_logs_hook A X name scale interval :: h2) fuel s = Some (s', fin, tr) ->
    (forall l sc c v stop r, tr = l ++ Called sc c name v stop :: r ->
       stop = false /\ v = VNone /\
       (forall k p t, ~ In (Text t) (lists_at (k :: p) (t_logs _ _ s) ++ logged_values k p l)) /\
       ((forall sc' c' v' stop', ~ In (Called sc' c' name v' stop') r) -> forall k p,
          map Number (lists_at (k :: p) (fst (t_world _ _ s'))) = lists_at (k :: p) (t_logs _ _ s) ++ logged_values k p l)) /\
    ((forall sc' c' v' stop', ~ In (Called sc' c' name v' stop') tr) -> fst (t_world _ _ s') = fst (t_world _ _ s)).
  Proof.
    intros X Batch Score it step agg start Hi Hs Hst name scale interval h1 h2 H1 H2 fuel s s' fin tr E.
    assert (Hh : Forall (mine X name scale interval) (h1 ++ save_logs_hook A X name scale interval :: h2)).
    { apply Forall_app. split; [|constructor; [left; reflexivity|]]; (eapply Forall_impl; [|eassumption]); intros h Q; right; exact Q. }
    destruct (train_inv X Batch Score it step agg start Hi Hs Hst name scale interval (t_logs _ _ s) (fst (t_world _ _ s)) _ _ _ _ _ _ Hh eq_refl eq_refl E) as [_ [I2 I3]].
    split; [|exact I3]. intros l sc c v stop r Et. destruct (I2 _ _ _ _ _ _ Et) as [Q1 [Q2 [Q3 Q4]]]. split; [exact Q1|]. split; [exact Q2|]. split; [|exact Q4].
    intros k p t Hin. discriminate (Q3 k p (Text t) Hin).
  Qed.
End SaveLogs.
Print Assumptions C77_saved.
Print Assumptions C77_training.

(** Epochs of one update; the training score of each epoch is the number of updates. *)
Definition ex_text_hook (n : nat) : hook (entry nat) (lworld nat nat) :=
  mkHook _ _ "StopOnSigQuit" "epoch" 1 Some (fun e _ w _ => Some (w, if e =? n then VLeaf (Text "Received SIGQUIT signal.") else VNone, e =? n)).
Definition ex_saver := save_logs_hook nat nat "SaveLogs" "epoch" 1.
Definition ex_save (hooks : list (hook (entry nat) (lworld nat nat))) (l : logs (entry nat)) : option (bool * logs (entry nat) * file nat) :=
  match train (entry nat) (lworld nat nat) unit unit (fun w => (w, [tt])) (fun w _ => Some ((fst w, S (snd w)), tt)) (fun w _ => VDict [("total_loss", VLeaf (Number (snd w)))]) Some
          hooks 3 (mkState _ _ 0 0 l [] ([], 0)) with
  | None => None
  | Some (s, fin, _) => Some (fin, t_logs _ _ s, fst (t_world _ _ s))
  end.
Example C77_case : ex_save [ex_saver] [] = Some (false, [("rolling_training", DDict [("total_loss", DLeaf [Number 1; Number 2; Number 3])])], [("rolling_training", DDict [("total_loss", DLeaf [1; 2; 3])])]).
Proof. reflexivity. Qed.
(** StopOnSigQuit logs the text of its StopIteration: if SaveLogs is called after it,
    a signal ends the training with a TypeError instead of a stop, and the file,
    opened for writing, has lost all that follows the text.  In the other order
    training stops, but cannot be continued: the first call of SaveLogs fails. *)
Theorem C77_text_refuted :
  ex_save [ex_text_hook 2; ex_saver] [] = None /\
  save_recursively nat [("StopOnSigQuit", DLeaf [Text "Received SIGQUIT signal."]); ("rolling_training", DDict [("total_loss", DLeaf [Number 1; Number 2])])] = ([], false) /\
  ex_save [ex_saver; ex_text_hook 2] [] =
    Some (true, [("rolling_training", DDict [("total_loss", DLeaf [Number 1; Number 2])]); ("StopOnSigQuit", DLeaf [Text "Received SIGQUIT signal."])], [("rolling_training", DDict [("total_loss", DLeaf [1; 2])])]) /\
  ex_save [ex_saver; ex_text_hook 9] [("rolling_training", DDict [("total_loss", DLeaf [Number 1; Number 2])]); ("StopOnSigQuit", DLeaf [Text "Received SIGQUIT signal."])] = None.
Proof. repeat split. Qed.
Print Assumptions C77_text_refuted.
