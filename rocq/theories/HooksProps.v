(** Properties of hooks and losses: C22, C23, C55, C56, C57. *)
From Coq Require Import String List Arith ZArith QArith Bool Reals Lia Lra.
From Verif Require Import PyBase PyFacts UtilsModel TrainerModel HooksModel.
Import ListNotations.
Open Scope string_scope.
Open Scope list_scope.
Open Scope nat_scope.

(** * The order of floats *)
Lemma flt_irrefl a : flt a a = false.
Proof. destruct a as [| | |q]; try reflexivity. cbn. apply negb_false_iff, Qle_bool_iff, Qle_refl. Qed.
Lemma qlt p q : negb (Qle_bool q p) = true <-> (p < q)%Q.
Proof. rewrite negb_true_iff. split; intros H; [apply Qnot_le_lt; intros L; apply Qle_bool_iff in L; congruence|]. apply Bool.not_true_iff_false. intros L. apply Qle_bool_iff in L. exact (Qlt_not_le _ _ H L). Qed.
Lemma flt_trans a b c : flt a b = true -> flt b c = true -> flt a c = true.
Proof. destruct a, b, c; cbn; try discriminate; try reflexivity. rewrite !qlt. apply Qlt_trans. Qed.
(** for numbers, not less is transitive *)
Lemma nlt_trans a b c : is_nan b = false -> flt a b = false -> flt b c = false -> flt a c = false.
Proof.
  destruct a, b, c; cbn; try discriminate; try reflexivity. intros _. rewrite !negb_false_iff, !Qle_bool_iff. intros H1 H2. eapply Qle_trans; eassumption.
Qed.
(** for numbers, not less and less: less *)
Lemma nlt_lt_trans a b c : is_nan b = false -> is_nan c = false -> flt b a = false -> flt b c = true -> is_nan a = false -> flt a c = true \/ flt a c = false.
Proof. intros. destruct (flt a c); auto. Qed.
Lemma lt_nlt_trans a b c : flt a b = true -> is_nan c = false -> flt c b = false -> flt a c = true.
Proof.
  destruct a, b, c; cbn; try discriminate; try reflexivity. rewrite !qlt, negb_false_iff, Qle_bool_iff. intros H1 _ H2. eapply Qlt_le_trans; eassumption.
Qed.
Lemma nlt_lt_trans' a b c : is_nan a = false -> flt b a = false -> flt b c = true -> flt a c = true.
Proof.
  destruct a, b, c; cbn; try discriminate; try reflexivity. rewrite !qlt, negb_false_iff, Qle_bool_iff. intros _ H1 H2. eapply Qle_lt_trans; eassumption.
Qed.
Lemma flt_nan a b : flt a b = true -> is_nan a = false /\ is_nan b = false.
Proof. destruct a, b; cbn; try discriminate; now split. Qed.

Section Better.
  Variable c : criterion.
  Notation better := (better c).
  Lemma b_irrefl a : better a a = false.
  Proof. destruct c; apply flt_irrefl. Qed.
  Lemma b_trans x y z : better x y = true -> better y z = true -> better x z = true.
  Proof. destruct c; cbn [HooksModel.better]; intros H1 H2; [exact (flt_trans _ _ _ H1 H2) | exact (flt_trans _ _ _ H2 H1)]. Qed.
  Lemma b_nan x y : better x y = true -> is_nan x = false /\ is_nan y = false.
  Proof. destruct c; cbn [HooksModel.better]; intros H; apply flt_nan in H; tauto. Qed.
  (** x better than y, z not better than ... *)
  Lemma b_not_trans x y z : is_nan y = false -> better x y = false -> better y z = false -> better x z = false.
  Proof. destruct c; cbn [HooksModel.better]; intros Hn H1 H2; [exact (nlt_trans _ _ _ Hn H1 H2) | exact (nlt_trans _ _ _ Hn H2 H1)]. Qed.
  (** x better than y and x not worse than z... : if y is better than nothing z is *)
  Lemma b_lt_nlt x y z : better x y = true -> is_nan z = false -> better z y = false -> better x z = true.
  Proof.
    destruct c; cbn [HooksModel.better]; intros H1 Hn H2; [exact (lt_nlt_trans _ _ _ H1 Hn H2) | exact (nlt_lt_trans' _ _ _ Hn H2 H1)].
  Qed.
  Lemma b_asym x y : better x y = true -> better y x = false.
  Proof. intros H. destruct (better y x) eqn:E; [|reflexivity]. assert (Q := b_trans _ _ _ H E). now rewrite b_irrefl in Q. Qed.
End Better.

(** * C22 *)
(** Specification: i is the position of the first best value; a NaN counts as
    best value. *)
Definition first_best (c : criterion) (e : list fl) (i : nat) : Prop :=
  exists x, nth_error e i = Some x /\
  ((is_nan x = true /\ forall j y, j < i -> nth_error e j = Some y -> is_nan y = false) \/
   ((forall y, In y e -> is_nan y = false) /\ (forall y, In y e -> better c y x = false) /\
    (forall j y, j < i -> nth_error e j = Some y -> better c x y = true))).

Lemma first_best_unique c e i j : first_best c e i -> first_best c e j -> i = j.
Proof.
  assert (G : forall i j, first_best c e i -> first_best c e j -> i < j -> False).
  { clear. intros i j [x [Hi Fi]] [y [Hj Fj]] L.
    assert (Ix : In x e) by (eapply nth_error_In; eassumption). assert (Iy : In y e) by (eapply nth_error_In; eassumption).
    destruct Fj as [[Ny Hb]|[Nn [Hy Hb]]].
    - specialize (Hb i x L Hi). destruct Fi as [[Nx _]|[Nn _]]; [congruence|]. rewrite (Nn y Iy) in Ny. discriminate.
    - specialize (Hb i x L Hi). destruct Fi as [[Nx _]|[_ [Hx _]]]; [rewrite (Nn x Ix) in Nx; discriminate|].
      rewrite (Hx y Iy) in Hb. discriminate. }
  intros Fi Fj. destruct (Nat.lt_trichotomy i j) as [L|[->|L]]; [destruct (G _ _ Fi Fj L) | reflexivity | destruct (G _ _ Fj Fi L)].
Qed.

Lemma argbest_loop_spec c r : forall pre best bi,
  nth_error pre bi = Some best -> (forall y, In y pre -> is_nan y = false) -> (forall y, In y pre -> better c y best = false) ->
  (forall j y, j < bi -> nth_error pre j = Some y -> better c best y = true) ->
  first_best c (pre ++ r) (argbest_loop (better c) r (length pre) best bi).
Proof.
  induction r as [|x r IH]; intros pre best bi Hbi Hn Hb Hf; cbn [argbest_loop].
  - rewrite app_nil_r. exists best. split; [assumption|]. right. tauto.
  - assert (Hlt : bi < length pre) by (apply nth_error_Some; congruence).
    assert (Lx : nth_error (pre ++ x :: r) (length pre) = Some x) by (rewrite nth_error_app2, Nat.sub_diag by lia; reflexivity).
    destruct (is_nan x) eqn:Nx.
    + exists x. split; [assumption|]. left. split; [assumption|]. intros j y Hj E. rewrite nth_error_app1 in E by assumption. apply Hn. eapply nth_error_In; eassumption.
    + replace (pre ++ x :: r) with ((pre ++ [x]) ++ r) by (rewrite <- app_assoc; reflexivity).
      assert (Ln : S (length pre) = length (pre ++ [x])) by (rewrite app_length; cbn; lia). rewrite Ln.
      assert (Hn' : forall y, In y (pre ++ [x]) -> is_nan y = false) by (intros y Hy; apply in_app_or in Hy; destruct Hy as [Hy|[<-|[]]]; auto).
      destruct (better c x best) eqn:B; apply IH; try assumption.
      * rewrite nth_error_app2, Nat.sub_diag by lia. reflexivity.
      * intros y Hy. apply in_app_or in Hy. destruct Hy as [Hy|[<-|[]]]; [|apply b_irrefl].
        destruct (better c y x) eqn:Q; [|reflexivity]. assert (better c y best = true) by (eapply b_trans; eassumption). rewrite (Hb y Hy) in H. discriminate.
      * intros j y Hj E. rewrite nth_error_app1 in E by lia. destruct (Nat.lt_trichotomy j bi) as [L|[->|L]].
        -- eapply b_trans; [exact B | exact (Hf j y L E)].
        -- rewrite Hbi in E. injection E as <-. exact B.
        -- assert (Iy : In y pre) by (eapply nth_error_In; eassumption). apply (b_lt_nlt c x best y); [exact B | now apply Hn | now apply Hb].
      * rewrite nth_error_app1 by assumption. exact Hbi.
      * intros y Hy. apply in_app_or in Hy. destruct Hy as [Hy|[<-|[]]]; auto.
      * intros j y Hj E. rewrite nth_error_app1 in E by lia. exact (Hf j y Hj E).
Qed.
Lemma argbest_spec c e : e <> [] -> exists i, argbest (better c) e = Some i /\ first_best c e i.
Proof.
  destruct e as [|x r]; [congruence|]. intros _. cbn [argbest]. destruct (is_nan x) eqn:Nx.
  - exists 0. split; [reflexivity|]. exists x. split; [reflexivity|]. left. split; [assumption|]. intros j y Hj. lia.
  - eexists. split; [reflexivity|]. apply (argbest_loop_spec c r [x] x 0).
    + reflexivity.
    + intros y [<-|[]]. exact Nx.
    + intros y [<-|[]]. apply b_irrefl.
    + intros j y Hj. lia.
Qed.

(** C22: EarlyStopper requests a stop if and only if at least [patience] entries
    have been logged since the first best one. *)
Theorem C22_early_stopper : forall log_name patience c epoch_nr l e,
  get_log l log_name = Some e -> e <> [] ->
  (exists i, first_best c e i /\ forall j, first_best c e j -> j = i) /\
  (early_stopper log_name patience c epoch_nr l = Stop <->
     exists i, first_best c e i /\ patience <= length e - 1 - i) /\
  (early_stopper log_name patience c epoch_nr l <> Stop -> early_stopper log_name patience c epoch_nr l = Continue).
Proof.
  intros log_name patience c epoch_nr l e Hl He. destruct (argbest_spec c e He) as [i [Ei Fi]].
  assert (Li : i < length e) by (destruct Fi as [x [Hx _]]; apply nth_error_Some; congruence).
  unfold early_stopper. rewrite Hl, Ei. split; [exists i; split; [exact Fi | intros j Hj; exact (first_best_unique c e j i Hj Fi)]|].
  destruct (Nat.ltb_spec (i + patience) (length e)) as [H|H].
  - split; [|congruence]. split; [|reflexivity]. intros _. exists i. split; [exact Fi | lia].
  - split; [|reflexivity]. split; [discriminate|]. intros [j [Hj Hp]]. rewrite (first_best_unique c e j i Hj Fi) in Hp. exfalso.
    assert (patience = 0 \/ 0 < patience) as [->|] by lia; lia.
Qed.
Print Assumptions C22_early_stopper.

(** While the log is missing there is no stop (before training nothing happens,
    later an exception is raised). *)
Theorem C22_missing_log : forall log_name patience c epoch_nr l,
  get_log l log_name = None -> early_stopper log_name patience c epoch_nr l = if epoch_nr =? 0 then Continue else Fail.
Proof. intros log_name patience c epoch_nr l H. unfold early_stopper. now rewrite H. Qed.
Print Assumptions C22_missing_log.

(** In terms of a growing log: if every entry after the first best one is not
    better, the stop comes exactly at the patience-th such entry. *)
Theorem C22_stops_after_patience : forall log_name patience c epoch_nr l e,
  get_log l log_name = Some e -> e <> [] -> (forall y, In y e -> is_nan y = false) -> 0 < patience ->
  (early_stopper log_name patience c epoch_nr l = Stop <->
   exists i best, nth_error e i = Some best /\ i + patience < length e /\
     (forall j y, j < i -> nth_error e j = Some y -> better c best y = true) /\
     (forall j y, i < j -> nth_error e j = Some y -> better c y best = false)).
Proof.
  intros log_name patience c epoch_nr l e Hl He Hn Hp.
  destruct (C22_early_stopper log_name patience c epoch_nr l e Hl He) as [_ [Hs _]]. rewrite Hs. split.
  - intros [i [[x [Hx [[Nx _]|[_ [Hb Hf]]]]] Hi]].
    + rewrite (Hn x) in Nx by (eapply nth_error_In; eassumption). discriminate.
    + exists i, x. split; [assumption|]. split; [lia|]. split; [assumption|]. intros j y _ E. apply Hb. eapply nth_error_In; eassumption.
  - intros [i [x [Hx [Hi [Hb Ha]]]]]. exists i. split; [|lia]. exists x. split; [assumption|]. right. split; [assumption|]. split; [|assumption].
    intros y Hy. apply In_nth_error in Hy. destruct Hy as [j Hj]. destruct (Nat.lt_trichotomy j i) as [L|[->|L]].
    + apply b_asym. exact (Hb j y L Hj).
    + rewrite Hx in Hj. injection Hj as <-. apply b_irrefl.
    + exact (Ha j y L Hj).
Qed.
Print Assumptions C22_stops_after_patience.

Definition ex_log (e : list fl) : logs fl := [("validation", DDict [("Loss", DLeaf e)])].
Example C22_example :
  early_stopper "validation.Loss" 2 Min 4 (ex_log [Fin (3#1); Fin (1#2); Fin (1#2); Fin (3#4)]) = Stop /\
  early_stopper "validation.Loss" 2 Min 3 (ex_log [Fin (3#1); Fin (1#2); Fin (1#2)]) = Continue /\
  early_stopper "validation.Loss" 1 Max 3 (ex_log [Fin (1#1); NaN; Fin (1#2)]) = Stop /\
  early_stopper "validation.Loss" 1 Max 0 [] = Continue.
Proof. vm_compute. repeat split. Qed.

(** * C23 *)
(** One call of the hook: epoch_nr, count of its timescale, parameters, logs. *)
Definition call (P : Type) : Type := nat * nat * P * logs fl.
Fixpoint save_best_run {P} (log_name : string) (c : criterion) (calls : list (call P)) (s : best_state P) : option (best_state P) :=
  match calls with
  | [] => Some s
  | (epoch_nr, t, params, l) :: r =>
      match save_best log_name c epoch_nr t params l s with
      | None => None
      | Some s' => save_best_run log_name c r s'
      end
  end.
(** The values seen: last entry of the log, count, parameters (calls before
    training with a missing log are skipped). *)
Definition seen {P} (log_name : string) (calls : list (call P)) : list (fl * nat * P) :=
  flat_map (fun cl => let '(_, t, params, l) := cl in
    match get_log l log_name with Some e => match rev e with v :: _ => [(v, t, params)] | [] => [] end | None => [] end) calls.

(** C23: afterwards either nothing was saved and no value was better than the
    initial infinity (e.g. all are NaN), or the saved parameters are those of
    the first call with the best value. *)
Theorem C23_save_best : forall P log_name c (calls : list (call P)) s,
  save_best_run log_name c calls (save_best_init c) = Some s ->
  let init := match c with Min => PInf | Max => NInf end in
  (s = save_best_init c /\ forall v t p, In (v, t, p) (seen log_name calls) -> better c v init = false) \/
  (exists i v t p, nth_error (seen log_name calls) i = Some (v, t, p) /\ sb_best s = v /\ sb_t s = Some t /\ sb_saved s = Some p /\
     is_nan v = false /\
     (forall v' t' p', In (v', t', p') (seen log_name calls) -> better c v' v = false) /\
     (forall j v' t' p', j < i -> nth_error (seen log_name calls) j = Some (v', t', p') -> better c v v' = true \/ is_nan v' = true)).
Proof.
  intros P log_name c calls s H init.
  assert (G : forall (calls : list (call P)) (s0 s : best_state P), save_best_run log_name c calls s0 = Some s ->
    (s = s0 /\ forall v t p, In (v, t, p) (seen log_name calls) -> better c v (sb_best s0) = false) \/
    (exists i v t p, nth_error (seen log_name calls) i = Some (v, t, p) /\ s = mkBest v (Some t) (Some p) /\ better c v (sb_best s0) = true /\
       (forall v' t' p', In (v', t', p') (seen log_name calls) -> better c v' v = false) /\
       (forall j v' t' p', j < i -> nth_error (seen log_name calls) j = Some (v', t', p') -> better c v v' = true \/ is_nan v' = true))).
  { clear. induction calls as [|[[[epoch_nr t] params] l] r IH]; intros s0 s H.
    - cbn in H. injection H as <-. left. split; [reflexivity|]. intros v t p [].
    - cbn [save_best_run] in H. destruct (save_best _ _ _ _ _ _ s0) as [s1|] eqn:E; [|discriminate].
      unfold save_best in E. unfold seen. cbn [flat_map]. fold (seen log_name r).
      destruct (get_log l log_name) as [e|] eqn:G; [|destruct (epoch_nr =? 0); [injection E as <- | discriminate]; exact (IH _ _ H)].
      destruct (rev e) as [|v0 vr] eqn:R; [discriminate|]. cbn [app].
      destruct (better c v0 (sb_best s0)) eqn:B; injection E as <-; destruct (IH _ _ H) as [[-> Hno]|[i [v [t' [p [Hi [-> [Hv [Hbest Hfirst]]]]]]]]].
      + right. exists 0, v0, t, params. cbn [sb_best] in Hno. split; [reflexivity|]. split; [reflexivity|]. split; [assumption|].
        split; [|intros j v' t' p' Hj; lia]. intros v' t' p' [[= <- <- <-]|Hin]; [apply b_irrefl | exact (Hno _ _ _ Hin)].
      + right. cbn [sb_best] in Hv. exists (S i), v, t', p. split; [exact Hi|]. split; [reflexivity|]. split; [exact (b_trans c _ _ _ Hv B)|].
        split; [intros v' t2 p2 [[= <- <- <-]|Hin]; [now apply b_asym | exact (Hbest _ _ _ Hin)]|].
        intros [|j] v' t2 p2 Hj Ej; [injection Ej as <- <- <-; now left | exact (Hfirst j v' t2 p2 ltac:(lia) Ej)].
      + left. split; [reflexivity|]. intros v' t' p' [[= <- <- <-]|Hin]; [assumption | exact (Hno _ _ _ Hin)].
      + right. exists (S i), v, t', p. split; [exact Hi|]. split; [reflexivity|]. split; [assumption|].
        assert (Q : is_nan v0 = true \/ better c v v0 = true).
        { destruct (is_nan v0) eqn:N; [now left|]. right. apply (b_lt_nlt c v (sb_best s0) v0); assumption. }
        split.
        * intros v' t2 p2 [[= <- <- <-]|Hin]; [|exact (Hbest _ _ _ Hin)]. destruct Q as [Q|Q]; [|now apply b_asym].
          destruct (better c v0 v) eqn:Z; [|reflexivity]. apply b_nan in Z. destruct Z as [Z _]. congruence.
        * intros [|j] v' t2 p2 Hj Ej; [injection Ej as <- <- <-; tauto | exact (Hfirst j v' t2 p2 ltac:(lia) Ej)]. }
  destruct (G calls _ s H) as [[-> Hno]|[i [v [t [p [Hi [-> [Hv [Hbest Hfirst]]]]]]]]].
  - left. split; [reflexivity|]. exact Hno.
  - right. exists i, v, t, p. destruct (b_nan c _ _ Hv) as [Nv _]. repeat (split; [reflexivity || assumption|]). assumption.
Qed.
Print Assumptions C23_save_best.

Example C23_example :
  let call n v p := (n, n, p, ex_log v) in
  let calls := [(0, 0, "p0", []); call 1 [Fin (2#1)] "p1"; call 2 [Fin (2#1); NaN] "p2"; call 3 [Fin (2#1); NaN; Fin (1#1)] "p3";
                call 4 [Fin (2#1); NaN; Fin (1#1); Fin (1#1)] "p4"] in
  save_best_run "validation.Loss" Min calls (save_best_init Min) = Some (mkBest (Fin (1#1)) (Some 3) (Some "p3")).
Proof. vm_compute. reflexivity. Qed.

(** * C56 *)
Lemma fold_best c r : forall m, (is_nan m = true -> fold_left (fun m y => if better c y m then y else m) r m = m) /\
  (is_nan m = false -> let b := fold_left (fun m y => if better c y m then y else m) r m in
     In b (m :: r) /\ is_nan b = false /\ better c m b = false /\ forall y, In y r -> better c y b = false).
Proof.
  induction r as [|x r IH]; intros m; cbn [fold_left]; split; intros Hm.
  - reflexivity.
  - split; [now left|]. split; [assumption|]. split; [apply b_irrefl | intros y []].
  - replace (better c x m) with false; [exact (proj1 (IH m) Hm)|]. symmetry. destruct (better c x m) eqn:B; [apply b_nan in B; destruct B; congruence | reflexivity].
  - destruct (better c x m) eqn:B.
    + destruct (b_nan c _ _ B) as [Nx _]. destruct (proj2 (IH x) Nx) as [H1 [H2 [H3 H4]]]. split; [now right|]. split; [assumption|]. split.
      * apply (b_not_trans c m x); [assumption | now apply b_asym | assumption].
      * intros y [<-|Hy]; auto.
    + destruct (proj2 (IH m) Hm) as [H1 [H2 [H3 H4]]]. split; [destruct H1 as [H1|H1]; [now left | right; now right]|]. split; [assumption|]. split; [assumption|].
      intros y [<-|Hy]; [|auto]. apply (b_not_trans c x m); assumption.
Qed.

Definition reaches (c : criterion) (threshold v : fl) : Prop :=
  match c with Max => fle threshold v = true | Min => fle v threshold = true end.
Lemma reaches_spec c th v : reaches c th v <-> is_nan v = false /\ is_nan th = false /\ better c th v = false.
Proof. destruct c; cbn [reaches better]; unfold fle; destruct th, v; cbn; try (split; [discriminate | intros [A [B C]]; discriminate]); rewrite ?negb_true_iff; try tauto; try (split; [discriminate | intros [_ [_ C]]; discriminate]); split; auto. Qed.

(** C56: StopAfterThresholdReached stops if and only if the first logged value is
    not NaN and some value logged so far has reached the threshold. *)
Theorem C56_threshold : forall log_name threshold c l v0 e, get_log l log_name = Some (v0 :: e) ->
  (threshold_stopper log_name threshold c l = Stop <-> is_nan v0 = false /\ exists v, In v (v0 :: e) /\ reaches c threshold v) /\
  (threshold_stopper log_name threshold c l <> Stop -> threshold_stopper log_name threshold c l = Continue).
Proof.
  intros log_name th c l v0 e Hl. unfold threshold_stopper. rewrite Hl. cbn [py_best].
  set (b := fold_left _ e v0).
  assert (R : (if match c with Max => fle th b | Min => fle b th end then Stop else Continue) = Stop <-> reaches c th b).
  { destruct c; cbn [reaches]; destruct (fle _ _); split; try discriminate; auto. }
  split; [|intros N; revert N; destruct (match c with Max => _ | Min => _ end); congruence].
  rewrite R. destruct (is_nan v0) eqn:N0.
  - unfold b. rewrite (proj1 (fold_best c e v0) N0). rewrite reaches_spec. split; [intros [Q _]; congruence | intros [Q _]; discriminate].
  - destruct (proj2 (fold_best c e v0) N0) as [H1 [H2 [H3 H4]]]. fold b in H1, H2, H3, H4. split.
    + intros Hr. split; [reflexivity|]. now exists b.
    + intros [_ [v [Hv Hr]]]. apply reaches_spec. apply reaches_spec in Hr. destruct Hr as [Nv [Nt Hr]]. split; [assumption|]. split; [assumption|].
      apply (b_not_trans c th v b); [assumption | assumption|]. destruct Hv as [<-|Hv]; auto.
Qed.
Print Assumptions C56_threshold.

(** With a NaN as first value it never stops, even if a later value reaches the
    threshold; and (unlike EarlyStopper) it fails before the first value is
    logged, i.e. already before training. *)
Theorem C56_nan_first_refuted :
  ~ (forall log_name threshold c l e, get_log l log_name = Some e -> e <> [] ->
     (exists v, In v e /\ reaches c threshold v) -> threshold_stopper log_name threshold c l = Stop).
Proof.
  intros H. specialize (H "validation.Loss" (Fin (1#2)) Max (ex_log [NaN; Fin (1#1)]) [NaN; Fin (1#1)] eq_refl ltac:(discriminate)).
  assert (Q : threshold_stopper "validation.Loss" (Fin (1#2)) Max (ex_log [NaN; Fin (1#1)]) = Stop).
  { apply H. exists (Fin (1#1)). split; [now right; left | reflexivity]. }
  vm_compute in Q. discriminate.
Qed.
Print Assumptions C56_nan_first_refuted.
Theorem C56_missing_log : forall log_name threshold c l, get_log l log_name = None -> threshold_stopper log_name threshold c l = Fail.
Proof. intros log_name th c l H. unfold threshold_stopper. now rewrite H. Qed.
Print Assumptions C56_missing_log.
Example C56_example_threshold :
  threshold_stopper "validation.Loss" (Fin (1#2)) Min (ex_log [Fin (1#1); Fin (1#3); NaN; Fin (2#1)]) = Stop /\
  threshold_stopper "validation.Loss" (Fin (1#2)) Min (ex_log [Fin (1#1); NaN; Fin (2#3)]) = Continue.
Proof. vm_compute. split; reflexivity. Qed.

(** C56: StopOnNan. *)
Theorem C56_stop_on_nan : forall logs_to_check check_parameters check_training_loss params l,
  (forall n, In n logs_to_check -> get_log l n <> None) ->
  (forall rt, dget "rolling_training" l = Some rt -> exists d loss, rt = DDict d /\ dget "total_loss" d = Some (DLeaf loss)) ->
  let invalid v := is_finite v = false in
  let bad := (exists n e v, In n logs_to_check /\ get_log l n = Some e /\ In v e /\ invalid v) \/
             (check_parameters = true /\ exists v, In v params /\ invalid v) \/
             (check_training_loss = true /\ exists e v, get_log l "rolling_training.total_loss" = Some e /\ In v e /\ invalid v) in
  (stop_on_nan logs_to_check check_parameters check_training_loss params l = Stop <-> bad) /\
  (~ bad -> stop_on_nan logs_to_check check_parameters check_training_loss params l = Continue).
Proof.
  intros names cp ct params l Hn Hrt invalid bad.
  assert (Ff : forall e, forallb is_finite e = false <-> exists v, In v e /\ invalid v).
  { intros e. rewrite <- Bool.not_true_iff_false, forallb_forall. split.
    - intros N. induction e as [|x e IH]; [exfalso; apply N; intros ? []|]. destruct (is_finite x) eqn:Fx.
      + destruct IH as [v [Hv Iv]]; [|exists v; split; [now right | assumption]]. intros Q. apply N. intros y [<-|Hy]; auto.
      + exists x. split; [now left | exact Fx].
    - intros [v [Hv Iv]] Q. specialize (Q v Hv). congruence. }
  assert (Cl : (check_logs names l = Stop /\ exists n e v, In n names /\ get_log l n = Some e /\ In v e /\ invalid v) \/
               (check_logs names l = Continue /\ ~ exists n e v, In n names /\ get_log l n = Some e /\ In v e /\ invalid v)).
  { clear Hrt bad. induction names as [|n r IH]; cbn [check_logs].
    - right. split; [reflexivity|]. intros [n [e [v [[] _]]]].
    - destruct (get_log l n) as [e|] eqn:G; [|destruct (Hn n (or_introl eq_refl) G)].
      destruct (forallb is_finite e) eqn:Fe.
      + destruct IH as [[-> [n' [e' [v [A B]]]]]|[-> No]]; [intros; apply Hn; now right | left; split; [reflexivity|]; exists n', e', v; split; [now right | exact B]|].
        right. split; [reflexivity|]. intros [n' [e' [v [[<-|A] [B [C D]]]]]]; [|apply No; exists n', e', v; tauto].
        rewrite G in B. injection B as <-. assert (Q : forallb is_finite e = false) by (apply Ff; now exists v). congruence.
      + left. split; [reflexivity|]. apply Ff in Fe. destruct Fe as [v [Hv Iv]]. exists n, e, v. split; [now left|]. tauto. }
  unfold stop_on_nan, bad. destruct Cl as [[-> Hb]|[-> Hb]]; [split; [tauto|]; intros N; exfalso; apply N; now left|].
  assert (Pp : (cp && negb (forallb is_finite params) = true <-> cp = true /\ exists v, In v params /\ invalid v)).
  { rewrite andb_true_iff, negb_true_iff, Ff. tauto. }
  destruct (cp && negb (forallb is_finite params)); [split; [tauto|]; intros N; exfalso; apply N; right; left; now apply Pp|].
  assert (Pn : ~ (cp = true /\ exists v, In v params /\ invalid v)) by (intros Q; apply Pp in Q; discriminate).
  destruct ct; cbn [andb].
  - unfold get_log, get_by_path. change (split_dot "rolling_training.total_loss") with ["rolling_training"; "total_loss"]. cbn [get_by_parts].
    destruct (dmem "rolling_training" l) eqn:M.
    + apply smem_In, key_dget in M. destruct M as [rt M]. rewrite M. destruct (Hrt rt M) as [d [loss [-> Hd]]].
      assert (Md : dmem "total_loss" d = true) by (apply smem_In; eapply dget_Some_key; eassumption). rewrite Md, Hd.
      destruct (forallb is_finite loss) eqn:Fl.
      * split; [|reflexivity]. split; [discriminate|]. intros [Q|[Q|[_ [e [v [A [B C]]]]]]]; [tauto | tauto |]. injection A as <-. assert (forallb is_finite loss = false) by (apply Ff; now exists v). congruence.
      * apply Ff in Fl. destruct Fl as [v [Hv Iv]]. assert (B : true = true /\ exists e v, Some loss = Some e /\ In v e /\ invalid v) by (split; [reflexivity|]; exists loss, v; tauto).
        split; [tauto|]. intros N. exfalso. apply N. tauto.
    + apply smem_false in M. apply dget_None in M. rewrite M. split; [|reflexivity]. split; [discriminate|]. intros [Q|[Q|[_ [e [v [A _]]]]]]; [tauto | tauto | discriminate].
  - split; [|reflexivity]. split; [discriminate|]. intros [Q|[Q|[Q _]]]; [tauto | tauto | discriminate].
Qed.
Print Assumptions C56_stop_on_nan.
Example C56_example_nan :
  let l := [("validation", DDict [("Loss", DLeaf [Fin (1#1)])]); ("rolling_training", DDict [("total_loss", DLeaf [Fin (1#1); PInf])])] in
  stop_on_nan ["validation.Loss"] true true [Fin (0#1)] l = Stop /\ stop_on_nan ["validation.Loss"] true false [Fin (0#1)] l = Continue /\
  stop_on_nan ["validation.Loss"] true false [NaN] l = Stop.
Proof. vm_compute. repeat split. Qed.

(** * C55 *)
Lemma NoDup_app_snoc {A} (l : list A) x : NoDup l -> ~ In x l -> NoDup (l ++ [x]).
Proof. intros H N. apply NoDup_rev in H. rewrite <- (rev_involutive (l ++ [x])). apply NoDup_rev. rewrite rev_app_distr. cbn. constructor; [intros C; apply N; now apply in_rev | assumption]. Qed.

(** The loss of a loss layer: importance times the mean over the batch (the
    input's sum if it does not scale with the batch size). *)
Definition weighted_loss (l : loss_layer) (x : R) : Prop :=
  match lo_batch l with
  | None => x = (lo_importance l * fold_right Rplus 0 (lo_input l))%R
  | Some b => (x * INR b)%R = (lo_importance l * fold_right Rplus 0 (lo_input l))%R
  end.
Lemma loss_value_spec l : lo_batch l <> Some 0 -> weighted_loss l (loss_value l).
Proof.
  intros H. unfold weighted_loss, loss_value. destruct (lo_batch l) as [b|].
  - assert (INR b <> 0%R) by (apply not_0_INR; congruence). unfold rsum. field. assumption.
  - unfold rsum. field.
Qed.

Lemma fold_losses ls : forall losses loss losses' loss', NoDup (map lo_name ls) -> (forall l, In l ls -> ~ In (lo_name l) (dkeys losses)) ->
  fold_left (fun '(losses, loss) l => (dset (lo_name l) (loss_value l) losses, (loss + loss_value l)%R)) ls (losses, loss) = (losses', loss') ->
  losses' = losses ++ map (fun l => (lo_name l, loss_value l)) ls /\ loss' = (loss + fold_right Rplus 0 (map loss_value ls))%R.
Proof.
  induction ls as [|l ls IH]; intros losses loss losses' loss' Hn Hk H.
  - cbn in H. injection H as <- <-. cbn. rewrite app_nil_r. split; [reflexivity | ring].
  - cbn [fold_left] in H. cbn [map] in Hn. inversion Hn as [|? ? Hl Hr]; subst.
    assert (D : dset (lo_name l) (loss_value l) losses = losses ++ [(lo_name l, loss_value l)]).
    { assert (Q := Hk l (or_introl eq_refl)). clear - Q. induction losses as [|[k v] t IHt]; [reflexivity|]. cbn [dset app]. cbn [dkeys map fst] in Q.
      destruct (String.eqb_spec (lo_name l) k) as [E0|Ne]; [destruct Q; left; now rewrite E0|]. f_equal. apply IHt. intros C. apply Q. now right. }
    rewrite D in H. destruct (IH (losses ++ [(lo_name l, loss_value l)]) (loss + loss_value l)%R losses' loss' Hr) as [-> ->]; [| exact H |].
    + intros l' Hl' C. unfold dkeys in C. rewrite map_app in C. apply in_app_or in C. destruct C as [C|[C|[]]].
      * exact (Hk l' (or_intror Hl') C).
      * cbn in C. apply Hl. rewrite C. now apply in_map.
    + cbn [map fold_right]. rewrite <- app_assoc. split; [reflexivity | ring].
Qed.

(** C55.  Names of layers are distinct (dictionary keys) and LossLayerImpl.setup
    asserts that no loss layer is called 'total_loss'. *)
Theorem C55_losses : forall ls, NoDup (map lo_name ls) -> ~ In "total_loss" (map lo_name ls) ->
  (forall l, In l ls -> lo_batch l <> Some 0) ->
  exists vals, Forall2 weighted_loss ls vals /\
    dget "total_loss" (get_loss_values ls) = Some (fold_right Rplus 0%R vals) /\
    (length ls = 1 -> dkeys (get_loss_values ls) = ["total_loss"]) /\
    (length ls <> 1 -> dkeys (get_loss_values ls) = map lo_name ls ++ ["total_loss"] /\
       forall i l v, nth_error ls i = Some l -> nth_error vals i = Some v -> dget (lo_name l) (get_loss_values ls) = Some v).
Proof.
  intros ls Hn Ht Hb. exists (map loss_value ls). split.
  { clear Hn Ht. induction ls as [|l ls IH]; constructor; [apply loss_value_spec, Hb; now left | apply IH; intros; apply Hb; now right]. }
  assert (G : length ls <> 1 -> get_loss_values ls = map (fun l => (lo_name l, loss_value l)) ls ++ [("total_loss", fold_right Rplus 0%R (map loss_value ls))]).
  { intros L. assert (E : get_loss_values ls = let '(losses, loss) := fold_left (fun '(losses, loss) l => (dset (lo_name l) (loss_value l) losses, (loss + loss_value l)%R)) ls ([], 0%R) in dset "total_loss" loss losses).
    { unfold get_loss_values. destruct ls as [|a [|b r]]; [reflexivity | now cbn in L | reflexivity]. }
    rewrite E. match goal with |- context [fold_left ?f ls ([], 0%R)] => destruct (fold_left f ls ([], 0%R)) as [losses loss] eqn:F end. destruct (fold_losses ls [] 0%R losses loss Hn ltac:(intros ? ? []) F) as [-> ->]. cbn [app]. rewrite Rplus_0_l.
    clear - Ht. induction ls as [|a ls IH]; [reflexivity|]. cbn [map app dset]. destruct (String.eqb_spec "total_loss" (lo_name a)) as [Q|_]; [destruct Ht; left; now rewrite Q|].
    cbn [fold_right].
    assert (Q : forall x (d : dict R), dset "total_loss" x (map (fun l => (lo_name l, loss_value l)) ls) = map (fun l => (lo_name l, loss_value l)) ls ++ [("total_loss", x)]).
    { intros x _. clear IH. assert (Ht' : ~ In "total_loss" (map lo_name ls)) by (intros C; apply Ht; now right). clear Ht. induction ls as [|b ls IH]; [reflexivity|]. cbn [map app dset].
      destruct (String.eqb_spec "total_loss" (lo_name b)) as [Q|_]; [destruct Ht'; left; now rewrite Q|]. f_equal. apply IH. intros C; apply Ht'; now right. }
    now rewrite (Q _ []). }
  assert (K : map fst (map (fun l => (lo_name l, loss_value l)) ls) = map lo_name ls) by (rewrite map_map; reflexivity).
  destruct (Nat.eq_dec (length ls) 1) as [L|L].
  - destruct ls as [|a [|b r]]; try discriminate. cbn [get_loss_values map fold_right]. split; [cbn; f_equal; ring|]. split; [reflexivity|]. intros Q. now destruct Q.
  - rewrite (G L). clear G. split; [|split; [intros Q; now destruct L|intros _; split]].
    + apply In_dget; [|apply in_or_app; right; now left]. unfold dkeys. rewrite map_app, K. cbn [map fst].
      apply NoDup_app_snoc; assumption.
    + unfold dkeys. rewrite map_app, K. reflexivity.
    + intros i l v El Ev. rewrite nth_error_map, El in Ev. cbn in Ev. injection Ev as <-.
      apply In_dget; [|apply in_or_app; left; apply (in_map (fun l => (lo_name l, loss_value l))); eapply nth_error_In; eassumption].
      unfold dkeys. rewrite map_app, K. cbn [map fst]. apply NoDup_app_snoc; assumption.
Qed.
Print Assumptions C55_losses.

Example C55_example :
  let a := mkLoss "a" 2%R (Some 4) [1; 3]%R in let b := mkLoss "b" 1%R None [5]%R in
  dget "total_loss" (get_loss_values [a; b]) = Some 7%R /\ dget "a" (get_loss_values [a; b]) = Some 2%R /\
  dget "total_loss" (get_loss_values [a]) = Some 2%R /\ dget "total_loss" (get_loss_values []) = Some 0%R.
Proof. cbn. repeat split; f_equal; unfold loss_value; cbn; try field. Qed.

(** * C57 *)
(** What a monitored array should be reported as: its smallest, average and
    largest entry, and (if asked for and it has more than one dimension) the
    same for the norms. *)
Definition reported (kmin kavg kmax : string) (values : list R) (entry : dict (lval R)) : Prop :=
  exists mn av mx, dget kmin entry = Some (VLeaf mn) /\ dget kavg entry = Some (VLeaf av) /\ dget kmax entry = Some (VLeaf mx) /\
    In mn values /\ (forall y, In y values -> (mn <= y)%R) /\
    In mx values /\ (forall y, In y values -> (y <= mx)%R) /\
    (av * INR (length values))%R = fold_right Rplus 0%R values.

Lemma rmin_spec l : forall x, In (rmin x l) (x :: l) /\ (forall y, In y (x :: l) -> (rmin x l <= y)%R).
Proof.
  induction l as [|z l IH]; intros x; cbn [rmin].
  - split; [now left|]. intros y [<-|[]]. apply Rle_refl.
  - destruct (IH (Rmin x z)) as [A B]. split.
    + destruct A as [A|A]; [|right; now right]. rewrite <- A. unfold Rmin. destruct (Rle_dec x z); [now left | right; now left].
    + intros y [<-|[<-|Hy]].
      * eapply Rle_trans; [apply B; now left | apply Rmin_l].
      * eapply Rle_trans; [apply B; now left | apply Rmin_r].
      * apply B. now right.
Qed.
Lemma rmax_spec l : forall x, In (rmax x l) (x :: l) /\ (forall y, In y (x :: l) -> (y <= rmax x l)%R).
Proof.
  induction l as [|z l IH]; intros x; cbn [rmax].
  - split; [now left|]. intros y [<-|[]]. apply Rle_refl.
  - destruct (IH (Rmax x z)) as [A B]. split.
    + destruct A as [A|A]; [|right; now right]. rewrite <- A. unfold Rmax. destruct (Rle_dec x z); [right; now left | now left].
    + intros y [<-|[<-|Hy]].
      * eapply Rle_trans; [apply Rmax_l | apply B; now left].
      * eapply Rle_trans; [apply Rmax_r | apply B; now left].
      * apply B. now right.
Qed.
Lemma statistics_spec kmin kavg kmax l e rest : l <> [] -> kmin <> kavg -> kmin <> kmax -> kavg <> kmax ->
  statistics kmin kavg kmax l = Some e -> reported kmin kavg kmax l (e ++ rest).
Proof.
  intros Hl N1 N2 N3 H. destruct l as [|x r]; [congruence|]. unfold statistics in H. injection H as <-.
  destruct (rmin_spec r x) as [A1 A2]. destruct (rmax_spec r x) as [B1 B2].
  exists (rmin x r), (rmean (x :: r)), (rmax x r). cbn [app dget].
  rewrite !String.eqb_refl. rewrite (proj2 (String.eqb_neq kavg kmin)) by congruence. rewrite (proj2 (String.eqb_neq kmax kmin)) by congruence. rewrite (proj2 (String.eqb_neq kmax kavg)) by congruence.
  do 3 (split; [reflexivity|]). do 4 (split; [assumption|]).
  unfold rmean, rsum. field. apply not_0_INR. discriminate.
Qed.

Lemma monitor_loop_spec f items : forall log, NoDup (dkeys items) -> (forall k v, In (k, v) items -> f v <> None) ->
  exists out, monitor_loop f items log = Some out /\
    (forall k v, dget k items = Some v -> dget k out = f v) /\ (forall k, dget k items = None -> dget k out = dget k log).
Proof.
  induction items as [|[k v] r IH]; intros log Hn Hf; cbn [monitor_loop].
  - exists log. split; [reflexivity|]. split; [discriminate | reflexivity].
  - destruct (f v) as [x|] eqn:Fv; [|destruct (Hf k v (or_introl eq_refl) Fv)].
    cbn [dkeys map fst] in Hn. inversion Hn as [|? ? Hk Hr]; subst.
    destruct (IH (dset k x log) Hr ltac:(intros; eapply Hf; right; eassumption)) as [out [E [A B]]].
    exists out. split; [assumption|]. split.
    + intros k' v' G. cbn [dget] in G. destruct (String.eqb_spec k' k) as [E0|Ne]; [subst k'|].
      * injection G as <-. rewrite B by (now apply dget_None). now rewrite dget_dset_same.
      * now apply A.
    + intros k' G. cbn [dget] in G. destruct (String.eqb_spec k' k) as [E0|Ne]; [discriminate|]. rewrite B by assumption. now rewrite dget_dset_other by congruence.
Qed.

(** The report of a whole category: an entry for every array and nothing else. *)
Definition category_reported (norms : bool) (items : dict array) (log : lval R) : Prop :=
  exists d, log = VDict d /\ (forall k, In k (dkeys d) <-> In k (dkeys items)) /\
    forall k v, dget k items = Some v -> exists entry, dget k d = Some (VDict entry) /\
      reported "min" "avg" "max" (ar_values v) entry /\
      (norms = true -> 1 < ar_ndim v -> reported "min_L2_norm" "avg_L2_norm" "max_L2_norm" (ar_norms v) entry).

Lemma category_spec (norms : bool) items f : NoDup (dkeys items) ->
  (forall k v, In (k, v) items -> ar_values v <> [] /\ (1 < ar_ndim v -> ar_norms v <> [])) ->
  f = (if norms then parameter_entry else stats_entry) ->
  exists d, monitor_loop f items [] = Some d /\ category_reported norms items (VDict d).
Proof.
  intros Hn Hv ->.
  assert (F : forall v, ar_values v <> [] -> (1 < ar_ndim v -> ar_norms v <> []) -> exists entry, (if norms then parameter_entry else stats_entry) v = Some (VDict entry) /\
      reported "min" "avg" "max" (ar_values v) entry /\
      (norms = true -> 1 < ar_ndim v -> reported "min_L2_norm" "avg_L2_norm" "max_L2_norm" (ar_norms v) entry)).
  { intros v Hv1 Hv2. destruct (stats (ar_values v)) as [s|] eqn:S; [|destruct (ar_values v); [congruence | discriminate S]].
    assert (R1 : forall rest, reported "min" "avg" "max" (ar_values v) (s ++ rest)) by (intros rest; now apply statistics_spec).
    destruct norms.
    - unfold parameter_entry. rewrite S. destruct (Nat.ltb_spec 1 (ar_ndim v)) as [L|L].
      + destruct (statistics "min_L2_norm" _ _ _) as [n|] eqn:N; [|destruct (ar_norms v); [now destruct Hv2 | discriminate N]].
        exists (s ++ n). split; [reflexivity|]. split; [apply R1|]. intros _ _.
        assert (Q : reported "min_L2_norm" "avg_L2_norm" "max_L2_norm" (ar_norms v) n).
        { rewrite <- (app_nil_r n). apply statistics_spec; try discriminate; auto. }
        destruct Q as [a [b [c [Q1 [Q2 [Q3 Q4]]]]]]. exists a, b, c.
        destruct (ar_values v) as [|x0 r0]; [congruence|]. unfold stats, statistics in S. injection S as <-. cbn [app dget]. cbn [String.eqb Ascii.eqb Bool.eqb]. tauto.
      + exists s. split; [reflexivity|]. split; [rewrite <- (app_nil_r s); apply R1 | lia].
    - unfold stats_entry. rewrite S. exists s. split; [reflexivity|]. split; [rewrite <- (app_nil_r s); apply R1 | discriminate]. }
  destruct (monitor_loop_spec (if norms then parameter_entry else stats_entry) items [] Hn) as [out [E [A B]]].
  { intros k v Hin. destruct (Hv k v Hin) as [H1 H2]. destruct (F v H1 H2) as [e [-> _]]. discriminate. }
  exists out. split; [assumption|]. exists out. split; [reflexivity|]. split.
  - intros k. split; intros Hk.
    + destruct (dget k items) as [v|] eqn:G; [eapply dget_Some_key; eassumption|]. apply key_dget in Hk. destruct Hk as [x Hx]. rewrite (B k G) in Hx. discriminate.
    + apply key_dget in Hk. destruct Hk as [v G]. specialize (A k v G). destruct (Hv k v (dget_In _ _ _ G)) as [H1 H2]. destruct (F v H1 H2) as [e [Fe _]]. rewrite Fe in A. eapply dget_Some_key; eassumption.
  - intros k v G. destruct (Hv k v (dget_In _ _ _ G)) as [H1 H2]. destruct (F v H1 H2) as [e [Fe Re]]. exists e. rewrite (A k v G). tauto.
Qed.

(** All arrays of the views have entries. *)
Definition nonempty_views (layer : layer_views) : Prop :=
  forall c items, dget c layer = Some items -> NoDup (dkeys items) /\
    forall k v, In (k, v) items -> ar_values v <> [] /\ (1 < ar_ndim v -> ar_norms v <> []).

(** C57 *)
Theorem C57_gradients : forall layer items, nonempty_views layer -> dget "gradients" layer = Some items ->
  exists log, monitor_gradients layer = Some log /\ category_reported false items log.
Proof.
  intros layer items Hne H. destruct (Hne _ _ H) as [Hn Hv]. destruct (category_spec false items stats_entry Hn Hv eq_refl) as [d [E R]].
  exists (VDict d). unfold monitor_gradients, category. rewrite H, E. split; [reflexivity | assumption].
Qed.
Print Assumptions C57_gradients.
Theorem C57_parameters : forall layer items, nonempty_views layer -> dget "parameters" layer = Some items ->
  exists log, monitor_parameters layer = Some log /\ category_reported true items log.
Proof.
  intros layer items Hne H. destruct (Hne _ _ H) as [Hn Hv]. destruct (category_spec true items parameter_entry Hn Hv eq_refl) as [d [E R]].
  exists (VDict d). unfold monitor_parameters, category. rewrite H, E. split; [reflexivity | assumption].
Qed.
Print Assumptions C57_parameters.
Theorem C57_in_outs : forall layer ins outs, nonempty_views layer -> dget "inputs" layer = Some ins -> dget "outputs" layer = Some outs ->
  exists d i o, monitor_in_outs layer = Some (VDict d) /\ dget "inputs" d = Some i /\ dget "outputs" d = Some o /\
    category_reported false ins i /\ category_reported false outs o.
Proof.
  intros layer ins outs Hne Hi Ho. destruct (Hne _ _ Hi) as [Hn Hv]. destruct (category_spec false ins stats_entry Hn Hv eq_refl) as [d [E R]].
  destruct (Hne _ _ Ho) as [Hn' Hv']. destruct (category_spec false outs stats_entry Hn' Hv' eq_refl) as [d' [E' R']].
  unfold monitor_in_outs, category. rewrite Hi, Ho, E, E'. exists [("inputs", VDict d); ("outputs", VDict d')], (VDict d), (VDict d').
  split; [reflexivity|]. split; [reflexivity|]. split; [reflexivity|]. tauto.
Qed.
Print Assumptions C57_in_outs.

(** MonitorLayerDeltas raises a KeyError for every layer that has an input. *)
Theorem C57_deltas_refuted : forall (layer : layer_views) (items : dict array),
  dget "input_deltas" layer = Some items -> items <> [] -> monitor_deltas layer = None.
Proof.
  intros layer items H Hi. destruct items as [|[k v] items]; [congruence|]. clear Hi. unfold monitor_deltas, category. destruct (dget "internals" layer), (dget "output_deltas" layer); try reflexivity. rewrite H.
  destruct (monitor_loop _ _ _); [|reflexivity]. destruct (monitor_loop _ _ _); reflexivity.
Qed.
Print Assumptions C57_deltas_refuted.
(** It works for layers without inputs. *)
Theorem C57_deltas_partial : forall layer outs, nonempty_views layer ->
  dget "internals" layer = Some [] -> dget "output_deltas" layer = Some outs -> dget "input_deltas" layer = Some [] ->
  exists d o i, monitor_deltas layer = Some (VDict d) /\ dget "output_deltas" d = Some o /\ dget "input_deltas" d = Some i /\
    category_reported false outs o /\ category_reported false [] i.
Proof.
  intros layer outs Hne Hn Ho Hi. destruct (Hne _ _ Ho) as [Hn' Hv']. destruct (category_spec false outs stats_entry Hn' Hv' eq_refl) as [d' [E' R']].
  unfold monitor_deltas, category. rewrite Hn, Ho, Hi, E'. cbn [monitor_loop input_deltas_loop dset].
  exists [("output_deltas", VDict d'); ("input_deltas", VDict [])], (VDict d'), (VDict []). cbn [String.eqb Ascii.eqb Bool.eqb].
  split; [reflexivity|]. split; [reflexivity|]. split; [reflexivity|]. split; [assumption|].
  exists []. split; [reflexivity|]. split; [intros k; tauto | discriminate].
Qed.
Print Assumptions C57_deltas_partial.

Example C57_example :
  let W := mkArray 2 [1; -2; 3; 4]%R [sqrt 5; 5]%R in let b := mkArray 1 [0; 1]%R [] in
  let layer := [("parameters", [("W", W); ("bias", b)]); ("gradients", [("W", W); ("bias", b)]);
                ("internals", []); ("input_deltas", [("default", W)]); ("output_deltas", [("default", W)])] in
  nonempty_views layer /\ monitor_deltas layer = None.
Proof.
  split; [|reflexivity]. intros c items H.
  assert (Q : In items [[("W", mkArray 2 [1; -2; 3; 4]%R [sqrt 5; 5]%R); ("bias", mkArray 1 [0; 1]%R [])]; []; [("default", mkArray 2 [1; -2; 3; 4]%R [sqrt 5; 5]%R)]]).
  { cbn in H. repeat (destruct (c =? _)%string; [injection H as <-; cbn; tauto|]). discriminate. }
  destruct Q as [<-|[<-|[<-|[]]]]; (split; [cbn; repeat constructor; cbn; intuition discriminate|]); intros k v Hin; cbn in Hin;
    repeat (destruct Hin as [[= <- <-]|Hin]; [split; [discriminate|]; cbn; (lia || discriminate)|]); destruct Hin.
Qed.
