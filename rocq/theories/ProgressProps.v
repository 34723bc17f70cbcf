(** C74: the progress bar. *)
From Coq Require Import String Ascii List Arith Bool Lia.
From Verif Require Import TrainerModel TrainerProofs ProgressModel ProgressProofs.
Import ListNotations.
Open Scope string_scope.
Open Scope list_scope.
Open Scope nat_scope.

(** Exact arithmetic is sound. *)
Theorem C74_exact_fraction : sound_fraction (fun p l n => p * n / l).
Proof.
  intros l n Hl Hn. split; [|split].
  - intros p q H _. apply Nat.div_le_mono; nia.
  - intros p Hp. apply Nat.div_lt_upper_bound; nia.
  - rewrite Nat.mul_comm. now apply Nat.div_mul; lia.
Qed.
Print Assumptions C74_exact_fraction.

(** One call: after k + 1 of l >= 2 updates of epoch e + 1 the bar is shown up to the fraction of the epoch; after the last one it is complete.
    No exception is raised and no stop requested. *)
Theorem C74_call : forall fraction elapsed l before e k b, sound_fraction fraction -> 2 <= l -> k < l ->
  state_after fraction elapsed l before e k b ->
  exists b', call_bar fraction elapsed (S e) (e * l + S k) b = Some (b', false) /\
    if S k <? l then state_after fraction elapsed l before e (S k) b' else state_after fraction elapsed l before (S e) 0 b'.
Proof.
  intros fraction elapsed l before e k b Hf Hl Hk HS.
  assert (X : exists r, call_bar fraction elapsed (S e) (e * l + S k) b = Some r).
  { destruct HS as [HL HS]. unfold call_bar. rewrite HL. assert (E0 : (l =? 0) = false) by (apply Nat.eqb_neq; lia). rewrite E0.
    assert (D : (e * l + S k + l - 1) / l = S e) by (replace (e * l + S k + l - 1) with (k + S e * l) by lia; rewrite Nat.div_add, Nat.div_small by lia; lia).
    rewrite D, Nat.eqb_refl, orb_true_r. cbn [negb gen_next]. destruct ((e * l + S k) mod l =? 1) eqn:E1; [eexists; reflexivity|].
    destruct ((e * l + S k) mod l =? 0) eqn:E2; [destruct (p_bar b) as [g|]; [destruct (gen_send _ _ _ _ _ _) as [[t g']|]|]; eexists; reflexivity|].
    destruct (k =? 0) eqn:Ek.
    - apply Nat.eqb_eq in Ek. subst k. rewrite Nat.add_comm, Nat.mod_add, Nat.mod_small in E1 by lia. discriminate E1.
    - destruct HS as [_ ->]. destruct (gen_send _ _ _ _ _ _) as [[t g']|]; eexists; reflexivity. }
  destruct X as [[b' stop] X]. destruct (call_step fraction elapsed l Hf Hl before e k b b' stop Hk HS X) as [-> S']. exists b'. split; [exact X|exact S'].
Qed.
Print Assumptions C74_call.

(** ** In the trainer *)
Section Training.
  Variables (V X Batch Score : Type).
  Notation W := (pbar * X)%type.
  Variables (new_iterator : W -> W * list Batch) (train_step : W -> Batch -> option (W * Score)) (aggregate : W -> list Score -> lval V) (start : W -> option W).
  Variables (fraction : nat -> nat -> nat -> nat) (elapsed : nat -> string) (l : nat) (name : string).
  Hypothesis Hf : sound_fraction fraction.
  Hypothesis Hl : 2 <= l.
  (** Everything else leaves the state of the progress bar alone. *)
  Definition quiet (h : hook V W) : Prop :=
    (forall w w', h_start _ _ h w = Some w' -> fst w' = fst w) /\ (forall e u w ls w' v b, h_call _ _ h e u w ls = Some (w', v, b) -> fst w' = fst w).
  Definition stops_after_epochs (h : hook V W) : Prop := h_scale _ _ h = "epoch" \/ forall e u w ls w' v b, h_call _ _ h e u w ls = Some (w', v, b) -> b = false.
  Definition quiet_data : Prop := (forall w, fst (fst (new_iterator w)) = fst w /\ length (snd (new_iterator w)) = l) /\
    (forall w b w' sc, train_step w b = Some (w', sc) -> fst w' = fst w) /\ forall w w', start w = Some w' -> fst w' = fst w.
  Hypothesis Hd : quiet_data.
  Variables (pre post : list (hook V W)).
  Hypothesis Hq : forall h, In h (pre ++ post) -> quiet h /\ stops_after_epochs h.
  Let ph := progress_hook fraction elapsed V X name l.
  Let hooks := pre ++ ph :: post.
  Notation state := (state V W).
  Notation pb s := (fst (t_world V W s)).
  Notation ep := (t_epoch V W).
  Notation up := (t_update V W).

  Lemma emit_quiet scale hs : (forall h, In h hs -> quiet h /\ stops_after_epochs h) -> forall s s' stop ev, emit_hooks V W false hs scale s = Some (s', stop, ev) ->
    pb s' = pb s /\ ep s' = ep s /\ up s' = up s /\ (scale = "update" -> stop = false).
  Proof.
    induction hs as [|h r IH]; intros Hh s s' stop ev H; cbn [emit_hooks] in H; [injection H as <- <- <-; auto|].
    assert (Hr : forall h, In h r -> quiet h /\ stops_after_epochs h) by (intros z Hz; apply Hh; now right). specialize (IH Hr).
    destruct (String.eqb (h_scale _ _ h) scale) eqn:Es; cbn [negb] in H; [|exact (IH _ _ _ _ H)]. apply String.eqb_eq in Es.
    destruct (h_interval _ _ h =? 0); [discriminate H|]. destruct (negb _); [exact (IH _ _ _ _ H)|].
    destruct (h_call _ _ h _ _ _ _) as [[[w v] b]|] eqn:Eh; [|discriminate H]. destruct (add_log _ _ _) as [ls|]; [|discriminate H].
    match type of H with match ?q with _ => _ end = _ => destruct q as [[[s2 b2] ev2]|] eqn:E2; [|discriminate H] end. injection H as <- <- _.
    destruct (IH _ _ _ _ E2) as [I1 [I2 [I3 I4]]]. destruct (Hh h (or_introl eq_refl)) as [[_ Q] St]. rewrite I1, I2, I3. cbn [t_world t_epoch t_update]. split; [exact (Q _ _ _ _ _ _ _ Eh)|]. split; [reflexivity|]. split; [reflexivity|].
    intros ->. rewrite (I4 eq_refl). destruct St as [St|St]; [congruence|]. now rewrite (St _ _ _ _ _ _ _ Eh).
  Qed.
  Lemma emit_bar hs : (forall h, In h (hs ++ post) -> quiet h /\ stops_after_epochs h) -> forall s s' stop ev, emit_hooks V W false (hs ++ ph :: post) "update" s = Some (s', stop, ev) ->
    exists b, call_bar fraction elapsed (ep s) (up s) (pb s) = Some (pb s', b) /\ ep s' = ep s /\ up s' = up s /\ stop = b.
  Proof.
    induction hs as [|h r IH]; intros Hh s s' stop ev H; cbn [app emit_hooks] in H.
    - cbn [ph progress_hook h_scale h_interval h_call h_name] in H. unfold ph, progress_hook in H. cbn [h_scale h_interval h_call h_name] in H. rewrite String.eqb_refl in H. cbn [negb Nat.eqb] in H. rewrite Nat.mod_1_r in H. cbn [Nat.eqb negb] in H.
      destruct (call_bar fraction elapsed (ep s) (up s) (pb s)) as [[b stop1]|] eqn:Eb; [|discriminate H]. cbn [add_log] in H.
      match type of H with match ?q with _ => _ end = _ => destruct q as [[[s2 b2] ev2]|] eqn:E2; [|discriminate H] end. injection H as <- <- _.
      destruct (emit_quiet "update" post Hh _ _ _ _ E2) as [I1 [I2 [I3 I4]]]. rewrite (I4 eq_refl), orb_false_r, I1, I2, I3. exists stop1. cbn [t_world t_epoch t_update fst]. auto.
    - assert (Hr : forall h, In h (r ++ post) -> quiet h /\ stops_after_epochs h) by (intros z Hz; apply Hh; now right). specialize (IH Hr).
      destruct (String.eqb (h_scale _ _ h) "update") eqn:Es; cbn [negb] in H; [|exact (IH _ _ _ _ H)]. apply String.eqb_eq in Es.
      destruct (h_interval _ _ h =? 0); [discriminate H|]. destruct (negb _); [exact (IH _ _ _ _ H)|].
      destruct (h_call _ _ h _ _ _ _) as [[[w v] b]|] eqn:Eh; [|discriminate H]. destruct (add_log _ _ _) as [ls|]; [|discriminate H].
      match type of H with match ?q with _ => _ end = _ => destruct q as [[[s2 b2] ev2]|] eqn:E2; [|discriminate H] end. injection H as <- <- _.
      destruct (IH _ _ _ _ E2) as [b3 [I1 [I2 [I3 I4]]]]. destruct (Hh h (or_introl eq_refl)) as [[_ Q] St]. cbn [t_world t_epoch t_update] in I1, I2, I3. rewrite (Q _ _ _ _ _ _ _ Eh) in I1. exists b3.
      split; [exact I1|]. split; [exact I2|]. split; [exact I3|]. destruct St as [St|St]; [congruence|]. rewrite (St _ _ _ _ _ _ _ Eh). exact I4.
  Qed.
  Lemma emit_epoch s s' stop ev : emit_hooks V W false hooks "epoch" s = Some (s', stop, ev) -> pb s' = pb s /\ ep s' = ep s /\ up s' = up s.
  Proof.
    intros H. unfold hooks in H. revert s s' stop ev H. induction pre as [|h r IH]; intros s s' stop ev H; cbn [app emit_hooks] in H.
    - unfold ph, progress_hook in H. cbn [h_scale] in H. change (String.eqb "update" "epoch") with false in H. cbn [negb] in H. destruct (emit_quiet "epoch" post Hq _ _ _ _ H) as [I1 [I2 [I3 _]]]. auto.
    - assert (Hr : forall h, In h (r ++ post) -> quiet h /\ stops_after_epochs h) by (intros z Hz; apply Hq; now right). specialize (IH Hr).
      destruct (negb _); [exact (IH _ _ _ _ H)|]. destruct (h_interval _ _ h =? 0); [discriminate H|]. destruct (negb _); [exact (IH _ _ _ _ H)|].
      destruct (h_call _ _ h _ _ _ _) as [[[w v] b]|] eqn:Eh; [|discriminate H]. destruct (add_log _ _ _) as [ls|]; [|discriminate H].
      match type of H with match ?q with _ => _ end = _ => destruct q as [[[s2 b2] ev2]|] eqn:E2; [|discriminate H] end. injection H as <- _ _.
      destruct (IH _ _ _ _ E2) as [I1 [I2 I3]]. rewrite I1, I2, I3. cbn [t_world t_epoch t_update]. split; [|auto]. destruct (Hq h (or_introl eq_refl)) as [[_ Q] _]. exact (Q _ _ _ _ _ _ _ Eh).
  Qed.
  Notation SA := (state_after fraction elapsed l).
  Lemma batches_bar before e bs : forall k scores s s' stop scores' ev, run_batches V W Batch Score train_step hooks bs scores s = Some (s', stop, scores', ev) ->
    ep s = S e -> up s = e * l + k -> k + length bs = l -> k < l -> SA before e k (pb s) ->
    stop = false /\ ep s' = S e /\ up s' = S e * l /\ SA before (S e) 0 (pb s').
  Proof.
    induction bs as [|b r IH]; intros k scores s s' stop scores' ev H He Hu Hlen Hk HS; cbn [run_batches length] in H, Hlen; [lia|].
    destruct (train_step (t_world V W s) b) as [[w sc]|] eqn:Et; [|discriminate H]. assert (Ew := proj1 (proj2 Hd) _ _ _ _ Et).
    destruct (emit_hooks V W false hooks "update" _) as [[[s2 stop2] ev2]|] eqn:E2; [|discriminate H].
    destruct (emit_bar pre Hq _ _ _ _ E2) as [bb [I1 [I2 [I3 I4]]]]. cbn [t_world t_epoch t_update] in I1, I2, I3. rewrite Ew, He, Hu in I1. replace (S (e * l + k)) with (e * l + S k) in I1 by lia.
    destruct (C74_call fraction elapsed l before e k (pb s) Hf Hl Hk HS) as [b' [C1 C2]]. rewrite C1 in I1. injection I1 as E3 E4. subst bb. rewrite I4 in H. rewrite E3 in C2.
    destruct (run_batches V W Batch Score train_step hooks r (scores ++ [sc]) s2) as [[[[s3 stop3] sc3] ev3]|] eqn:Er; [|discriminate H]. injection H as <- <- _ _.
    destruct (S k <? l) eqn:El.
    - apply Nat.ltb_lt in El. apply (IH (S k) _ _ _ _ _ _ Er); [congruence|lia|lia|lia|exact C2].
    - apply Nat.ltb_ge in El. assert (r = []) by (apply length_zero_iff_nil; lia). subst r. cbn [run_batches] in Er. injection Er as <- <- _ _. split; [reflexivity|]. split; [congruence|]. split; [rewrite I3, Hu; lia|exact C2].
  Qed.
  Lemma epochs_bar before fuel : forall s s' fin ev, run_epochs V W Batch Score new_iterator train_step aggregate hooks fuel s = Some (s', fin, ev) ->
    up s = ep s * l -> SA before (ep s) 0 (pb s) -> up s' = ep s' * l /\ SA before (ep s') 0 (pb s').
  Proof.
    induction fuel as [|f IH]; intros s s' fin ev H Hu HS; cbn [run_epochs] in H; [injection H as <- <- <-; auto|].
    destruct (run_epoch V W Batch Score new_iterator train_step aggregate hooks s) as [[[s1 stop] ev1]|] eqn:E1; [|discriminate H].
    assert (K : ep s1 = S (ep s) /\ up s1 = S (ep s) * l /\ SA before (S (ep s)) 0 (pb s1)).
    { clear H IH. unfold run_epoch in E1. destruct (proj1 Hd (t_world V W s)) as [N1 N2]. destruct (new_iterator (t_world V W s)) as [w bs]. cbn [fst snd] in N1, N2.
      destruct (run_batches _ _ _ _ _ _ _ _ _) as [[[[s2 stop2] sc] ev2]|] eqn:Eb; [|discriminate E1].
      destruct (batches_bar before (ep s) bs 0 _ _ _ _ _ _ Eb) as [-> [J1 [J2 J3]]]; [reflexivity|cbn [t_update]; lia|lia|lia|cbn [t_world]; rewrite N1; exact HS|].
      destruct (add_log _ _ _) as [ls|]; [|discriminate E1]. destruct (emit_hooks _ _ _ _ _ _) as [[[s3 stop3] ev3]|] eqn:Ee; [|discriminate E1]. injection E1 as <- _ _.
      destruct (emit_epoch _ _ _ _ Ee) as [-> [-> ->]]. cbn [t_world t_epoch t_update]. auto. }
    destruct K as [K1 [K2 K3]]. destruct stop; [injection H as <- _ _; rewrite K1; split; [exact K2|exact K3]|].
    destruct (run_epochs V W Batch Score new_iterator train_step aggregate hooks f s1) as [[[s2 fin2] ev2]|] eqn:E2; [|discriminate H]. injection H as <- _ _.
    apply (IH s1 s2 fin2 ev2 E2); rewrite K1; [exact K2|exact K3].
  Qed.
  Lemma start_bar hs : (forall h, In h (hs ++ post) -> quiet h) -> forall w w', start_hooks V W (hs ++ ph :: post) w = Some w' -> fst w' = mkBar (p_bar (fst w)) l (p_out (fst w)).
  Proof.
    assert (Q : forall hs, (forall h, In h hs -> quiet h) -> forall w w', start_hooks V W hs w = Some w' -> fst w' = fst w).
    { clear. induction hs as [|h r IH]; intros Hh w w' H; cbn [start_hooks] in H; [now injection H as <-|]. destruct (h_start _ _ h w) as [w1|] eqn:E; [|discriminate H].
      rewrite (IH ltac:(intros z Hz; apply Hh; now right) _ _ H). exact (proj1 (Hh h (or_introl eq_refl)) _ _ E). }
    induction hs as [|h r IH]; intros Hh w w' H; cbn [app start_hooks] in H.
    - unfold ph, progress_hook in H. cbn [h_start] in H. now rewrite (Q post Hh _ _ H).
    - destruct (h_start _ _ h w) as [w1|] eqn:E; [|discriminate H]. rewrite (IH ltac:(intros z Hz; apply Hh; now right) _ _ H). rewrite (proj1 (Hh h (or_introl eq_refl)) _ _ E). reflexivity.
  Qed.

  (** A new trainer and a new hook: the printed text is one complete line per epoch, and nothing else. *)
  Theorem C74_training : forall fuel s s' fin tr, ep s = 0 -> up s = 0 -> p_bar (pb s) = None ->
    TrainerModel.train V W Batch Score new_iterator train_step aggregate start hooks fuel s = Some (s', fin, tr) ->
    p_out (pb s') = (p_out (pb s) ++ lines elapsed l (ep s'))%string /\ up s' = ep s' * l.
  Proof.
    intros fuel s s' fin tr He Hu Hb H. unfold TrainerModel.train in H. destruct (start (t_world V W s)) as [w0|] eqn:E0; [|discriminate H]. assert (F0 := proj2 (proj2 Hd) _ _ E0).
    destruct (start_hooks V W hooks w0) as [w1|] eqn:E1; [|discriminate H]. assert (F1 := start_bar pre (fun h K => proj1 (Hq h K)) _ _ E1). rewrite F0 in F1.
    destruct (emit_hooks V W false hooks "update" _) as [[[s2 stop2] ev2]|] eqn:E2; [|discriminate H]. destruct (emit_bar pre Hq _ _ _ _ E2) as [bb [I1 [I2 [I3 I4]]]]. cbn [t_world t_epoch t_update] in I1, I2, I3.
    rewrite He, Hu, F1 in I1. unfold call_bar in I1. cbn [p_length p_bar p_out] in I1. assert (Z : (l =? 0) = false) by (apply Nat.eqb_neq; lia). rewrite Z, Hb in I1. cbn [Nat.eqb orb negb] in I1. rewrite Nat.mod_0_l in I1 by lia. cbn [Nat.eqb] in I1. injection I1 as B2 B3. subst bb. rewrite I4 in H.
    destruct (emit_hooks V W false hooks "epoch" s2) as [[[s3 stop3] ev3]|] eqn:E3; [|discriminate H]. destruct (emit_epoch _ _ _ _ E3) as [J1 [J2 J3]].
    assert (S3 : SA (p_out (pb s)) (ep s3) 0 (pb s3)).
    { rewrite J1, J2, I2, He, <- B2. split; [reflexivity|]. cbn [Nat.eqb p_out p_bar lines]. split; [now rewrite append_empty|now left]. }
    assert (U3 : up s3 = ep s3 * l) by (rewrite J3, J2, I2, I3, He, Hu; reflexivity).
    assert (G : forall s'', up s'' = ep s'' * l /\ SA (p_out (pb s)) (ep s'') 0 (pb s'') -> p_out (pb s'') = (p_out (pb s) ++ lines elapsed l (ep s''))%string /\ up s'' = ep s'' * l).
    { intros s'' [G1 [_ [G2 _]]]. split; [exact G2|exact G1]. }
    destruct stop3; [injection H as <- _ _; apply G; split; [exact U3|exact S3]|].
    destruct (run_epochs V W Batch Score new_iterator train_step aggregate hooks fuel s3) as [[[s4 fin4] ev4]|] eqn:E4; [|discriminate H]. injection H as <- _ _. apply G. exact (epochs_bar _ _ _ _ _ _ E4 U3 S3).
  Qed.

  (** Continuing a finished training (with the same hook): the finished bar raises StopIteration before the first update, so nothing is trained. *)
  Theorem C74_continue_refuted : forall fuel s s' fin tr, up s = ep s * l -> p_bar (pb s) = Some Done ->
    TrainerModel.train V W Batch Score new_iterator train_step aggregate start hooks fuel s = Some (s', fin, tr) ->
    fin = true /\ ep s' = ep s /\ up s' = up s.
  Proof.
    intros fuel s s' fin tr Hu Hb H. unfold TrainerModel.train in H. destruct (start (t_world V W s)) as [w0|] eqn:E0; [|discriminate H]. assert (F0 := proj2 (proj2 Hd) _ _ E0).
    destruct (start_hooks V W hooks w0) as [w1|] eqn:E1; [|discriminate H]. assert (F1 := start_bar pre (fun h K => proj1 (Hq h K)) _ _ E1). rewrite F0 in F1.
    destruct (emit_hooks V W false hooks "update" _) as [[[s2 stop2] ev2]|] eqn:E2; [|discriminate H]. destruct (emit_bar pre Hq _ _ _ _ E2) as [bb [I1 [I2 [I3 I4]]]]. cbn [t_world t_epoch t_update] in I1, I2, I3.
    rewrite Hu, F1 in I1. unfold call_bar in I1. cbn [p_length p_bar p_out] in I1. assert (Z : (l =? 0) = false) by (apply Nat.eqb_neq; lia). rewrite Z, Hb in I1. destruct (negb _) in I1; [discriminate I1|]. rewrite Nat.mod_mul in I1 by lia. cbn [Nat.eqb gen_send] in I1. injection I1 as B2 B3. subst bb. rewrite I4 in H. injection H as <- <- _. auto.
  Qed.
End Training.
Print Assumptions C74_training.
Print Assumptions C74_continue_refuted.

(** Epochs of one batch: no bar is shown. *)
Theorem C74_single_batch_refuted : forall fraction elapsed e out, call_bar fraction elapsed e e (mkBar None 1 out) = Some (mkBar None 1 out, false).
Proof.
  intros fraction elapsed e out. unfold call_bar. cbn [p_length Nat.eqb]. rewrite Nat.div_1_r, Nat.mod_1_r. replace (e + 1 - 1) with e by lia. rewrite Nat.eqb_refl, orb_true_r. reflexivity.
Qed.
Print Assumptions C74_single_batch_refuted.
(** After a stop within epoch e + 1 the next update belongs to epoch e + 2, and the hook raises an AssertionError. *)
Theorem C74_stop_refuted : forall fraction elapsed l e u b, p_length b = l -> e * l < u < S e * l -> call_bar fraction elapsed (S (S e)) (S u) b = None.
Proof.
  intros fraction elapsed l e u b Hl Hu. unfold call_bar. rewrite Hl. destruct (l =? 0); [reflexivity|].
  assert (D : (S u + l - 1) / l = S e) by (symmetry; apply (Nat.div_unique _ _ _ (u - e * l)); lia). rewrite D. change (S (S e) =? 0) with false. cbn [orb].
  assert (N : (S e =? S (S e)) = false) by (apply Nat.eqb_neq; lia). now rewrite N.
Qed.
Print Assumptions C74_stop_refuted.

(** Example: two epochs of three updates, StopAfterEpoch(2); then the same trainer is to train up to epoch 4. *)
Definition example_hooks (n : nat) : list (hook nat (pbar * nat)) :=
  [progress_hook (fun p l n => p * n / l) (fun u => "0:00:0" ++ String (ascii_of_nat (48 + u)) "")%string nat nat "ProgressBar" 3; stop_after_epoch nat (pbar * nat) "stop" n "epoch" 1].
Definition example_train (n : nat) := TrainerModel.train nat (pbar * nat) nat nat (fun w => (w, [1; 2; 3])) (fun w b => Some ((fst w, snd w + b), b)) (fun _ _ => VNone) (fun w => Some w) (example_hooks n) 9.
Example C74_example : exists s1 s2 tr1 tr2,
  example_train 2 (mkState nat (pbar * nat) 0 0 [] [] (mkBar None 0 "", 0)) = Some (s1, true, tr1) /\ t_epoch _ _ s1 = 2 /\ t_update _ _ s1 = 6 /\
  p_out (fst (t_world _ _ s1)) = ("[====1====2====3====4====5====6====7====8====9====0] Took: 0:00:03" ++ newline ++ newline ++ "[====1====2====3====4====5====6====7====8====9====0] Took: 0:00:06" ++ newline ++ newline)%string /\
  p_bar (fst (t_world _ _ s1)) = Some Done /\
  example_train 4 s1 = Some (s2, true, tr2) /\ t_epoch _ _ s2 = 2 /\ t_update _ _ s2 = 6.
Proof. do 4 eexists. split; [vm_compute; reflexivity|]. do 4 (split; [vm_compute; reflexivity|]). split; [vm_compute; reflexivity|]. split; reflexivity. Qed.
Example C74_setting : 2 <= 3 /\ quiet_data nat nat nat (fun w => (w, [1; 2; 3])) (fun w b => Some ((fst w, snd w + b), b)) (fun w => Some w) 3 /\
  example_hooks 2 = [] ++ progress_hook (fun p l n => p * n / l) (fun u => "0:00:0" ++ String (ascii_of_nat (48 + u)) "")%string nat nat "ProgressBar" 3 :: [stop_after_epoch nat (pbar * nat) "stop" 2 "epoch" 1] /\
  forall h, In h ([] ++ [stop_after_epoch nat (pbar * nat) "stop" 2 "epoch" 1]) -> quiet nat nat h /\ stops_after_epochs nat nat h.
Proof.
  split; [lia|]. split; [split; [intros w; split; reflexivity|split; [intros w b w' sc H; injection H as <- _; reflexivity|intros w w' H; injection H as <-; reflexivity]]|]. split; [reflexivity|].
  intros h [<-|[]]. split; [split; [intros w w' H; injection H as <-; reflexivity|intros e u w ls w' v b H; injection H as <- _ _; reflexivity]|now left].
Qed.
