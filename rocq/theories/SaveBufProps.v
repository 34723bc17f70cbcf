(** What extract_and_save writes: C75. *)
From Coq Require Import String List Arith Bool Lia.
From Verif Require Import PyBase PyFacts IteratorsModel ToolsModel ToolsProps SaveBufModel.
Import ListNotations.
Open Scope string_scope.
Open Scope list_scope.
Open Scope nat_scope.

Section Save.
  Variable A : Type.
  Variable zero : A.
  Variable T : string -> nat.
  Notation gives := (gives A T).
  Notation save_first := (save_first A).
  Notation save_next := (save_next A zero).
  Notation save_loop := (save_loop A zero).
  Notation extract_and_save := (extract_and_save A zero).

  (** The array holds the buffer [k] of the given batches, one behind the other. *)
  Definition holds (done : list (buffers A)) (sizes : list nat) (k : string) (w : array A) : Prop :=
    a_T w = T k /\ a_N w = list_sum sizes /\
    forall i b d, nth_error done i = Some b -> b k = Some d ->
      forall t p, p < a_N d -> a_at w t (list_sum (firstn i sizes) + p) = a_at d t p.

  Lemma sum_firstn_le : forall sizes i n, nth_error sizes i = Some n -> list_sum (firstn i sizes) + n <= list_sum sizes.
  Proof.
    induction sizes as [|s sizes IH]; intros [|i] n E; cbn in E; try discriminate.
    - injection E as <-. cbn. lia.
    - cbn [firstn]. specialize (IH i n E). unfold list_sum in *. cbn [fold_right]. lia.
  Qed.
  Lemma Forall2_nth {X Y} (P : X -> Y -> Prop) : forall l l' i x, Forall2 P l l' -> nth_error l i = Some x -> exists y, nth_error l' i = Some y /\ P x y.
  Proof. intros l l' i x H. revert i. induction H; intros [|i] E; cbn in *; try discriminate; [injection E as <-|]; eauto. Qed.
  Lemma Forall2_len {X Y} (P : X -> Y -> Prop) l l' : Forall2 P l l' -> length l = length l'.
  Proof. induction 1; cbn; congruence. Qed.

  Lemma holds_step names done sizes b n k w d : Forall2 (fun b n => gives b names n) done sizes -> In k names -> holds done sizes k w ->
    b k = Some d -> a_N d = n -> a_T d = T k ->
    exists w', assign_columns A (resize A zero (list_sum sizes + n) w) (list_sum sizes) (list_sum sizes + n) d = Some w' /\
      holds (done ++ [b]) (sizes ++ [n]) k w'.
  Proof.
    intros HF Hk [H1 [H2 H3]] Hb Hn Ht.
    destruct (assign_same A (resize A zero (list_sum sizes + n) w) d (list_sum sizes) n) as [w' [E [E1 [E2 E3]]]]; [cbn; congruence | assumption | cbn; lia |].
    exists w'. split; [exact E|]. split; [rewrite E1; exact H1|]. split; [rewrite E2; cbn; rewrite list_sum_app; cbn; lia|].
    intros i b' d' Hi Hd' t p Hp. pose proof (Forall2_len _ _ _ HF) as L. destruct (Nat.lt_ge_cases i (length done)) as [Q|Q].
    - rewrite nth_error_app1 in Hi by assumption. rewrite firstn_app. replace (i - length sizes) with 0 by lia. cbn [firstn]. rewrite app_nil_r.
      destruct (Forall2_nth _ _ _ _ _ HF Hi) as [m [M1 M2]]. pose proof (sum_firstn_le _ _ _ M1) as S. destruct (M2 k Hk) as [d2 [D1 [D2 _]]]. rewrite Hd' in D1. injection D1 as <-.
      rewrite E3. replace (list_sum sizes <=? list_sum (firstn i sizes) + p) with false by (symmetry; apply Nat.leb_gt; lia). cbn [andb resize a_at].
      replace (list_sum (firstn i sizes) + p <? a_N w) with true by (symmetry; apply Nat.ltb_lt; lia). apply (H3 i b' d'); assumption.
    - assert (i = length done) as ->. { assert (i < length (done ++ [b])) by (apply nth_error_Some; congruence). rewrite app_length in *. cbn in *. lia. }
      rewrite nth_error_app2 in Hi by lia. rewrite Nat.sub_diag in Hi. cbn in Hi. injection Hi as <-. rewrite Hb in Hd'. injection Hd' as <-.
      rewrite L, firstn_app, firstn_all, Nat.sub_diag. cbn [firstn]. rewrite app_nil_r. rewrite E3.
      replace (list_sum sizes <=? list_sum sizes + p) with true by (symmetry; apply Nat.leb_le; lia). replace (list_sum sizes + p <? list_sum sizes + n) with true by (symmetry; apply Nat.ltb_lt; lia). cbn [andb]. f_equal. lia.
  Qed.

  Definition all_hold done sizes (names : list string) (ds : datasets A) : Prop :=
    Forall2 (fun k kw => fst kw = k /\ holds done sizes k (snd kw)) names ds.

  Lemma save_next_spec all done sizes b n : Forall2 (fun b n => gives b all n) done sizes -> gives b all n ->
    forall names (first : bool) ds nr, incl names all -> (if first then nr = list_sum sizes else nr = list_sum sizes + n) -> all_hold done sizes names ds ->
    exists ds', save_next b names first ds nr = Some (ds', match names with [] => nr | _ => list_sum sizes + n end) /\
      all_hold (done ++ [b]) (sizes ++ [n]) names ds'.
  Proof.
    intros HF Hg. induction names as [|k names IH]; intros first ds nr Hi Hnr HA.
    - inversion HA; subst. exists []. split; [reflexivity | constructor].
    - inversion HA as [|? [key w] ? ds' [Hk Hh] HA' E1 E2]. subst ds. cbn [fst snd] in Hk, Hh. subst key. cbn [SaveBufModel.save_next].
      destruct (Hg k (Hi k (or_introl eq_refl))) as [d [D1 [D2 D3]]]. rewrite D1.
      replace (if first then nr + a_N d else nr) with (list_sum sizes + n) by (destruct first; lia). cbv zeta.
      replace (list_sum sizes + n <? a_N d) with false by (symmetry; apply Nat.ltb_ge; lia). replace (list_sum sizes + n - a_N d) with (list_sum sizes) by lia.
      destruct (holds_step all done sizes b n k w d HF (Hi k (or_introl eq_refl)) Hh D1 D2 D3) as [w' [W1 W2]]. rewrite W1.
      destruct (IH false ds' (list_sum sizes + n)) as [ds2 [I1 I2]]; [intros z Hz; apply Hi; right; exact Hz | reflexivity | assumption |]. rewrite I1.
      exists ((k, w') :: ds2). split; [destruct names; reflexivity|]. constructor; [split; [reflexivity | exact W2] | exact I2].
  Qed.

  Lemma save_first_spec b n : 0 < n -> forall names (first : bool) ds nr, gives b names n -> (forall k, In k names -> 0 < T k) ->
    NoDup (map fst ds ++ names) ->
    exists ds', save_first b names first ds nr = Some (ds ++ ds', match names with [] => nr | _ => if first then nr + n else nr end) /\
      all_hold [b] [n] names ds'.
  Proof.
    intros Hn. induction names as [|k names IH]; intros first ds nr Hg HT ND.
    - exists []. rewrite app_nil_r. split; [reflexivity | constructor].
    - cbn [SaveBufModel.save_first]. destruct (Hg k (or_introl eq_refl)) as [d [D1 [D2 D3]]]. rewrite D1. cbv zeta. rewrite D2, D3.
      assert (smem k (map fst ds) = false) as ->. { apply smem_false. intro H. apply NoDup_remove_2 in ND. apply ND. apply in_or_app. left. exact H. }
      pose proof (HT k (or_introl eq_refl)). replace (T k =? 0) with false by (symmetry; apply Nat.eqb_neq; lia). replace (n =? 0) with false by (symmetry; apply Nat.eqb_neq; lia). cbn [orb].
      destruct (IH false (ds ++ [(k, d)]) (if first then nr + n else nr)) as [ds' [I1 I2]].
      + intros x Hx. apply Hg. right. exact Hx.
      + intros x Hx. apply HT. right. exact Hx.
      + rewrite map_app. cbn. rewrite <- app_assoc. exact ND.
      + exists ((k, d) :: ds'). rewrite I1. split; [rewrite <- app_assoc; cbn; destruct names; reflexivity|].
        constructor; [|exact I2]. split; [reflexivity|]. cbn [snd]. split; [exact D3|]. split; [cbn; lia|].
        intros [|i] b' d' Hi Hd' t p Hp; [|destruct i; discriminate]. cbn in Hi. injection Hi as <-. rewrite D1 in Hd'. injection Hd' as <-. reflexivity.
  Qed.

  Lemma save_loop_spec names (Hne : names <> []) : forall batches sizes done dsizes ds,
    Forall2 (fun b n => gives b names n) done dsizes -> Forall2 (fun b n => gives b names n) batches sizes ->
    all_hold done dsizes names ds ->
    exists ds', save_loop names batches ds (list_sum dsizes) = Some ds' /\ all_hold (done ++ batches) (dsizes ++ sizes) names ds'.
  Proof.
    induction batches as [|b batches IH]; intros sizes done dsizes ds HD HB HA; inversion HB as [|? n ? sizes' Hg HB']; subst.
    - exists ds. rewrite !app_nil_r. split; [reflexivity | exact HA].
    - cbn [SaveBufModel.save_loop]. assert (negb (0 <? length ds) = false) as ->. { rewrite <- (Forall2_len _ _ _ HA). destruct names; [congruence | reflexivity]. }
      destruct (save_next_spec names done dsizes b n HD Hg names true ds (list_sum dsizes) (incl_refl _) eq_refl HA) as [ds1 [E1 E2]]. cbv iota. rewrite E1.
      destruct (IH sizes' (done ++ [b]) (dsizes ++ [n]) ds1) as [ds2 [F1 F2]]; [apply Forall2_app; [assumption | now repeat constructor] | assumption | assumption |].
      rewrite list_sum_app in F1. cbn [list_sum fold_right] in F1. rewrite Nat.add_0_r in F1. exists ds2. rewrite <- !app_assoc in F2. split; [destruct names; [congruence | exact F1] | exact F2].
  Qed.

  (** ** C75: the file has one dataset for each requested buffer, in order, and it
      holds this buffer's values of all batches, one batch behind the other.  The
      file needs no knowledge of the number of examples. *)
  Theorem C75_saved : forall names batches sizes, NoDup names -> names <> [] -> (forall k, In k names -> 0 < T k) ->
    Forall2 (fun b n => gives b names n) batches sizes -> 0 < hd 0 sizes ->
    exists f, extract_and_save names batches = Some f /\ map fst f = names /\
      forall k w, In (k, w) f -> a_T w = T k /\ a_N w = list_sum sizes /\
        forall i b d, nth_error batches i = Some b -> b k = Some d ->
          forall t p, p < a_N d -> a_at w t (list_sum (firstn i sizes) + p) = a_at d t p.
  Proof.
    intros names batches sizes ND Hne HT HF H0. destruct sizes as [|n sizes]; [cbn in H0; lia|]. inversion HF as [|b ? batches' ? Hg HF']; subst. cbn in H0.
    unfold SaveBufModel.extract_and_save. cbn [SaveBufModel.save_loop length]. cbv iota. change (negb (0 <? 0)) with true. cbv iota.
    destruct (save_first_spec b n H0 names true [] 0 Hg HT ND) as [ds [E1 E2]]. rewrite E1. cbn [app].
    destruct (save_loop_spec names Hne batches' sizes [b] [n] ds) as [f [F1 F2]]; [now repeat constructor | assumption | assumption |].
    exists f. split. { replace (match names with [] => 0 | _ => 0 + n end) with (list_sum [n]) by (destruct names; [congruence | cbn; lia]). exact F1. }
    clear -F2. cbn [app] in F2. unfold all_hold in F2. split.
    - induction F2 as [|k kw ? ? [<- _] _ IH]; [reflexivity | cbn; now rewrite IH].
    - intros k w Hin. assert (H : holds (b :: batches') (n :: sizes) k w); [|exact H]. induction F2 as [|k' kw ? ? [<- H] _ IH]; [destruct Hin|]. destruct Hin as [->|Hin]; [exact H | exact (IH Hin)].
  Qed.

  Lemma position : forall sizes j, j < list_sum sizes -> exists i n p, nth_error sizes i = Some n /\ p < n /\ j = list_sum (firstn i sizes) + p.
  Proof.
    induction sizes as [|s sizes IH]; intros j H; [cbn in H; lia|]. destruct (Nat.lt_ge_cases j s) as [L|L].
    - exists 0, s, j. repeat split; assumption.
    - destruct (IH (j - s)) as [i [n [p [P1 [P2 P3]]]]]; [unfold list_sum in *; cbn [fold_right] in H; lia|]. exists (S i), n, p. split; [exact P1|]. split; [exact P2|]. cbn [firstn]. unfold list_sum in *. cbn [fold_right]. lia.
  Qed.
  Lemma Forall2_nth_r {X Y} (P : X -> Y -> Prop) l l' i y : Forall2 P l l' -> nth_error l' i = Some y -> exists x, nth_error l i = Some x /\ P x y.
  Proof. intros H. revert i. induction H; intros [|i] E; cbn in *; try discriminate; [injection E as <-|]; eauto. Qed.

  (** Everything in the file is what [extract] returns for the same batches. *)
  Theorem C75_like_extract : forall names batches sizes, NoDup names -> names <> [] -> (forall k, In k names -> 0 < T k) ->
    Forall2 (fun b n => gives b names n) batches sizes -> 0 < hd 0 sizes ->
    exists f r, extract_and_save names batches = Some f /\ extract A zero (list_sum sizes) names batches = Some r /\
      map fst f = dkeys r /\
      forall k w, In (k, w) f -> exists v, dget k r = Some v /\ a_T w = a_T v /\ a_N w = a_N v /\
        forall t j, j < a_N w -> a_at w t j = a_at v t j.
  Proof.
    intros names batches sizes ND Hne HT HF H0. assert (batches <> []) as Hb by (inversion HF; subst; [cbn in H0; lia | congruence]).
    destruct (C75_saved names batches sizes ND Hne HT HF H0) as [f [F1 [F2 F3]]].
    destruct (C31_extract_partial A zero (list_sum sizes) T names batches sizes ND Hb Hne HF eq_refl) as [r [R1 [R2 R3]]].
    exists f, r. split; [exact F1|]. split; [exact R1|]. split; [congruence|]. intros k w Hin.
    assert (Hk : In k names) by (rewrite <- F2; apply in_map_iff; exists (k, w); split; [reflexivity | exact Hin]).
    destruct (F3 k w Hin) as [W1 [W2 W3]]. destruct (R3 k Hk) as [v [V0 [V1 [V2 V3]]]].
    exists v. split; [exact V0|]. split; [congruence|]. split; [congruence|]. intros t j Hj. rewrite W2 in Hj.
    destruct (position _ _ Hj) as [i [n [p [P1 [P2 ->]]]]]. destruct (Forall2_nth_r _ _ _ _ _ HF P1) as [b [B1 B2]]. destruct (B2 k Hk) as [d [D1 [D2 _]]].
    rewrite (W3 i b d B1 D1 t p) by lia. symmetry. apply (V3 i b d B1 D1). lia.
  Qed.

  Lemma save_first_nodup b : forall names first ds nr r, save_first b names first ds nr = Some r -> NoDup (map fst ds) -> NoDup (map fst ds ++ names).
  Proof.
    induction names as [|k names IH]; intros first ds nr r E H; [now rewrite app_nil_r|]. cbn [SaveBufModel.save_first] in E. destruct (b k) as [d|]; [|discriminate]. cbv zeta in E.
    destruct (smem k (map fst ds)) eqn:S; [discriminate|]. destruct ((a_T d =? 0) || (a_N d =? 0)); [discriminate|]. apply IH in E.
    - rewrite map_app in E. cbn in E. now rewrite <- app_assoc in E.
    - rewrite map_app. cbn. apply smem_false in S. apply NoDup_Add with (a := k) (l := map fst ds); [|split; assumption]. pose proof (Add_app k (map fst ds) []) as Q. now rewrite app_nil_r in Q.
  Qed.
  (** A buffer that is named twice is refused (where [extract] loses values,
      C31_duplicate_refuted). *)
  Theorem C75_duplicates : forall names batches, batches <> [] -> ~ NoDup names -> extract_and_save names batches = None.
  Proof.
    intros names [|b batches] Hb ND; [congruence|]. unfold SaveBufModel.extract_and_save. cbn [SaveBufModel.save_loop length]. change (negb (0 <? 0)) with true. cbv iota.
    destruct (save_first b names true [] 0) as [[ds nr]|] eqn:E; [|reflexivity]. exfalso. apply ND. exact (save_first_nodup b names true [] 0 _ E (NoDup_nil _)).
  Qed.

  Definition lens (names : list string) (ds : datasets A) (L : string -> option nat) : Prop :=
    Forall2 (fun k kw => L k = Some (a_T (snd kw))) names ds.
  Lemma save_next_len b L : forall names first ds nr ds' nr', save_next b names first ds nr = Some (ds', nr') -> lens names ds L ->
    lens names ds' L /\ forall k, In k names -> exists d, b k = Some d /\ (L k = Some (a_T d) \/ a_T d = 1).
  Proof.
    induction names as [|k names IH]; intros first ds nr ds' nr' E H.
    - inversion H; subst. cbn in E. injection E as <- _. split; [constructor | intros k []].
    - inversion H as [|? [key w] ? ds0 Hw H0]; subst. cbn [SaveBufModel.save_next snd] in *. destruct (b k) as [d|] eqn:Eb; [|discriminate]. cbv zeta in E.
      set (nr1 := if first then nr + a_N d else nr) in *. destruct (nr1 <? a_N d); [discriminate|]. destruct (assign_columns A (resize A zero nr1 w) (nr1 - a_N d) nr1 d) as [w'|] eqn:Ea; [|discriminate].
      destruct (save_next b names false ds0 nr1) as [[ds2 nr2]|] eqn:En; [|discriminate]. injection E as <- _. destruct (IH _ _ _ _ _ En H0) as [I1 I2].
      unfold assign_columns in Ea. cbn [resize a_T a_N] in Ea. destruct (broadcast (a_T d) (a_T w)) as [ft|] eqn:Et; [|discriminate]. destruct (broadcast (a_N d) _) as [fn|]; [|discriminate]. injection Ea as <-.
      split; [constructor; [exact Hw | exact I1]|]. intros x [<-|Hx]; [|exact (I2 x Hx)]. exists d. split; [exact Eb|]. unfold broadcast in Et. destruct (a_T d =? a_T w) eqn:Q; [apply Nat.eqb_eq in Q; left; congruence|]. destruct (a_T d =? 1) eqn:Q1; [apply Nat.eqb_eq in Q1; right; exact Q1 | discriminate].
  Qed.
  Lemma save_first_len b : forall names first ds nr ds' nr', save_first b names first ds nr = Some (ds', nr') ->
    exists ds2, ds' = ds ++ ds2 /\ lens names ds2 (fun k => option_map (@a_T A) (b k)).
  Proof.
    induction names as [|k names IH]; intros first ds nr ds' nr' E; cbn [SaveBufModel.save_first] in E.
    - injection E as <- _. exists []. split; [now rewrite app_nil_r | constructor].
    - destruct (b k) as [d|] eqn:Eb; [|discriminate]. cbv zeta in E. destruct (smem k (map fst ds)); [discriminate|]. destruct ((a_T d =? 0) || (a_N d =? 0)); [discriminate|].
      apply IH in E. destruct E as [ds2 [-> H]]. exists ((k, d) :: ds2). split; [now rewrite <- app_assoc|]. constructor; [now rewrite Eb | exact H].
  Qed.
  Lemma save_loop_len L names : names <> [] -> forall batches ds nr f, save_loop names batches ds nr = Some f -> lens names ds L ->
    forall b k, In b batches -> In k names -> exists d, b k = Some d /\ (L k = Some (a_T d) \/ a_T d = 1).
  Proof.
    intros Hne. induction batches as [|b batches IH]; intros ds nr f E H b' k Hb Hk; [destruct Hb|]. cbn [SaveBufModel.save_loop] in E.
    replace (negb (0 <? length ds)) with false in E by (rewrite <- (Forall2_len _ _ _ H); destruct names; [congruence | reflexivity]). cbv iota in E.
    destruct (save_next b names true ds nr) as [[ds' nr']|] eqn:En; [|discriminate]. destruct (save_next_len b L _ _ _ _ _ _ En H) as [H' Q].
    destruct Hb as [<-|Hb]; [exact (Q k Hk) | exact (IH _ _ _ E H' b' k Hb Hk)].
  Qed.
  (** Whenever a file is written completely, every batch had as many time steps as
      the first one, or a single one: other lengths are an error. *)
  Theorem C75_lengths : forall names b0 batches f, extract_and_save names (b0 :: batches) = Some f ->
    forall b k, In b batches -> In k names ->
      exists d0 d, b0 k = Some d0 /\ b k = Some d /\ (a_T d = a_T d0 \/ a_T d = 1).
  Proof.
    intros names b0 batches f E b k Hb Hk. assert (Hne : names <> []) by (intros ->; destruct Hk).
    unfold SaveBufModel.extract_and_save in E. cbn [SaveBufModel.save_loop length] in E. change (negb (0 <? 0)) with true in E. cbv iota in E.
    destruct (save_first b0 names true [] 0) as [[ds nr]|] eqn:Ef; [|discriminate]. destruct (save_first_len _ _ _ _ _ _ _ Ef) as [ds2 [-> H]]. cbn [app] in E.
    destruct (save_loop_len _ names Hne _ _ _ _ E H b k Hb Hk) as [d [D1 D2]].
    assert (Q : exists d0, b0 k = Some d0). { clear -H Hk. unfold lens in H. induction H as [|x [y w] ? ? Q _ IH]; [destruct Hk|]. destruct Hk as [->|Hk]; [|exact (IH Hk)]. destruct (b0 k); [eauto | discriminate]. }
    destruct Q as [d0 Q]. exists d0, d. split; [exact Q|]. split; [exact D1|]. destruct D2 as [D2|D2]; [|right; exact D2]. rewrite Q in D2. cbn in D2. left. congruence.
  Qed.
End Save.
Print Assumptions C75_saved.
Print Assumptions C75_like_extract.
Print Assumptions C75_duplicates.
Print Assumptions C75_lengths.

(** Two batches of two and one sequences (those of C31_case), the other order of
    the names, a name given twice, and batches of different lengths. *)
Example C75_case : show (extract_and_save nat 0 ["out"; "hid"] [ex_b1; ex_b2]) = Some [("out", [[10; 11; 30]]); ("hid", [[20; 21; 40]])] /\
  show (extract_and_save nat 0 ["hid"; "out"] [ex_b2; ex_b1; ex_b2]) = Some [("hid", [[40; 20; 21; 40]]); ("out", [[30; 10; 11; 30]])] /\
  extract_and_save nat 0 ["out"; "out"] [ex_b1; ex_b2] = None /\
  extract_and_save nat 0 ["out"] [ex_b3; ex_b5] = None.
Proof. repeat split. Qed.
(** A later batch that was cut to one time step is repeated over time: its dataset
    shows values at steps the batch does not have. *)
Theorem C75_one_step_refuted : show (extract_and_save nat 0 ["out"] [ex_b3; ex_b4]) = Some [("out", [[50; 60]; [51; 60]])].
Proof. reflexivity. Qed.
Print Assumptions C75_one_step_refuted.
