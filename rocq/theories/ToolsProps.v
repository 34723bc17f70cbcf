(** Properties of extract, shuffle_data and split: C31, C32. *)
From Coq Require Import String List Arith ZArith QArith Qround Bool Lia Lqa Permutation.
From Verif Require Import PyBase PyFacts IteratorsModel ToolsModel.
Import ListNotations.
Open Scope string_scope.
Open Scope list_scope.
Open Scope nat_scope.

Section Extract.
  Variable A : Type.
  Variable zero : A.
  Variable nr_examples : nat.
  Variable T : string -> nat.
  Notation extract_names := (extract_names A zero nr_examples).
  Notation extract_loop := (extract_loop A zero nr_examples).

  Definition gives (b : buffers A) (names : list string) (n : nat) : Prop :=
    forall name, In name names -> exists d, b name = Some d /\ a_N d = n /\ a_T d = T name.

  Lemma assign_same (target src : array A) lo n : a_T src = a_T target -> a_N src = n -> lo + n <= a_N target ->
    exists r, assign_columns A target lo (lo + n) src = Some r /\ a_T r = a_T target /\ a_N r = a_N target /\
      forall t j, a_at r t j = if (lo <=? j) && (j <? lo + n) then a_at src t (j - lo) else a_at target t j.
  Proof.
    intros HT HN L. unfold assign_columns, broadcast. rewrite !Nat.min_l by lia. rewrite HT, HN. replace (lo + n - lo) with n by lia. rewrite !Nat.eqb_refl.
    eexists. split; [reflexivity|]. split; [reflexivity|]. split; reflexivity.
  Qed.

  Lemma extract_names_spec (b : buffers A) n (fp : bool) : forall names (first : bool) (rd : dict (array A)) nr,
    gives b names n -> NoDup names ->
    (let nr' := if first then nr + n else nr in n <= nr' <= nr_examples) ->
    (if fp then forall k, In k names -> ~ In k (dkeys rd)
     else forall k, In k names -> exists w, dget k rd = Some w /\ a_T w = T k /\ a_N w = nr_examples) ->
    exists rd' nr', extract_names b fp names first rd nr = Some (rd', nr') /\
      nr' = (match names with [] => nr | _ => if first then nr + n else nr end) /\
      dkeys rd' = (if fp then dkeys rd ++ names else dkeys rd) /\
      (forall k, ~ In k names -> dget k rd' = dget k rd) /\
      (forall k d, In k names -> b k = Some d -> exists w, dget k rd' = Some w /\ a_T w = T k /\ a_N w = nr_examples /\
         forall t j, a_at w t j = if (nr' - n <=? j) && (j <? nr') then a_at d t (j - (nr' - n))
                                  else if fp then zero else match dget k rd with Some w0 => a_at w0 t j | None => zero end).
  Proof.
    induction names as [|name names IH]; intros first rd nr Hg Hn Hr Hf.
    - exists rd, nr. cbn. split; [reflexivity|]. split; [reflexivity|]. split; [destruct fp; [now rewrite app_nil_r | reflexivity]|]. split; [reflexivity|]. intros k d [].
    - cbn [ToolsModel.extract_names]. destruct (Hg name (or_introl eq_refl)) as [d [Eb [En Et]]]. rewrite Eb. cbv zeta in Hr. rewrite En in *.
      set (nr' := if first then nr + n else nr) in *. replace (nr' <? n) with false by (symmetry; apply Nat.ltb_ge; lia).
      inversion Hn as [|? ? Hni Hn']; subst.
      set (rd0 := if fp then dset name (zeros A zero (a_T d) nr_examples) rd else rd).
      assert (Q : exists target, dget name rd0 = Some target /\ a_T target = T name /\ a_N target = nr_examples /\
                  forall t j, a_at target t j = if fp then zero else match dget name rd with Some w0 => a_at w0 t j | None => zero end).
      { unfold rd0. destruct fp.
        - rewrite dget_dset_same. eexists. split; [reflexivity|]. cbn. split; [assumption|]. split; reflexivity.
        - destruct (Hf name (or_introl eq_refl)) as [w [E1 [E2 E3]]]. rewrite E1. exists w. split; [reflexivity|]. split; [assumption|]. split; [assumption | reflexivity]. }
      destruct Q as [target [Q1 [Q2 [Q3 Q4]]]]. rewrite Q1.
      destruct (assign_same target d (nr' - a_N d) (a_N d)) as [r [R1 [R2 [R3 R4]]]]; [congruence | reflexivity | lia |]. replace (nr' - a_N d + a_N d) with nr' in * by lia. rewrite R1.
      assert (K0 : dkeys rd0 = if fp then dkeys rd ++ [name] else dkeys rd).
      { unfold rd0. destruct fp; [|reflexivity]. rewrite dkeys_dset. destruct (smem name (dkeys rd)) eqn:S; [|reflexivity]. apply smem_In in S. exfalso. exact (Hf name (or_introl eq_refl) S). }
      assert (K1 : dkeys (dset name r rd0) = if fp then dkeys rd ++ [name] else dkeys rd).
      { rewrite dkeys_dset. destruct (smem name (dkeys rd0)) eqn:S; [assumption|]. apply smem_false in S. apply dget_Some_key in Q1. contradiction. }
      assert (O : forall k, k <> name -> dget k (dset name r rd0) = dget k rd).
      { intros k Hk. rewrite dget_dset_other by congruence. unfold rd0. destruct fp; [|reflexivity]. now rewrite dget_dset_other by congruence. }
      destruct (IH false (dset name r rd0) nr') as [rd' [nr2 [I1 [I2 [I3 [I4 I5]]]]]].
      + intros k Hk. destruct (Hg k (or_intror Hk)) as [d' [? [? ?]]]. exists d'. repeat split; congruence.
      + assumption.
      + cbv zeta. lia.
      + destruct fp.
        * intros k Hk Hin. rewrite K1 in Hin. apply in_app_or in Hin. destruct Hin as [Hin|[<-|[]]]; [exact (Hf k (or_intror Hk) Hin) | contradiction].
        * intros k Hk. rewrite O by (intros ->; contradiction). apply Hf. now right.
      + exists rd', nr2. assert (E2 : nr2 = nr') by (destruct names; exact I2). clear I2. rewrite E2 in *. clear E2 nr2. split; [assumption|]. split; [reflexivity|]. split.
        { rewrite I3, K1. destruct fp; [now rewrite <- app_assoc | reflexivity]. }
        split.
        { intros k Hk. rewrite I4 by (intros ?; apply Hk; now right). apply O. intros ->. apply Hk. now left. }
        intros k d' [<-|Hk] Ed.
        * rewrite Eb in Ed. injection Ed as <-. rewrite I4 by assumption. rewrite dget_dset_same. exists r. split; [reflexivity|]. split; [congruence|]. split; [congruence|].
          intros t j. rewrite R4. now rewrite Q4.
        * destruct (I5 k d' Hk Ed) as [w [W1 [W2 [W3 W4]]]]. exists w. split; [assumption|]. split; [assumption|]. split; [assumption|]. intros t j. rewrite W4. rewrite O by (intros ->; contradiction). reflexivity.
  Qed.

  Lemma extract_loop_spec names : NoDup names -> names <> [] -> forall batches sizes (rd : dict (array A)) nr,
    Forall2 (fun b n => gives b names n) batches sizes -> nr + list_sum sizes = nr_examples ->
    dkeys rd = names ->
    (forall k, In k names -> exists w, dget k rd = Some w /\ a_T w = T k /\ a_N w = nr_examples) ->
    exists r, extract_loop names batches rd nr = Some r /\ dkeys r = names /\
      forall k, In k names -> exists w w0, dget k r = Some w /\ dget k rd = Some w0 /\ a_T w = T k /\ a_N w = nr_examples /\
        (forall t j, j < nr -> a_at w t j = a_at w0 t j) /\
        (forall i b d, nth_error batches i = Some b -> b k = Some d -> forall t p, p < a_N d ->
           a_at w t (nr + list_sum (firstn i sizes) + p) = a_at d t p).
  Proof.
    intros Hn Hne. induction batches as [|b batches IH]; intros sizes rd nr HF Hs Hk Hw.
    - exists rd. split; [reflexivity|]. split; [assumption|]. intros k Hin. destruct (Hw k Hin) as [w [W1 [W2 W3]]]. exists w, w. repeat (split; [assumption|]). split; [reflexivity|]. intros [|i] ? ?; discriminate.
    - destruct sizes as [|n sizes']; [inversion HF|]. assert (Hb : gives b names n) by (inversion HF; assumption). assert (HF' : Forall2 (fun b n => gives b names n) batches sizes') by (inversion HF; assumption). clear HF. rewrite <- Hk in *. cbn [ToolsModel.extract_loop]. cbn [list_sum fold_right] in *. fold (list_sum sizes') in *.
      assert (F : negb (length rd =? length (dkeys rd)) = false) by (unfold dkeys; rewrite map_length, Nat.eqb_refl; reflexivity). rewrite F.
      destruct (extract_names_spec b n false (dkeys rd) true rd nr Hb Hn ltac:(cbv zeta iota; unfold list_sum in *; lia) Hw) as [rd' [nr' [E1 [E2 [E3 [E4 E5]]]]]].
      rewrite E1. assert (E2' : nr' = nr + n) by (rewrite E2; destruct (dkeys rd); [congruence | reflexivity]). clear E2. rewrite E2' in *. clear E2' nr'.
      destruct (IH sizes' rd' (nr + n) HF' ltac:(lia) E3) as [r [R1 [R2 R3]]].
      { intros k Hin. destruct (Hb k Hin) as [d [D1 _]]. destruct (E5 k d Hin D1) as [w [W1 [W2 [W3 _]]]]. eauto. }
      exists r. split; [assumption|]. split; [assumption|]. intros k Hin. destruct (R3 k Hin) as [w [w1 [W1 [W2 [W3 [W4 [W5 W6]]]]]]].
      destruct (Hw k Hin) as [w0 [V1 [V2 V3]]]. exists w, w0. split; [assumption|]. split; [assumption|]. split; [assumption|]. split; [assumption|].
      destruct (Hb k Hin) as [d [D1 [D2 D3]]]. destruct (E5 k d Hin D1) as [w' [U1 [U2 [U3 U4]]]]. rewrite W2 in U1. injection U1 as <-. rewrite V1 in U4. split.
      + intros t j Hj. rewrite W5 by lia. rewrite U4. replace (nr + n - n <=? j) with false by (symmetry; apply Nat.leb_gt; lia). reflexivity.
      + intros [|i] b' d' Hi Hd' t p Hp.
        * injection Hi as <-. rewrite D1 in Hd'. injection Hd' as <-. cbn [firstn list_sum fold_right]. rewrite W5 by lia. rewrite U4.
          replace (nr + n - n <=? nr + 0 + p) with true by (symmetry; apply Nat.leb_le; lia). replace (nr + 0 + p <? nr + n) with true by (symmetry; apply Nat.ltb_lt; lia). cbn [andb]. f_equal. lia.
        * cbn [firstn list_sum fold_right]. fold (list_sum (firstn i sizes')). rewrite <- (W6 i b' d' Hi Hd' t p Hp). f_equal. lia.
  Qed.

  (** ** C31: every requested buffer of every batch is at its place. *)
  Theorem C31_extract_partial : forall names batches sizes, NoDup names -> batches <> [] -> names <> [] ->
    Forall2 (fun b n => gives b names n) batches sizes -> list_sum sizes = nr_examples ->
    exists r, extract A zero nr_examples names batches = Some r /\ dkeys r = names /\
      forall k, In k names -> exists w, dget k r = Some w /\ a_T w = T k /\ a_N w = nr_examples /\
        forall i b d, nth_error batches i = Some b -> b k = Some d ->
          forall t p, p < a_N d -> a_at w t (list_sum (firstn i sizes) + p) = a_at d t p.
  Proof.
    intros names batches sizes Hn Hb Hne HF Hs. destruct batches as [|b batches]; [congruence|]. destruct sizes as [|n sizes']; [inversion HF|]. assert (Hg : gives b names n) by (inversion HF; assumption). assert (HF' : Forall2 (fun b n => gives b names n) batches sizes') by (inversion HF; assumption). clear HF.
    unfold extract. cbn [ToolsModel.extract_loop]. cbn [list_sum fold_right] in *. fold (list_sum sizes') in *.
    assert (F : negb (@length (string * array A) [] =? length names) = true) by (destruct names; [congruence | reflexivity]). rewrite F.
    destruct (extract_names_spec b n true names true [] 0 Hg Hn ltac:(cbv zeta iota; unfold list_sum in *; lia) ltac:(intros k Hk [])) as [rd' [nr' [E1 [E2 [E3 [E4 E5]]]]]].
    rewrite E1. assert (E2' : nr' = n) by (rewrite E2; destruct names; [congruence | reflexivity]). clear E2. rewrite E2' in *. clear E2' nr'. cbn [dkeys map app] in E3.
    destruct (extract_loop_spec names Hn Hne batches sizes' rd' n HF' ltac:(lia) E3) as [r [R1 [R2 R3]]].
    { intros k Hin. destruct (Hg k Hin) as [d [D1 _]]. destruct (E5 k d Hin D1) as [w [W1 [W2 [W3 _]]]]. eauto. }
    exists r. split; [assumption|]. split; [assumption|]. intros k Hin. destruct (R3 k Hin) as [w [w1 [W1 [W2 [W3 [W4 [W5 W6]]]]]]].
    exists w. split; [assumption|]. split; [assumption|]. split; [assumption|].
    destruct (Hg k Hin) as [d [D1 [D2 D3]]]. destruct (E5 k d Hin D1) as [w' [U1 [U2 [U3 U4]]]]. rewrite W2 in U1. injection U1 as <-.
    intros [|i] b' d' Hi Hd' t p Hp.
    - injection Hi as <-. rewrite D1 in Hd'. injection Hd' as <-. cbn [firstn list_sum fold_right]. rewrite W5 by lia. rewrite U4.
      replace (n - n <=? 0 + p) with true by (symmetry; apply Nat.leb_le; lia). replace (0 + p <? n) with true by (symmetry; apply Nat.ltb_lt; lia). cbn [andb]. f_equal. lia.
    - cbn [firstn list_sum fold_right]. fold (list_sum (firstn i sizes')). rewrite <- (W6 i b' d' Hi Hd' t p Hp). f_equal.
  Qed.
End Extract.
Print Assumptions C31_extract_partial.

(** Two batches of two and one sequences. *)
Definition ex_b1 : buffers nat := fun k => if String.eqb k "out" then Some (mkArray 1 2 (fun _ j => 10 + j)) else if String.eqb k "hid" then Some (mkArray 1 2 (fun _ j => 20 + j)) else None.
Definition ex_b2 : buffers nat := fun k => if String.eqb k "out" then Some (mkArray 1 1 (fun _ j => 30 + j)) else if String.eqb k "hid" then Some (mkArray 1 1 (fun _ j => 40 + j)) else None.
Definition show (r : option (dict (array nat))) : option (list (string * list (list nat))) :=
  option_map (map (fun kv => (fst kv, map (fun t => map (a_at (snd kv) t) (seq 0 (a_N (snd kv)))) (seq 0 (a_T (snd kv)))))) r.
Example C31_case : show (extract nat 0 3 ["out"; "hid"] [ex_b1; ex_b2]) = Some [("out", [[10; 11; 30]]); ("hid", [[20; 21; 40]])].
Proof. reflexivity. Qed.
(** A buffer requested twice: the values of the first batch are lost. *)
Theorem C31_duplicate_refuted : show (extract nat 0 3 ["out"; "out"] [ex_b1; ex_b2]) = Some [("out", [[0; 0; 30]])].
Proof. reflexivity. Qed.
(** Batches that were cut to different lengths: a longer second batch is an
    error, one of a single step is repeated over time. *)
Definition ex_b3 : buffers nat := fun _ => Some (mkArray 2 1 (fun t _ => 50 + t)).
Definition ex_b4 : buffers nat := fun _ => Some (mkArray 1 1 (fun t _ => 60 + t)).
Definition ex_b5 : buffers nat := fun _ => Some (mkArray 3 1 (fun t _ => 70 + t)).
Theorem C31_lengths_refuted :
  extract nat 0 2 ["out"] [ex_b3; ex_b5] = None /\
  show (extract nat 0 2 ["out"] [ex_b3; ex_b4]) = Some [("out", [[50; 60]; [51; 60]])].
Proof. split; reflexivity. Qed.
Print Assumptions C31_duplicate_refuted.
Print Assumptions C31_lengths_refuted.

(** * C32 *)
Section Shuffle.
  Variable A : Type.

  Lemma map_opt_Forall2 {X Y} (f : X -> option Y) (P : X -> Y -> Prop) l :
    (forall x, In x l -> exists y, f x = Some y /\ P x y) -> exists r, map_opt f l = Some r /\ Forall2 P l r.
  Proof.
    induction l as [|x l IH]; intros H.
    - exists []. split; [reflexivity | constructor].
    - destruct (H x (or_introl eq_refl)) as [y [E Hy]]. destruct IH as [r [Er Hr]]; [intros z Hz; apply H; now right|].
      exists (y :: r). cbn [map_opt]. rewrite E, Er. split; [reflexivity | now constructor].
  Qed.

  (** One permutation for all arrays, whatever rnd.shuffle does; missing arrays
      stay missing. *)
  Theorem C32_shuffle : forall shuffle a0 args n, (forall l, Permutation (shuffle l) l) ->
    (forall a, In (Some a) (Some a0 :: args) -> a_N a = n) ->
    exists idxs rs, Permutation idxs (seq 0 n) /\ shuffle_data A shuffle (Some a0 :: args) = Some rs /\
      Forall2 (fun a r => match a, r with
                          | None, None => True
                          | Some a, Some r => a_T r = a_T a /\ a_N r = n /\
                              forall t j, j < n -> exists i, nth_error idxs j = Some i /\ a_at r t j = a_at a t i
                          | _, _ => False
                          end) (Some a0 :: args) rs.
  Proof.
    intros shuffle a0 args n Hs Hn. exists (shuffle (seq 0 n)). assert (E0 : a_N a0 = n) by (apply Hn; now left).
    unfold shuffle_data. rewrite E0.
    destruct (map_opt_Forall2 (fun a => match a with None => Some None | Some a => match take A (shuffle (seq 0 n)) a with Some b => Some (Some b) | None => None end end)
      (fun a r => match a, r with
                          | None, None => True
                          | Some a, Some r => a_T r = a_T a /\ a_N r = n /\
                              forall t j, j < n -> exists i, nth_error (shuffle (seq 0 n)) j = Some i /\ a_at r t j = a_at a t i
                          | _, _ => False
                          end) (Some a0 :: args)) as [rs [R1 R2]].
    - intros [a|] Hin.
      + unfold take. replace (forallb (fun i => i <? a_N a) (shuffle (seq 0 n))) with true.
        * eexists. split; [reflexivity|]. cbn [a_T a_N a_at]. split; [reflexivity|]. assert (L : length (shuffle (seq 0 n)) = n) by (rewrite (Permutation_length (Hs _)); apply seq_length). split; [assumption|].
          intros t j Hj. exists (nth j (shuffle (seq 0 n)) 0). split; [apply nth_error_nth'; lia | reflexivity].
        * symmetry. apply forallb_forall. intros i Hi. apply (Permutation_in _ (Hs _)) in Hi. apply in_seq in Hi. apply Nat.ltb_lt. rewrite (Hn a Hin). lia.
      + exists None. split; [reflexivity | exact I].
    - exists rs. split; [apply Hs|]. split; assumption.
  Qed.
End Shuffle.
Print Assumptions C32_shuffle.
Definition ex_x : array nat := mkArray 1 3 (fun _ j => j).
Definition ex_y : array nat := mkArray 2 3 (fun t j => 10 * t + j).
Definition show_args (r : list (option (array nat))) := map (option_map (fun a => map (fun t => map (a_at a t) (seq 0 (a_N a))) (seq 0 (a_T a)))) r.
Example C32_shuffle_case : option_map show_args (shuffle_data nat (@rev nat) [Some ex_x; None; Some ex_y]) = Some [Some [[2; 1; 0]]; None; Some [[2; 1; 0]; [12; 11; 10]]].
Proof. reflexivity. Qed.

Section Split.
  Variable A : Type.

  Lemma round_half_even_spec q : (inject_Z (round_half_even q) - (1 # 2) <= q)%Q /\ (q <= inject_Z (round_half_even q) + (1 # 2))%Q.
  Proof.
    unfold round_half_even. assert (F1 := Qfloor_le q). assert (F2 := Qlt_floor q). rewrite inject_Z_plus in F2.
    destruct ((q - inject_Z (Qfloor q)) ?= (1 # 2))%Q eqn:C.
    - apply Qeq_alt in C. destruct (Z.even (Qfloor q)); [|rewrite inject_Z_plus]; change (inject_Z 1) with 1%Q in *; split; lra.
    - apply Qlt_alt in C. split; lra.
    - apply Qgt_alt in C. rewrite inject_Z_plus. change (inject_Z 1) with 1%Q in *. split; lra.
  Qed.
  Lemma round_half_even_comp p q : (p == q)%Q -> round_half_even p = round_half_even q.
  Proof. intros E. unfold round_half_even. rewrite (Qfloor_comp _ _ E). assert (E' : (p - inject_Z (Qfloor q) == q - inject_Z (Qfloor q))%Q) by lra. rewrite E'. reflexivity. Qed.
  Lemma round_half_even_mono p q : (p <= q)%Q -> (round_half_even p <= round_half_even q)%Z.
  Proof.
    intros H. destruct (Z.le_gt_cases (round_half_even p) (round_half_even q)) as [L|L]; [assumption|].
    destruct (round_half_even_spec p) as [P1 _]. destruct (round_half_even_spec q) as [_ Q2].
    assert (K : (inject_Z (round_half_even q) + 1 <= inject_Z (round_half_even p))%Q) by (change 1%Q with (inject_Z 1); rewrite <- inject_Z_plus; rewrite <- Zle_Qle; lia).
    rewrite (round_half_even_comp p q); [lia|]. lra.
  Qed.
  Lemma round_half_even_int z : round_half_even (inject_Z z) = z.
  Proof. unfold round_half_even. rewrite Qfloor_Z. setoid_replace (inject_Z z - inject_Z z)%Q with 0%Q by lra. reflexivity. Qed.

  (** [cumsum] of normalised non-negative ratios: non-decreasing from 0 to 1. *)
  Lemma cumsum_length acc l : length (cumsum acc l) = length l.
  Proof. revert acc. induction l; intros acc; cbn; [reflexivity | now rewrite IHl]. Qed.
  Lemma cumsum_nth l : forall acc i, i < length l -> exists c x, nth_error (cumsum acc l) i = Some c /\ nth_error l i = Some x /\
    (c == match i with O => acc | S i' => nth i' (cumsum acc l) 0%Q end + x)%Q.
  Proof.
    induction l as [|y l IH]; intros acc i Hi; [cbn in Hi; lia|]. destruct i as [|i].
    - exists (acc + y)%Q, y. cbn. split; [reflexivity|]. split; [reflexivity|]. reflexivity.
    - destruct (IH (acc + y)%Q i ltac:(cbn in Hi; lia)) as [c [x [E1 [E2 E3]]]]. exists c, x. cbn [cumsum nth_error]. split; [assumption|]. split; [assumption|]. destruct i; exact E3.
  Qed.
  Lemma cumsum_last l : forall acc, l <> [] -> (last (cumsum acc l) 0 == acc + qsum l)%Q.
  Proof.
    induction l as [|y l IH]; intros acc H; [congruence|]. destruct l as [|z l].
    - cbn. lra.
    - change (last (cumsum acc (y :: z :: l)) 0%Q) with (last (cumsum (acc + y) (z :: l)) 0%Q). rewrite IH by discriminate. cbn. lra.
  Qed.
  Lemma qsum_div l s : (qsum (map (fun r => r / s) l) == qsum l / s)%Q.
  Proof. induction l as [|x l IH]; cbn. - unfold Qdiv. lra. - fold (qsum (map (fun r => (r / s)%Q) l)). fold (qsum l). rewrite IH. unfold Qdiv. lra. Qed.

  Lemma nth_error_last {X} (l : list X) d : l <> [] -> nth_error l (length l - 1) = Some (last l d).
  Proof.
    destruct l as [|z l]; [congruence|]. intros _. revert z. induction l as [|x l IH]; intros z; [reflexivity|].
    specialize (IH x). cbn [length] in *. replace (S (S (length l)) - 1) with (S (S (length l) - 1)) by lia. exact IH.
  Qed.
  Lemma pairs_nth {X} (l : list X) i p : nth_error (pairs l) i = Some p <-> nth_error l i = Some (fst p) /\ nth_error l (S i) = Some (snd p).
  Proof.
    revert i. induction l as [|x l IH]; intros i; [destruct i; cbn; intuition discriminate|]. destruct l as [|y l].
    - destruct i; cbn; [intuition discriminate|]. destruct i; cbn; intuition discriminate.
    - destruct i as [|i].
      + cbn. destruct p as [a b]. cbn. intuition congruence.
      + change (nth_error (pairs (y :: l)) i = Some p <-> nth_error (y :: l) i = Some (fst p) /\ nth_error (y :: l) (S i) = Some (snd p)). apply IH.
  Qed.
  Lemma pairs_length {X} (l : list X) : length (pairs l) = length l - 1.
  Proof. induction l as [|x [|y l] IH]; [reflexivity | reflexivity |]. change (S (length (pairs (y :: l))) = S (length (y :: l)) - 1). rewrite IH. cbn. lia. Qed.

  Section Ratios.
    Variable ratios : list Q.
    Hypothesis nonneg : forall r, In r ratios -> (0 <= r)%Q.
    Hypothesis pos : (0 < qsum ratios)%Q.
    Variable n : nat.
    Notation s := (qsum ratios).
    Notation idx := (split_idxs ratios n).

    Lemma idx_length : length idx = S (length ratios).
    Proof. unfold split_idxs. cbn [length]. now rewrite map_length, cumsum_length, map_length. Qed.
    Lemma idx_first : nth_error idx 0 = Some 0%Z.
    Proof. reflexivity. Qed.
    Lemma idx_last : last idx 0%Z = Z.of_nat n.
    Proof.
      unfold split_idxs. assert (Hne : ratios <> []) by (intros E; rewrite E in pos; cbn in pos; lra).
      set (cs := cumsum 0 (map (fun r => (r / s)%Q) ratios)). assert (L : (last cs 0 == 1)%Q).
      { unfold cs. rewrite cumsum_last by (destruct ratios; [congruence | discriminate]). rewrite qsum_div. field. lra. }
      assert (Hcs : cs <> []) by (unfold cs; destruct ratios; [congruence | discriminate]).
      transitivity (round_half_even (last cs 0%Q * inject_Z (Z.of_nat n))).
      - destruct cs as [|c cs']; [congruence|]. clear. revert c. induction cs' as [|d cs' IH]; intros c; [reflexivity|].
        change (last (0%Z :: map (fun c0 : Q => round_half_even (c0 * inject_Z (Z.of_nat n))) (d :: cs')) 0%Z = round_half_even (last (d :: cs') 0%Q * inject_Z (Z.of_nat n))). apply IH.
      - rewrite (round_half_even_comp _ (inject_Z (Z.of_nat n))) by (rewrite L; lra). apply round_half_even_int.
    Qed.
    (** Neighbouring indices: ordered, and about a ratio apart. *)
    Lemma idx_step i a b : nth_error idx i = Some a -> nth_error idx (S i) = Some b ->
      (a <= b)%Z /\ exists r, nth_error ratios i = Some r /\ (inject_Z (b - a) - 1 <= r / s * inject_Z (Z.of_nat n) <= inject_Z (b - a) + 1)%Q.
    Proof.
      unfold split_idxs. set (cs := cumsum 0 (map (fun r => (r / s)%Q) ratios)). intros Ha Hb.
      assert (Hi : i < length ratios).
      { assert (S i < length (0%Z :: map (fun c => round_half_even (c * inject_Z (Z.of_nat n))) cs)) by (apply nth_error_Some; congruence). cbn [length] in H. unfold cs in H. rewrite map_length, cumsum_length, map_length in H. lia. }
      destruct (cumsum_nth (map (fun r => (r / s)%Q) ratios) 0 i ltac:(now rewrite map_length)) as [c [x [E1 [E2 E3]]]]. fold cs in E1, E3.
      rewrite nth_error_map in E2. destruct (nth_error ratios i) as [r|] eqn:Er; [|discriminate]. injection E2 as <-.
      assert (Hr : (0 <= r / s)%Q) by (apply Qle_shift_div_l; [assumption|]; assert (0 <= r)%Q by (apply nonneg; eapply nth_error_In; eassumption); lra).
      cbn [nth_error] in Hb. rewrite nth_error_map, E1 in Hb. injection Hb as <-.
      set (N := inject_Z (Z.of_nat n)). assert (HN : (0 <= N)%Q) by (unfold N; change 0%Q with (inject_Z 0); rewrite <- Zle_Qle; lia).
      assert (Hrn : (0 <= r / s * N)%Q) by (now apply Qmult_le_0_compat).
      set (prev := match i with 0 => 0%Q | S i' => nth i' cs 0%Q end) in *.
      assert (Ea : a = round_half_even (prev * N)).
      { unfold prev. destruct i as [|i'].
        - cbn [nth_error] in Ha. injection Ha as <-. rewrite (round_half_even_comp _ (inject_Z 0)) by (change (inject_Z 0) with 0%Q; lra). reflexivity.
        - cbn [nth_error] in Ha. rewrite nth_error_map in Ha. destruct (nth_error cs i') as [c'|] eqn:Ec; [|discriminate]. injection Ha as <-. now rewrite (nth_error_nth _ _ 0%Q Ec). }
      assert (Ec : (c * N == prev * N + r / s * N)%Q) by (rewrite E3; lra).
      split.
      - rewrite Ea. apply round_half_even_mono. lra.
      - exists r. split; [reflexivity|]. destruct (round_half_even_spec (prev * N)) as [A1 A2]. destruct (round_half_even_spec (c * N)) as [B1 B2].
        rewrite <- Ea in A1, A2. unfold Zminus. rewrite inject_Z_plus, inject_Z_opp. fold N. split; lra.
    Qed.
    Lemma idx_mono : forall k i a b, nth_error idx i = Some a -> nth_error idx (i + k) = Some b -> (a <= b)%Z.
    Proof.
      induction k as [|k IH]; intros i a b Ha Hb.
      - rewrite Nat.add_0_r in Hb. rewrite Ha in Hb. injection Hb as ->. lia.
      - replace (i + S k) with (S (i + k)) in Hb by lia. destruct (nth_error idx (i + k)) as [c|] eqn:C.
        + specialize (IH _ _ _ Ha C). destruct (idx_step _ _ _ C Hb) as [? _]. lia.
        + apply nth_error_None in C. assert (S (i + k) < length idx) by (apply nth_error_Some; congruence). lia.
    Qed.
    Lemma idx_range i a : nth_error idx i = Some a -> (0 <= a <= Z.of_nat n)%Z.
    Proof.
      intros Ha. split; [exact (idx_mono i 0 0%Z a idx_first Ha)|]. rewrite <- idx_last.
      assert (Hi : i < length idx) by (apply nth_error_Some; congruence). apply (idx_mono (length idx - 1 - i) i a); [assumption|].
      replace (i + (length idx - 1 - i)) with (length idx - 1) by lia. apply nth_error_last. discriminate.
    Qed.
    (** Every position is in exactly one part. *)
    Lemma idx_cover j : j < n -> exists i a b, nth_error idx i = Some a /\ nth_error idx (S i) = Some b /\ (a <= Z.of_nat j < b)%Z.
    Proof.
      intros Hj. assert (G : forall k, k < length idx -> (exists b, nth_error idx k = Some b /\ (Z.of_nat j < b)%Z) ->
        exists i a b, nth_error idx i = Some a /\ nth_error idx (S i) = Some b /\ (a <= Z.of_nat j < b)%Z).
      { induction k as [|k IH]; intros Hk [b [Eb Lb]].
        - rewrite idx_first in Eb. injection Eb as <-. lia.
        - destruct (nth_error idx k) as [a|] eqn:Ea; [|apply nth_error_None in Ea; lia].
          destruct (Z.le_gt_cases a (Z.of_nat j)) as [L|L]; [exists k, a, b; repeat split; assumption|]. apply IH; [lia|]. exists a. split; [reflexivity | assumption]. }
      apply (G (length idx - 1)); [rewrite idx_length; lia|]. exists (Z.of_nat n). split; [|lia]. rewrite <- idx_last.
      apply nth_error_last. discriminate.
    Qed.
    Lemma idx_unique j i a b i' a' b' : nth_error idx i = Some a -> nth_error idx (S i) = Some b -> (a <= j < b)%Z ->
      nth_error idx i' = Some a' -> nth_error idx (S i') = Some b' -> (a' <= j < b')%Z -> i = i'.
    Proof.
      intros Ha Hb H Ha' Hb' H'. destruct (Nat.lt_trichotomy i i') as [L|[E|L]]; [|assumption|].
      - assert (b <= a')%Z by (apply (idx_mono (i' - S i) (S i)); [assumption | replace (S i + (i' - S i)) with i' by lia; assumption]). lia.
      - assert (b' <= a)%Z by (apply (idx_mono (i - S i') (S i')); [assumption | replace (S i' + (i - S i')) with i by lia; assumption]). lia.
    Qed.
  End Ratios.

  (** There are index ranges, the same for all arrays: part [i] of every array
      consists of its sequences start..stop-1; every sequence is in exactly one
      range; and the size of a range differs from its exact share by at most 1. *)
  Theorem C32_split : forall ratios a0 args n, (forall r, In r ratios -> (0 <= r)%Q) -> (0 < qsum ratios)%Q ->
    (forall a, In (Some a) (Some a0 :: args) -> a_N a = n) ->
    exists parts bounds, split A ratios (Some a0 :: args) = Some parts /\
      length parts = length ratios /\ length bounds = length ratios /\
      (forall i start stop part, nth_error bounds i = Some (start, stop) -> nth_error parts i = Some part ->
         Forall2 (fun a r => match a, r with
                             | None, None => True
                             | Some a, Some r => a_T r = a_T a /\ a_N r = stop - start /\
                                 forall t j, start + j < stop -> a_at r t j = a_at a t (start + j)
                             | _, _ => False
                             end) (Some a0 :: args) part) /\
      (forall j, j < n -> exists! i, exists start stop, nth_error bounds i = Some (start, stop) /\ start <= j < stop) /\
      (forall i start stop, nth_error bounds i = Some (start, stop) -> start <= stop <= n /\
         exists r, nth_error ratios i = Some r /\
           (inject_Z (Z.of_nat (stop - start)) - 1 <= r / qsum ratios * inject_Z (Z.of_nat n) <= inject_Z (Z.of_nat (stop - start)) + 1)%Q).
  Proof.
    intros ratios a0 args n Hnn Hpos Hn. assert (E0 : a_N a0 = n) by (apply Hn; now left).
    unfold split. rewrite E0. set (idx := split_idxs ratios n).
    exists (map (fun p => map (option_map (columns A (Z.to_nat (fst p)) (Z.to_nat (snd p)))) (Some a0 :: args)) (pairs idx)),
           (map (fun p => (Z.to_nat (fst p), Z.to_nat (snd p))) (pairs idx)).
    split; [reflexivity|]. assert (L : length (pairs idx) = length ratios) by (rewrite pairs_length; unfold idx; rewrite idx_length; lia).
    rewrite !map_length. split; [assumption|]. split; [assumption|].
    assert (B : forall i start stop, nth_error (map (fun p => (Z.to_nat (fst p), Z.to_nat (snd p))) (pairs idx)) i = Some (start, stop) <->
                nth_error idx i = Some (Z.of_nat start) /\ nth_error idx (S i) = Some (Z.of_nat stop)).
    { intros i start stop. rewrite nth_error_map. split.
      - destruct (nth_error (pairs idx) i) as [[x y]|] eqn:E; [|discriminate]. intros [= <- <-]. apply pairs_nth in E. cbn [fst snd] in *. destruct E as [E1 E2].
        assert (R1 := idx_range ratios Hnn Hpos n i x E1). assert (R2 := idx_range ratios Hnn Hpos n (S i) y E2). rewrite !Z2Nat.id by lia. now split.
      - intros [E1 E2]. rewrite (proj2 (pairs_nth idx i (Z.of_nat start, Z.of_nat stop)) (conj E1 E2)). cbn [option_map fst snd]. now rewrite !Nat2Z.id. }
    split; [|split].
    - intros i start stop part Hb Hp. rewrite nth_error_map in Hb, Hp. destruct (nth_error (pairs idx) i) as [[x y]|] eqn:E; [|discriminate]. cbn [option_map fst snd] in Hb, Hp.
      injection Hp as <-. injection Hb as <- <-. apply pairs_nth in E. cbn [fst snd] in E. destruct E as [E1 E2].
      assert (R1 := idx_range ratios Hnn Hpos n i x E1). assert (R2 := idx_range ratios Hnn Hpos n (S i) y E2). 
      assert (G : forall l, (forall a, In (Some a) l -> a_N a = n) ->
        Forall2 (fun a r => match a, r with
                             | None, None => True
                             | Some a, Some r => a_T r = a_T a /\ a_N r = Z.to_nat y - Z.to_nat x /\
                                 forall t j, Z.to_nat x + j < Z.to_nat y -> a_at r t j = a_at a t (Z.to_nat x + j)
                             | _, _ => False
                             end) l (map (option_map (columns A (Z.to_nat x) (Z.to_nat y))) l)); [|exact (G _ Hn)].
      clear Hn. induction l as [|[a|] l IH]; intros Hn; cbn [map]; constructor.
      + cbn [option_map]. unfold columns. cbn [a_T a_N a_at]. split; [reflexivity|]. rewrite (Hn a (or_introl eq_refl)). rewrite !Nat.min_l by lia. split; [reflexivity|]. intros; reflexivity.
      + apply IH. intros; apply Hn; now right.
      + exact I.
      + apply IH. intros; apply Hn; now right.
    - intros j Hj. destruct (idx_cover ratios Hnn Hpos n j Hj) as [i [a [b [Ea [Eb Hab]]]]]. exists i. split.
      + exists (Z.to_nat a), (Z.to_nat b). assert (R1 := idx_range ratios Hnn Hpos n i a Ea). split; [|lia]. apply B. rewrite !Z2Nat.id by lia. now split.
      + intros i' [start [stop [Hb' Hj']]]. apply B in Hb'. destruct Hb' as [Ea' Eb']. exact (idx_unique ratios Hnn Hpos n (Z.of_nat j) _ _ _ _ _ _ Ea Eb Hab Ea' Eb' ltac:(lia)).
    - intros i start stop Hb. apply B in Hb. destruct Hb as [Ea Eb]. destruct (idx_step ratios Hnn Hpos n _ _ _ Ea Eb) as [Hle [r [Er Hr]]].
      assert (R2 := idx_range ratios Hnn Hpos n (S i) _ Eb). split; [lia|]. exists r. split; [assumption|]. rewrite Nat2Z.inj_sub by lia. assumption.
  Qed.
End Split.
Print Assumptions C32_split.
Example C32_split_case : option_map (map show_args) (split nat ([9; 1]%Q) [Some (mkArray 1 15 (fun _ j => j)); None]) =
  Some [[Some [[0; 1; 2; 3; 4; 5; 6; 7; 8; 9; 10; 11; 12; 13]]; None]; [Some [[14]]; None]].
Proof. reflexivity. Qed.
