(** Proofs for ShapesModel.v (C54). *)
From Coq Require Import List ZArith Bool Lia.
From Verif Require Import ShapesModel.
Import ListNotations.
Open Scope list_scope.
Open Scope Z_scope.

(** ** Specification *)
Definition ints (l : list Z) : list sdim := map DInt l.

(** The three scaling types. *)
Inductive scaling := Fixed | Batch | Time.
Definition prefix (k : scaling) : list sdim :=
  match k with Fixed => [] | Batch => [DB] | Time => [DT; DB] end.

(** A well-formed structure: scaling prefix, then at least one integer. *)
Definition wf_structure (shape : list sdim) (k : scaling) (f : list Z) : Prop :=
  shape = prefix k ++ ints f /\ f <> [].

(** ** Basic facts *)
Lemma sdim_eqb_spec a b : reflect (a = b) (sdim_eqb a b).
Proof.
  destruct a, b; simpl; try (constructor; congruence).
  - destruct (Z.eqb_spec z z0); constructor; congruence.
  - destruct (Nat.eqb_spec n n0); constructor; congruence.
Qed.
Lemma sdim_eqb_eq a b : sdim_eqb a b = true <-> a = b.
Proof. destruct (sdim_eqb_spec a b); split; congruence. Qed.

Lemma dims_eqb_eq a b : dims_eqb a b = true <-> a = b.
Proof.
  revert b. induction a as [|x a IH]; intros [|y b]; simpl; try (split; congruence).
  rewrite andb_true_iff, sdim_eqb_eq, IH. split; [intros [-> ->]; reflexivity | intros [= -> ->]; auto].
Qed.

Lemma dmem_In x l : dmem x l = true <-> In x l.
Proof.
  unfold dmem. rewrite existsb_exists. split.
  - intros [y [H E]]. apply sdim_eqb_eq in E. now subst.
  - intros H. exists x. split; [assumption | now apply sdim_eqb_eq].
Qed.
Lemma dmem_false x l : dmem x l = false <-> ~ In x l.
Proof. rewrite <- dmem_In. destruct (dmem x l); split; congruence. Qed.

Lemma forallb_is_int l : forallb is_int l = true <-> exists f, l = ints f.
Proof.
  induction l as [|x l IH]; simpl.
  - split; [exists []; reflexivity | reflexivity].
  - rewrite andb_true_iff, IH. split.
    + intros [H [f ->]]. destruct x; try discriminate. exists (z :: f). reflexivity.
    + intros [f E]. destruct f as [|z f]; [discriminate|]. injection E as -> ->. split; [reflexivity | eauto].
Qed.

Lemma not_in_ints x f : (forall z, x <> DInt z) -> ~ In x (ints f).
Proof. intros N H. apply in_map_iff in H. destruct H as [z [E _]]. eapply N; eauto. Qed.

Lemma buffer_type_prefix k l : ~ In DT l -> ~ In DB l ->
  buffer_type (prefix k ++ l) = length (prefix k).
Proof.
  intros H1 H2. unfold buffer_type. destruct k; simpl; try reflexivity.
  - apply dmem_false in H1, H2. now rewrite H1, H2.
  - unfold dmem in *. simpl. apply dmem_false in H1. unfold dmem in H1. now rewrite H1.
Qed.

Lemma feature_prefix k l : ~ In DT l -> ~ In DB l -> feature_shape (prefix k ++ l) = l.
Proof.
  intros H1 H2. unfold feature_shape. rewrite buffer_type_prefix by assumption.
  rewrite skipn_app, Nat.sub_diag, skipn_all. reflexivity.
Qed.
Lemma scaling_prefix k l : ~ In DT l -> ~ In DB l -> scaling_shape (prefix k ++ l) = prefix k.
Proof.
  intros H1 H2. unfold scaling_shape. rewrite buffer_type_prefix by assumption.
  rewrite firstn_app, Nat.sub_diag, firstn_all. apply app_nil_r.
Qed.

(** The first checks, common to both validations. *)
Lemma split_prefix shape :
  dmem DT shape && negb (dims_eqb (firstn 2 shape) [DT; DB]) = false ->
  negb (dmem DT shape) && dmem DB shape && negb (dims_eqb (firstn 1 shape) [DB]) = false ->
  exists k, shape = prefix k ++ feature_shape shape /\ buffer_type shape = length (prefix k) /\
            (k = Time <-> In DT shape).
Proof.
  intros H1 H2. unfold feature_shape, buffer_type.
  destruct (dmem DT shape) eqn:T; simpl in *.
  - apply negb_false_iff, dims_eqb_eq in H1. exists Time. simpl.
    destruct shape as [|a [|b r]]; simpl in *; try discriminate. injection H1 as -> ->.
    repeat split; auto.
  - apply dmem_false in T. destruct (dmem DB shape) eqn:B; simpl in *.
    + apply negb_false_iff, dims_eqb_eq in H2. exists Batch. simpl.
      destruct shape as [|a r]; simpl in *; try discriminate. injection H2 as ->.
      repeat split; auto; [discriminate | contradiction].
    + exists Fixed. simpl. repeat split; auto; [discriminate | contradiction].
Qed.

Lemma prefix_checks k l : ~ In DT l -> ~ In DB l ->
  dmem DT (prefix k ++ l) && negb (dims_eqb (firstn 2 (prefix k ++ l)) [DT; DB]) = false /\
  negb (dmem DT (prefix k ++ l)) && dmem DB (prefix k ++ l) && negb (dims_eqb (firstn 1 (prefix k ++ l)) [DB]) = false /\
  (dmem DT (prefix k ++ l) = true <-> k = Time).
Proof.
  intros H1 H2. apply dmem_false in H1, H2. destruct k; simpl prefix; unfold dmem in *; simpl.
  - rewrite H1, H2. simpl. repeat split; congruence.
  - rewrite H1. simpl. repeat split; congruence.
  - repeat split; congruence.
Qed.

Lemma context_ok_spec shape ctx : context_ok shape ctx = true <->
  exists c, ctx = Some c /\ 0 <= c /\ (c <> 0 -> In DT shape).
Proof.
  unfold context_ok. destruct ctx as [c|]; [|split; [discriminate | intros [? [? _]]; discriminate]].
  rewrite andb_true_iff, !negb_true_iff, Z.ltb_ge, andb_false_iff, !negb_false_iff, Z.eqb_eq, dmem_In.
  split.
  - intros [H1 H2]. exists c. repeat split; auto. intros N. destruct H2; [contradiction | assumption].
  - intros [c' [[= <-] [H1 H2]]]. split; [assumption|]. destruct (Z.eq_dec c 0); auto.
Qed.

Lemma time_in_prefix k f : In DT (prefix k ++ ints f) <-> k = Time.
Proof.
  rewrite in_app_iff. split.
  - intros [H|H]; [destruct k; simpl in H; intuition congruence|].
    exfalso. revert H. apply not_in_ints. discriminate.
  - intros ->. left. now left.
Qed.

(** ** BufferStructure.validate *)
Lemma structure_valid_spec shape ctx :
  structure_valid shape ctx = true <->
  exists k f c, wf_structure shape k f /\ ctx = Some c /\ 0 <= c /\ (c <> 0 -> k = Time).
Proof.
  unfold structure_valid. split.
  - destruct (Nat.eqb (length shape) 0) eqn:E0; [discriminate|].
    destruct (dmem DT shape && _) eqn:E1; [discriminate|].
    destruct (negb (dmem DT shape) && _ && _) eqn:E2; [discriminate|].
    destruct (Nat.leb (length shape) (buffer_type shape)) eqn:E3; [discriminate|].
    destruct (forallb is_int (feature_shape shape)) eqn:E4; simpl; [|discriminate].
    intros H. apply context_ok_spec in H. destruct H as [c [-> [Hc HT]]].
    destruct (split_prefix _ E1 E2) as [k [Es [Eb Ek]]].
    apply forallb_is_int in E4. destruct E4 as [f E4]. rewrite E4 in Es.
    exists k, f, c. split; [split; [assumption|]|].
    + intros ->. apply Nat.leb_gt in E3. rewrite Eb, Es, app_length in E3.
      simpl in E3. lia.
    + repeat split; auto. intros N. apply Ek. auto.
  - intros [k [f [c [[-> Nf] [-> [Hc HT]]]]]].
    assert (N1 : ~ In DT (ints f)) by (apply not_in_ints; discriminate).
    assert (N2 : ~ In DB (ints f)) by (apply not_in_ints; discriminate).
    destruct (prefix_checks k (ints f) N1 N2) as [C1 [C2 C3]]. rewrite C1, C2.
    rewrite buffer_type_prefix, feature_prefix by assumption.
    assert (L : (length (prefix k ++ ints f) > length (prefix k))%nat).
    { rewrite app_length. unfold ints. rewrite map_length. destruct f; [congruence | simpl; lia]. }
    replace (Nat.eqb _ 0) with false by (symmetry; apply Nat.eqb_neq; lia).
    replace (Nat.leb _ _) with false by (symmetry; apply Nat.leb_gt; lia).
    replace (forallb is_int (ints f)) with true by (symmetry; apply forallb_is_int; eauto).
    cbn [negb]. apply context_ok_spec. exists c. repeat split; auto. intros N. apply time_in_prefix. auto.
Qed.

(** ** Templates *)
Inductive wf_template : list sdim -> scaling -> Prop :=
| wt_dots k : wf_template (prefix k ++ [DDots]) k
| wt_F k n : (n > 0)%nat -> wf_template (prefix k ++ repeat DF n) k
| wt_ints k f : k <> Fixed \/ f <> [] -> wf_template (prefix k ++ ints f) k.

Lemma forallb_F l : forallb (sdim_eqb DF) l = true <-> l = repeat DF (length l).
Proof.
  induction l as [|x l IH]; cbn [forallb length repeat]; [split; reflexivity|].
  rewrite andb_true_iff, IH, sdim_eqb_eq. split; [intros [<- H]; congruence | intros [= <- H]; auto].
Qed.

Lemma In_prefix x k : In x (prefix k) -> x = DT \/ x = DB.
Proof. destruct k; simpl; intuition congruence. Qed.

Lemma template_valid_spec shape ctx :
  template_valid shape ctx = true <->
  exists k c, wf_template shape k /\ ctx = Some c /\ 0 <= c /\ (c <> 0 -> k = Time).
Proof.
  unfold template_valid. split.
  - destruct (Nat.eqb (length shape) 0) eqn:E0; [discriminate|]. apply Nat.eqb_neq in E0.
    destruct (dmem DT shape && _) eqn:E1; [discriminate|].
    destruct (negb (dmem DT shape) && _ && _) eqn:E2; [discriminate|].
    destruct (Nat.ltb (length shape) (buffer_type shape)) eqn:E3; [discriminate|].
    cbv zeta. match goal with |- context[negb ?X] => destruct X eqn:E4 end; simpl; [|discriminate].
    intros H. apply context_ok_spec in H. destruct H as [c [-> [Hc HT]]].
    destruct (split_prefix _ E1 E2) as [k [Es [Eb Ek]]]. exists k, c.
    split; [|repeat split; auto; intros N; apply Ek; auto].
    destruct (dmem DDots shape) eqn:D.
    + apply dims_eqb_eq in E4. rewrite Es, E4. constructor.
    + destruct (dmem DF shape) eqn:F.
      * apply forallb_F in E4. rewrite E4 in Es. rewrite Es. constructor.
        apply dmem_In in F. rewrite Es in F. apply in_app_iff in F. destruct F as [F|F].
        -- apply In_prefix in F. destruct F; discriminate.
        -- destruct (length (feature_shape shape)); [destruct F | lia].
      * apply forallb_is_int in E4. destruct E4 as [f E4]. rewrite Es, E4. constructor.
        destruct k; [right|left; discriminate|left; discriminate]. intros ->. rewrite Es, E4 in E0. simpl in E0. lia.
  - intros [k [c [W [-> [Hc HT]]]]].
    assert (X : exists l, shape = prefix k ++ l /\ ~ In DT l /\ ~ In DB l /\ (length shape <> 0)%nat /\
                (if dmem DDots shape then dims_eqb l [DDots]
                 else if dmem DF shape then forallb (sdim_eqb DF) l else forallb is_int l) = true).
    { destruct W as [k|k n Hn|k f Hf].
      - exists [DDots]. repeat split; try (simpl; intuition discriminate).
        + rewrite app_length. simpl. lia.
        + replace (dmem DDots _) with true; [reflexivity|]. symmetry. apply dmem_In. apply in_or_app. right. now left.
      - exists (repeat DF n). repeat split.
        + intros H. apply repeat_spec in H. discriminate.
        + intros H. apply repeat_spec in H. discriminate.
        + rewrite app_length, repeat_length. lia.
        + replace (dmem DDots _) with false; [replace (dmem DF _) with true|].
          * apply forallb_F. now rewrite repeat_length.
          * symmetry. apply dmem_In. apply in_or_app. right. destruct n; [lia | now left].
          * symmetry. apply dmem_false. rewrite in_app_iff. intros [H|H].
            -- apply In_prefix in H. destruct H; discriminate.
            -- apply repeat_spec in H. discriminate.
      - exists (ints f). repeat split.
        + apply not_in_ints. discriminate.
        + apply not_in_ints. discriminate.
        + rewrite app_length. unfold ints. rewrite map_length. destruct k; simpl; try lia.
          destruct f; [|simpl; lia]. exfalso. destruct Hf; congruence.
        + replace (dmem DDots _) with false; [replace (dmem DF _) with false|].
          * apply forallb_is_int. eauto.
          * symmetry. apply dmem_false. rewrite in_app_iff. intros [H|H].
            -- apply In_prefix in H. destruct H; discriminate.
            -- revert H. apply not_in_ints. discriminate.
          * symmetry. apply dmem_false. rewrite in_app_iff. intros [H|H].
            -- apply In_prefix in H. destruct H; discriminate.
            -- revert H. apply not_in_ints. discriminate. }
    destruct X as [l [-> [N1 [N2 [L0 F]]]]].
    destruct (prefix_checks k l N1 N2) as [C1 [C2 C3]]. rewrite C1, C2.
    rewrite buffer_type_prefix, feature_prefix by assumption.
    replace (Nat.eqb _ 0) with false by (symmetry; apply Nat.eqb_neq; lia).
    replace (Nat.ltb _ _) with false by (symmetry; apply Nat.ltb_ge; rewrite app_length; lia).
    cbv zeta. rewrite F. cbn [negb]. apply context_ok_spec. exists c. repeat split; auto.
    intros N. apply dmem_In, C3. auto.
Qed.

(** ** Matching *)
(** What a template means: same scaling; '...' stands for at least one
    feature dimension, 'F's for equally many, numbers for themselves. *)
Definition meant (t : list sdim) (k : scaling) (f : list Z) : Prop :=
  (t = prefix k ++ [DDots] /\ f <> []) \/
  t = prefix k ++ repeat DF (length f) \/
  t = prefix k ++ ints f.

Lemma matches_loop_F f n : length f = n -> matches_loop (ints f) (repeat DF n) = true.
Proof. revert n. induction f as [|z f IH]; intros [|n] E; simpl in *; try discriminate; auto. Qed.
Lemma matches_loop_ints f g : length f = length g -> (matches_loop (ints f) (ints g) = true <-> f = g).
Proof.
  revert g. induction f as [|z f IH]; intros [|y g] E; simpl in *; try discriminate; [split; reflexivity|].
  destruct (Z.eqb_spec y z) as [->|N].
  - rewrite IH by lia. split; congruence.
  - split; [discriminate | congruence].
Qed.

Lemma dmem_dots_prefix k l : dmem DDots (prefix k ++ l) = dmem DDots l.
Proof. destruct k; reflexivity. Qed.

Lemma dmem_dots_repeat n : dmem DDots (repeat DF n) = false.
Proof. apply dmem_false. intros H. apply repeat_spec in H. discriminate. Qed.
Lemma dmem_dots_ints f : dmem DDots (ints f) = false.
Proof. apply dmem_false, not_in_ints. discriminate. Qed.

(** Matching with a general feature part. *)
Lemma matches_prefix_same k s t : matches_loop (prefix k ++ s) (prefix k ++ t) = matches_loop s t.
Proof. destruct k; reflexivity. Qed.

Lemma ints_length f : length (ints f) = length f.
Proof. apply map_length. Qed.

Lemma prefix_inj k k' l l' :
  ~ In DT l -> ~ In DB l -> ~ In DT l' -> ~ In DB l' ->
  prefix k ++ l = prefix k' ++ l' -> k = k' /\ l = l'.
Proof.
  intros H1 H2 H3 H4 E.
  assert (Es := f_equal scaling_shape E). rewrite !scaling_prefix in Es by assumption.
  assert (Ef := f_equal feature_shape E). rewrite !feature_prefix in Ef by assumption.
  split; [|assumption]. destruct k, k'; simpl in Es; congruence.
Qed.

Lemma matches_spec t k s k' f :
  wf_template t k -> wf_structure s k' f -> t <> [DDots] ->
  (template_matches t s = true <-> meant t k' f).
Proof.
  intros W [-> Nf] ND. unfold template_matches, meant.
  assert (N1 : ~ In DT (ints f)) by (apply not_in_ints; discriminate).
  assert (N2 : ~ In DB (ints f)) by (apply not_in_ints; discriminate).
  assert (NF : ~ In DT (repeat DF (length f)) /\ ~ In DB (repeat DF (length f))).
  { split; intros H; apply repeat_spec in H; discriminate. }
  assert (Nd : ~ In DT [DDots] /\ ~ In DB [DDots]) by (simpl; intuition discriminate).
  destruct W as [k|k n Hn|k g Hg].
  - (* dots *)
    rewrite dmem_dots_prefix. cbn [dmem existsb sdim_eqb orb negb andb].
    rewrite !app_length, ints_length. cbn [length].
    split.
    + destruct (Nat.ltb _ _) eqn:L; [discriminate|]. intros H. left. split; [|assumption].
      apply Nat.ltb_ge in L.
      assert (k = k'); [|congruence].
      destruct k, k'; simpl in *; try reflexivity; try discriminate; try congruence;
        destruct f as [|z [|y f]]; simpl in *; try congruence; try lia; try discriminate.
    + intros H.
      assert (E : k = k').
      { destruct H as [[H _]|[H|H]]; apply prefix_inj in H; try tauto. }
      subst k'. replace (Nat.ltb _ _) with false.
      2:{ symmetry. apply Nat.ltb_ge. destruct f; [congruence | simpl; lia]. }
      rewrite matches_prefix_same. destruct f as [|z f]; [congruence|]. simpl. now destruct (ints f).
  - (* F *)
    rewrite dmem_dots_prefix, dmem_dots_repeat. cbn [negb andb].
    rewrite !app_length, ints_length, repeat_length.
    assert (NFn : ~ In DT (repeat DF n) /\ ~ In DB (repeat DF n)).
    { split; intros H; apply repeat_spec in H; discriminate. }
    split.
    + destruct (Nat.eqb _ _) eqn:L; [|discriminate]. apply Nat.eqb_eq in L. intros H. right; left.
      assert (k = k').
      { destruct n; [lia|].
        destruct k, k'; simpl in *; try reflexivity; try discriminate;
          destruct f as [|z [|y f]]; simpl in *; try congruence; try lia; try discriminate;
          destruct n; simpl in *; try discriminate; try lia. }
      subst k'. replace n with (length f) by lia. reflexivity.
    + intros H.
      assert (E : k = k' /\ length f = n).
      { destruct H as [[H _]|[H|H]]; apply prefix_inj in H; try tauto; destruct H as [-> H]; split; auto.
        - destruct n as [|[|n]]; discriminate.
        - apply (f_equal (@length sdim)) in H. rewrite !repeat_length in H. lia.
        - destruct n; [lia|]. destruct f; discriminate. }
      destruct E as [<- E]. replace (Nat.eqb _ _) with true by (symmetry; apply Nat.eqb_eq; lia).
      cbn [negb]. rewrite matches_prefix_same. now apply matches_loop_F.
  - (* ints *)
    rewrite dmem_dots_prefix, dmem_dots_ints. cbn [negb andb].
    rewrite !app_length, !ints_length.
    assert (Ng : ~ In DT (ints g) /\ ~ In DB (ints g)).
    { split; apply not_in_ints; discriminate. }
    split.
    + destruct (Nat.eqb _ _) eqn:L; [|discriminate]. apply Nat.eqb_eq in L. cbn [negb]. intros H. right; right.
      assert (E : k = k').
      { destruct k, k'; simpl in *; try reflexivity; try discriminate;
          destruct f as [|z [|y f]]; simpl in *; try congruence; try lia; try discriminate;
          destruct g as [|w [|w2 g]]; simpl in *; try discriminate; try lia. }
      subst k'. rewrite matches_prefix_same in H. apply matches_loop_ints in H; [congruence | lia].
    + intros H. assert (E : k = k' /\ f = g).
      { destruct H as [[H _]|[H|H]]; apply prefix_inj in H; try tauto; destruct H as [-> H]; split; auto.
        - destruct g as [|z [|y g]]; discriminate.
        - destruct f as [|z f]; [congruence|]. destruct g; discriminate.
        - clear - H. revert g H. induction f as [|z f IH]; intros [|y g] H; simpl in H; try discriminate; [reflexivity|].
          injection H as <- H. f_equal. now apply IH. }
      destruct E as [<- <-]. rewrite Nat.eqb_refl. cbn [negb]. rewrite matches_prefix_same.
      now apply matches_loop_ints.
Qed.

(** ** Combination *)
Lemma all_equal_nat_spec l : all_equal_nat l = true <-> forall x y, In x l -> In y l -> x = y.
Proof.
  destruct l as [|a l]; simpl; [split; [intros _ x y [] | reflexivity]|].
  rewrite forallb_forall. split.
  - intros H x y Hx Hy.
    assert (K : forall z, a = z \/ In z l -> a = z).
    { intros z [<-|Hz]; [reflexivity|]. now apply Nat.eqb_eq, H. }
    rewrite <- (K x Hx). now apply K.
  - intros H x Hx. apply Nat.eqb_eq, H; auto.
Qed.

Lemma removelast_ints f : removelast (ints f) = ints (removelast f).
Proof. induction f as [|z [|y f] IH]; simpl in *; [reflexivity | reflexivity | now f_equal]. Qed.
Lemma last_ints f : f <> [] -> dim_value (last (ints f) (DInt 0)) = last f 0.
Proof.
  induction f as [|z [|y f] IH]; simpl in *; intros N; [congruence | reflexivity | apply IH; discriminate].
Qed.
Definition prod (l : list Z) : Z := fold_right Z.mul 1 l.
Definition sum (l : list Z) : Z := fold_right Z.add 0 l.
Lemma prod_app a b : prod (a ++ b) = prod a * prod b.
Proof. unfold prod. induction a as [|x a IH]; simpl; [destruct (fold_right Z.mul 1 b); reflexivity | rewrite IH; ring]. Qed.
Lemma prod_split f : f <> [] -> prod f = prod (removelast f) * last f 0.
Proof.
  intros N. rewrite (app_removelast_last 0 N) at 1. rewrite prod_app. unfold prod at 2. simpl. ring.
Qed.
Lemma feature_size_ints k f : feature_size (prefix k ++ ints f) = prod f.
Proof.
  unfold feature_size. rewrite feature_prefix by (apply not_in_ints; discriminate).
  unfold prod, ints. rewrite map_map. simpl. f_equal. apply map_id.
Qed.

(** All structures share scaling type and all but the last feature dimension. *)
Definition compatible (k : scaling) (fixed : list Z) (lasts : list Z) (shapes : list (list sdim)) : Prop :=
  shapes = map (fun n => prefix k ++ ints (fixed ++ [n])) lasts.

Definition fixed_ok (s0 : list sdim) (s : list sdim) : bool :=
  dims_eqb (removelast (feature_shape s)) (removelast (feature_shape s0)).
Lemma combine_unfold s0 rest : combine_buffer_structures (s0 :: rest) =
  if negb (all_equal_nat (map (@length sdim) (s0 :: rest))) then DimMismatch
  else if negb (all_equal_nat (map buffer_type (s0 :: rest))) then TypeMismatch
  else if negb (forallb (fixed_ok s0) (s0 :: rest)) then FeatureMismatch
  else Combined (scaling_shape s0 ++ removelast (feature_shape s0) ++
        [DInt (fold_right Z.add 0 (map (fun s => dim_value (last (feature_shape s) (DInt 0))) (s0 :: rest)))]).
Proof. reflexivity. Qed.

Lemma combine_spec shapes :
  shapes <> [] ->
  (forall s, In s shapes -> exists k f, wf_structure s k f) ->
  forall r, combine_buffer_structures shapes = Combined r <->
  exists k fixed lasts, compatible k fixed lasts shapes /\ r = prefix k ++ ints (fixed ++ [sum lasts]).
Proof.
  intros NE W r. destruct shapes as [|s0 rest]; [congruence|].
  rewrite combine_unfold. assert (I0 : In s0 (s0 :: rest)) by now left.
  set (shapes := s0 :: rest) in *. clearbody shapes. unfold fixed_ok.
  destruct (W s0 I0) as [k0 [f0 [E0 N0]]].
  assert (NI : forall f, ~ In DT (ints f) /\ ~ In DB (ints f)).
  { intros f. split; apply not_in_ints; discriminate. }
  split.
  - destruct (all_equal_nat (map (@length sdim) shapes)) eqn:A1; cbn [negb]; [|discriminate].
    destruct (all_equal_nat (map buffer_type shapes)) eqn:A2; cbn [negb]; [|discriminate].
    match goal with |- context[negb ?X] => destruct X eqn:A3 end; cbn [negb]; [|discriminate].
    intros Hr. apply (f_equal (fun x => match x with Combined y => y | _ => [] end)) in Hr.
    cbv beta iota in Hr. subst r.
    rewrite all_equal_nat_spec in A2. rewrite forallb_forall in A3.
    exists k0, (removelast f0), (map (fun s => dim_value (last (feature_shape s) (DInt 0))) shapes).
    assert (K : forall s, In s shapes -> s = prefix k0 ++ ints (removelast f0 ++ [dim_value (last (feature_shape s) (DInt 0))])).
    { intros s Hs. destruct (W s Hs) as [k [f [Es Nf]]].
      assert (Eb : buffer_type s = buffer_type s0).
      { apply A2; apply in_map; assumption. }
      rewrite Es, E0 in Eb. rewrite !buffer_type_prefix in Eb by apply NI.
      assert (k = k0) by (destruct k, k0; simpl in Eb; congruence). subst k.
      specialize (A3 s Hs). apply dims_eqb_eq in A3. rewrite Es, E0 in A3.
      rewrite !feature_prefix, !removelast_ints in A3 by apply NI.
      assert (Er : removelast f = removelast f0).
      { clear - A3. revert A3. generalize (removelast f) (removelast f0).
        induction l as [|a l IH]; intros [|b l0] H; simpl in H; try discriminate; [reflexivity|].
        injection H as <- H. f_equal. now apply IH. }
      rewrite Es at 1. f_equal. rewrite Es, feature_prefix, last_ints by (apply NI || assumption).
      rewrite <- Er, <- app_removelast_last by assumption. reflexivity. }
    split.
    + unfold compatible. rewrite map_map. clear - K. induction shapes as [|s l IH]; simpl; [reflexivity|].
      f_equal; [apply K; now left | apply IH; intros s' H; apply K; now right].
    + replace (scaling_shape s0) with (prefix k0) by (rewrite E0, scaling_prefix by apply NI; reflexivity).
      replace (feature_shape s0) with (ints f0) by (rewrite E0, feature_prefix by apply NI; reflexivity).
      rewrite removelast_ints. unfold ints. rewrite map_app. reflexivity.
  - intros [k [fixed [lasts [C ->]]]]. unfold compatible in C.
    assert (K : forall s, In s shapes -> exists n, In n lasts /\ s = prefix k ++ ints (fixed ++ [n])).
    { intros s Hs. rewrite C in Hs. apply in_map_iff in Hs. destruct Hs as [n [<- Hn]]. eauto. }
    replace (all_equal_nat (map (@length sdim) shapes)) with true.
    2:{ symmetry. apply all_equal_nat_spec. intros x y Hx Hy.
        apply in_map_iff in Hx. destruct Hx as [s [<- Hs]]. apply in_map_iff in Hy. destruct Hy as [s' [<- Hs']].
        destruct (K s Hs) as [n [_ ->]], (K s' Hs') as [n' [_ ->]].
        rewrite !app_length, !ints_length, !app_length. reflexivity. }
    replace (all_equal_nat (map buffer_type shapes)) with true.
    2:{ symmetry. apply all_equal_nat_spec. intros x y Hx Hy.
        apply in_map_iff in Hx. destruct Hx as [s [<- Hs]]. apply in_map_iff in Hy. destruct Hy as [s' [<- Hs']].
        destruct (K s Hs) as [n [_ ->]], (K s' Hs') as [n' [_ ->]].
        rewrite !buffer_type_prefix by apply NI. reflexivity. }
    destruct (K s0 I0) as [n0 [_ Es0]].
    assert (RL : forall n, removelast (ints (fixed ++ [n])) = ints fixed).
    { intros n. rewrite removelast_ints, removelast_last. reflexivity. }
    replace (forallb _ shapes) with true.
    2:{ symmetry. apply forallb_forall. intros s Hs. destruct (K s Hs) as [n [_ ->]]. rewrite Es0.
        apply dims_eqb_eq. rewrite !feature_prefix by apply NI. rewrite !RL. reflexivity. }
    cbn [negb]. f_equal.
    replace (scaling_shape s0) with (prefix k) by (rewrite Es0, scaling_prefix by apply NI; reflexivity).
    replace (feature_shape s0) with (ints (fixed ++ [n0])) by (rewrite Es0, feature_prefix by apply NI; reflexivity).
    rewrite RL.
    f_equal. unfold ints at 2. rewrite map_app. simpl. f_equal. f_equal. f_equal.
    unfold sum. f_equal. rewrite C, map_map. rewrite <- (map_id lasts) at 2. apply map_ext. intros n.
    rewrite feature_prefix by apply NI. rewrite last_ints by (destruct fixed; discriminate).
    apply last_last.
Qed.

(** The number of features of the combination is the sum. *)
Lemma combine_size k fixed lasts shapes :
  compatible k fixed lasts shapes ->
  feature_size (prefix k ++ ints (fixed ++ [sum lasts])) = sum (map feature_size shapes).
Proof.
  unfold compatible. intros ->. rewrite feature_size_ints, prod_app, map_map.
  assert (P1 : forall z, prod [z] = z) by (intros z; unfold prod; simpl; ring). rewrite P1.
  induction lasts as [|n lasts IH]; cbn [sum fold_right map].
  - unfold sum. simpl. ring.
  - unfold sum in *. cbn [fold_right map]. rewrite <- IH, feature_size_ints, prod_app, P1. ring.
Qed.
