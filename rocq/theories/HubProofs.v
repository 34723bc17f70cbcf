(** Proofs for HubModel.v: forward closure and grouping (C09), memory layout
    of a hub (C10), completeness of the layout search (C11). *)
From Coq Require Import String List Arith Bool Lia Permutation Relations.
From Verif Require Import PyBase PyFacts UtilsModel UtilsProofs HubModel.
Import ListNotations.
Open Scope string_scope.
Open Scope list_scope.
Open Scope nat_scope.

(** ** Specification of the grouping *)

(** Two sources are linked if they have a common sink. *)
Definition linked (cns : list (node * node)) (a b : node) : Prop :=
  exists t, In (a, t) cns /\ In (b, t) cns.
(** Connected component. *)
Definition together (cns : list (node * node)) : node -> node -> Prop :=
  clos_refl_trans node (linked cns).

Lemma linked_sym cns a b : linked cns a b -> linked cns b a.
Proof. intros [t [H1 H2]]. exists t. auto. Qed.
Lemma together_sym cns a b : together cns a b -> together cns b a.
Proof.
  induction 1 as [a b H| |a b c _ IH1 _ IH2].
  - apply rt_step. now apply linked_sym.
  - apply rt_refl.
  - eapply rt_trans; eauto.
Qed.

(** [component cns n sources sinks]: exactly the component of n. *)
Definition component_of (cns : list (node * node)) (n : node) (sources sinks : list node) : Prop :=
  NoDup sources /\ NoDup sinks /\
  (forall a, In a sources <-> together cns n a) /\
  (forall t, In t sinks <-> exists a, together cns n a /\ In (a, t) cns).

(** ** Closure *)
Lemma node_mem_In x l : node_mem x l = true <-> In x l.
Proof. unfold node_mem. destruct (in_dec node_eq_dec x l); split; congruence || auto. Qed.

Lemma ends_of_In cns s t : In t (ends_of cns s) <-> exists a, In a s /\ In (a, t) cns.
Proof.
  unfold ends_of. rewrite nodup_In, in_map_iff. split.
  - intros [[a t'] [<- H]]. apply filter_In in H. destruct H as [H1 H2]. apply node_mem_In in H2. eauto.
  - intros [a [H1 H2]]. exists (a, t). split; [reflexivity|]. apply filter_In. split; [assumption|].
    now apply node_mem_In.
Qed.
Lemma starts_of_In cns s a : In a (starts_of cns s) <-> exists t, In t s /\ In (a, t) cns.
Proof.
  unfold starts_of. rewrite nodup_In, in_map_iff. split.
  - intros [[a' t] [<- H]]. apply filter_In in H. destruct H as [H1 H2]. apply node_mem_In in H2. eauto.
  - intros [t [H1 H2]]. exists (a, t). split; [reflexivity|]. apply filter_In. split; [assumption|].
    now apply node_mem_In.
Qed.
Lemma ends_of_NoDup cns s : NoDup (ends_of cns s).
Proof. apply NoDup_nodup. Qed.
Lemma starts_of_NoDup cns s : NoDup (starts_of cns s).
Proof. apply NoDup_nodup. Qed.
Lemma nodup_length {A} (dec : forall x y : A, {x = y} + {x <> y}) l : length (nodup dec l) <= length l.
Proof.
  apply NoDup_incl_length; [apply NoDup_nodup|]. intros x. apply nodup_In.
Qed.
Lemma ends_of_length cns s : length (ends_of cns s) <= length cns.
Proof.
  unfold ends_of. etransitivity; [apply nodup_length|]. rewrite map_length.
  induction cns as [|c cns IH]; simpl; [lia|]. destruct (node_mem (fst c) s); simpl; lia.
Qed.
Lemma starts_of_length cns s : length (starts_of cns s) <= length cns.
Proof.
  unfold starts_of. etransitivity; [apply nodup_length|]. rewrite map_length.
  induction cns as [|c cns IH]; simpl; [lia|]. destruct (node_mem (snd c) s); simpl; lia.
Qed.

(** Loop invariant for a node with at least one connection. *)
Definition closure_inv cns n (src snk : list node) : Prop :=
  NoDup src /\ NoDup snk /\ In n src /\
  incl src (starts_of cns snk) /\ incl snk (ends_of cns src) /\ incl (ends_of cns [n]) snk /\
  (forall a, In a src -> together cns n a).

Lemma closure_loop_spec cns n : forall fuel src snk,
  closure_inv cns n src snk -> 2 * length cns < fuel + length src + length snk ->
  exists src' snk', closure_loop fuel cns src snk = Some (src', snk') /\ component_of cns n src' snk'.
Proof.
  induction fuel as [|f IH]; intros src snk Inv F.
  - exfalso. destruct Inv as [N1 [N2 [_ [I1 [I2 _]]]]].
    assert (length src <= length cns).
    { etransitivity; [apply (NoDup_incl_length N1 I1) | apply starts_of_length]. }
    assert (length snk <= length cns).
    { etransitivity; [apply (NoDup_incl_length N2 I2) | apply ends_of_length]. }
    lia.
  - cbn [closure_loop]. destruct Inv as [N1 [N2 [Hn [I1 [I2 [I3 R]]]]]].
    assert (L1 : length src <= length (starts_of cns snk)) by (now apply NoDup_incl_length).
    assert (L2 : length snk <= length (ends_of cns src)) by (now apply NoDup_incl_length).
    destruct ((length src <? length (starts_of cns snk)) || (length snk <? length (ends_of cns src))) eqn:G.
    + apply IH.
      * split; [apply starts_of_NoDup|]. split; [apply ends_of_NoDup|]. split; [now apply I1|].
        split.
        { intros a Ha. apply starts_of_In in Ha. destruct Ha as [t [Ht Hc]]. apply starts_of_In.
          exists t. split; [now apply I2 | assumption]. }
        split.
        { intros t Ht. apply ends_of_In in Ht. destruct Ht as [a [Ha Hc]]. apply ends_of_In.
          exists a. split; [now apply I1 | assumption]. }
        split; [intros t Ht; now apply I2, I3|].
        intros a Ha. apply starts_of_In in Ha. destruct Ha as [t [Ht Hc]].
        apply I2, ends_of_In in Ht. destruct Ht as [b [Hb Hbt]].
        eapply rt_trans; [exact (R _ Hb)|]. apply rt_step. exists t. auto.
      * apply orb_true_iff in G. rewrite !Nat.ltb_lt in G. lia.
    + apply orb_false_iff in G. rewrite !Nat.ltb_ge in G. destruct G as [G1 G2].
      assert (C1 : incl (starts_of cns snk) src) by (apply NoDup_length_incl; [assumption | lia | assumption]).
      assert (C2 : incl (ends_of cns src) snk) by (apply NoDup_length_incl; [assumption | lia | assumption]).
      assert (Cl : forall a, together cns n a -> In a src).
      { intros a T. apply clos_rt_rtn1 in T. induction T as [|a b [t [H1 H2]] T' IHT]; [assumption|].
        apply C1, starts_of_In. exists t. split; [|assumption]. apply C2, ends_of_In. eauto. }
      exists src, snk. split; [reflexivity|]. split; [assumption|]. split; [assumption|]. split.
      * intros a. split; [apply R | apply Cl].
      * intros t. split.
        -- intros Ht. apply I2, ends_of_In in Ht. destruct Ht as [a [Ha Hc]]. exists a. split; [now apply R | assumption].
        -- intros [a [T Hc]]. apply C2, ends_of_In. exists a. split; [now apply Cl | assumption].
Qed.

Lemma forward_closure_spec cns n :
  exists src snk, get_forward_closure n cns = Some (src, snk) /\ component_of cns n src snk.
Proof.
  unfold get_forward_closure.
  destruct (ends_of cns [n]) as [|t0 r] eqn:E.
  - (* no connections *)
    assert (NC : forall t, ~ In (n, t) cns).
    { intros t H. assert (In t (ends_of cns [n])) by (apply ends_of_In; exists n; split; [now left | assumption]).
      rewrite E in H0. destruct H0. }
    assert (S0 : starts_of cns [] = []).
    { destruct (starts_of cns []) as [|a l] eqn:S; [reflexivity|].
      assert (H : In a (starts_of cns [])) by (rewrite S; now left).
      apply starts_of_In in H. destruct H as [t [[] _]]. }
    exists [n], []. split.
    + replace (2 * length cns + 3) with (S (2 * length cns + 2)) by lia. cbn [closure_loop].
      rewrite S0, E. reflexivity.
    + split; [repeat constructor; intros []|]. split; [constructor|].
      assert (T : forall a, together cns n a -> a = n).
      { intros a T. apply clos_rt_rt1n in T. destruct T as [|b c [t [H _]]]; [reflexivity|].
        now apply NC in H. }
      split.
      * intros a. split; [intros [<-|[]]; apply rt_refl | intros H; left; symmetry; now apply T].
      * intros t. split; [intros [] | intros [a [Ta H]]]. apply T in Ta. subst. now apply NC in H.
  - rewrite <- E.
    assert (Hc : exists t, In (n, t) cns).
    { assert (H : In t0 (ends_of cns [n])) by (rewrite E; now left).
      apply ends_of_In in H. destruct H as [a [[<-|[]] H]]. eauto. }
    destruct Hc as [t Hc].
    apply closure_loop_spec; [|simpl; lia].
    split; [repeat constructor; intros []|]. split; [apply ends_of_NoDup|]. split; [now left|].
    split.
    { intros a [<-|[]]. apply starts_of_In. exists t. split; [|assumption].
      apply ends_of_In. exists n. split; [now left | assumption]. }
    split; [apply incl_refl|]. split; [apply incl_refl|].
    intros a [<-|[]]. apply rt_refl.
Qed.

(** ** Grouping *)
Lemma remove_first_perm x l l' : remove_first x l = Some l' -> Permutation l (x :: l').
Proof.
  revert l'. induction l as [|y l IH]; simpl; intros l' H; [discriminate|].
  destruct (node_eq_dec x y) as [->|N].
  - injection H as <-. apply Permutation_refl.
  - destruct (remove_first x l) as [r|]; [|discriminate]. injection H as <-.
    rewrite (IH r eq_refl). apply perm_swap.
Qed.
Lemma remove_each_perm xs l l' : remove_each xs l = Some l' -> Permutation l (xs ++ l').
Proof.
  revert l. induction xs as [|x xs IH]; simpl; intros l H; [injection H as <-; apply Permutation_refl|].
  destruct (remove_first x l) as [r|] eqn:E; [|discriminate].
  apply remove_first_perm in E. rewrite E. apply perm_skip. now apply IH.
Qed.
Lemma remove_first_total x l : In x l -> exists l', remove_first x l = Some l'.
Proof.
  induction l as [|y l IH]; simpl; [intros []|]. intros H. destruct (node_eq_dec x y) as [->|N]; [eauto|].
  destruct IH as [l' ->]; [destruct H; [congruence | assumption]|]. eauto.
Qed.
Lemma remove_each_total xs l : NoDup xs -> incl xs l -> exists l', remove_each xs l = Some l'.
Proof.
  revert l. induction xs as [|x xs IH]; simpl; intros l ND I; [eauto|].
  inversion ND as [|? ? N ND']; subst.
  destruct (remove_first_total x l (I x (or_introl eq_refl))) as [l' E]. rewrite E. apply IH; [assumption|].
  intros y Hy. assert (P := remove_first_perm _ _ _ E).
  assert (Iy : In y (x :: l')). { apply (Permutation_in _ P). apply I. now right. }
  destruct Iy as [<-|Iy]; [contradiction | assumption].
Qed.

(** The sources and sinks of the hubs: a partition into components. *)
Lemma group_loop_spec fuel rem m so cns hs :
  group_loop fuel rem m so cns = LOk hs ->
  exists classes : list (list node * list node),
    Permutation (concat (map fst classes)) rem /\
    Forall (fun cl => exists n, component_of m n (fst cl) (snd cl)) classes /\
    Forall2 (fun cl h => hub_create (fst cl) (snd cl) so cns = LOk h) classes hs.
Proof.
  revert rem hs. induction fuel as [|f IH]; intros rem hs H; destruct rem as [|n rem]; simpl in H; try discriminate.
  - injection H as <-. exists []. simpl. auto.
  - injection H as <-. exists []. simpl. auto.
  - destruct (forward_closure_spec m n) as [src [snk [E C]]]. rewrite E in H.
    destruct (remove_each src (n :: rem)) as [rest|] eqn:R; [|discriminate].
    destruct (hub_create src snk so cns) as [h|] eqn:Hc; [|discriminate].
    destruct (group_loop f rest m so cns) as [hs'|] eqn:G; [|discriminate]. injection H as <-.
    destruct (IH _ _ G) as [cls [P [F1 F2]]].
    exists ((src, snk) :: cls). simpl. split; [|split].
    + apply remove_each_perm in R. rewrite R. now apply Permutation_app_head.
    + constructor; [eauto | assumption].
    + constructor; assumption.
Qed.

(** If all starts of connections are among the distinct sources, grouping
    only fails if the creation of a hub fails. *)
Lemma group_loop_total so cns m : forall fuel rem e,
  length rem <= fuel -> NoDup rem ->
  (forall a b, In a rem -> together m a b -> In b rem) ->
  group_loop fuel rem m so cns = LErr e ->
  exists n src snk, In n rem /\ component_of m n src snk /\ hub_create src snk so cns = LErr e.
Proof.
  induction fuel as [|f IH]; intros rem e L ND C H; destruct rem as [|n rem]; simpl in H; try discriminate; [simpl in L; lia|].
  destruct (forward_closure_spec m n) as [src [snk [E Co]]]. rewrite E in H.
  assert (Co' := Co). destruct Co' as [N1 [N2 [S1 S2]]].
  destruct (remove_each_total src (n :: rem)) as [rest R]; [assumption|..].
  { intros a Ha. apply S1 in Ha. apply (C n); [now left | assumption]. }
  rewrite R in H. assert (P := remove_each_perm _ _ _ R).
  destruct (hub_create src snk so cns) as [h|e'] eqn:Hc.
  - destruct (group_loop f rest m so cns) as [hs'|e'] eqn:G; [discriminate|]. injection H as <-.
    assert (ND' : NoDup (src ++ rest)) by (apply (Permutation_NoDup P ND)).
    destruct (IH rest e') as [n' [s' [k' [H1 [H2 H3]]]]]; try assumption.
    + apply Permutation_length in P. rewrite app_length in P.
      assert (In n src) by (apply S1, rt_refl). destruct src; [destruct H|]. simpl in *. lia.
    + clear - ND'. induction src; simpl in ND'; [assumption|]. inversion ND'; auto.
    + intros a b Ha T. assert (Hb : In b (src ++ rest)).
      { apply (Permutation_in _ P). apply (C a); [|assumption].
        apply (Permutation_in _ (Permutation_sym P)). apply in_or_app. now right. }
      apply in_app_or in Hb. destruct Hb as [Hb|Hb]; [|assumption]. exfalso.
      assert (In a src).
      { apply S1. eapply rt_trans; [apply S1; exact Hb|]. now apply together_sym. }
      clear - ND' Ha H. induction src as [|x src IHs]; [destruct H|]. simpl in ND'.
      inversion ND' as [|? ? N ND'']; subst. destruct H as [->|H]; [|auto].
      apply N, in_or_app. now right.
    + exists n', s', k'. split; [|auto]. apply (Permutation_in _ (Permutation_sym P)). apply in_or_app. now right.
  - injection H as <-. exists n, src, snk. split; [now left|]. auto.
Qed.

(** ** Merging of forced orders *)
Lemma merge_node_group fos n : fold_left (fun n fo => match n with
    | Single x => if smem x fo then Group fo else n | Group _ => n end) fos (Group n) = Group n.
Proof. induction fos; simpl; auto. Qed.

Lemma merge_node_In fos s fo : merge_node fos s = Group fo -> In fo fos /\ In s fo.
Proof.
  unfold merge_node. induction fos as [|x fos IH]; simpl; [discriminate|].
  destruct (smem s x) eqn:E.
  - rewrite merge_node_group. intros [= <-]. apply smem_In in E. auto.
  - intros H. destruct (IH H). auto.
Qed.
Lemma merge_node_Single fos s x : merge_node fos s = Single x -> x = s /\ forall fo, In fo fos -> ~ In s fo.
Proof.
  unfold merge_node. induction fos as [|f fos IH]; simpl.
  - intros [= <-]. split; [reflexivity | intros fo []].
  - destruct (smem s f) eqn:E; [rewrite merge_node_group; discriminate|].
    intros H. destruct (IH H) as [-> H1]. split; [reflexivity|]. apply smem_false in E.
    intros fo [<-|Hf]; auto.
Qed.
Lemma merge_node_cases fos s :
  (exists fo, merge_node fos s = Group fo /\ In fo fos /\ In s fo) \/
  (merge_node fos s = Single s /\ forall fo, In fo fos -> ~ In s fo).
Proof.
  destruct (merge_node fos s) as [x|fo] eqn:E.
  - right. destruct (merge_node_Single _ _ _ E) as [-> H]. auto.
  - left. exists fo. split; [reflexivity|]. now apply merge_node_In.
Qed.

(** ** Permutations *)
Lemma selections_spec {A} (l : list A) x r :
  In (x, r) (selections l) -> Permutation l (x :: r).
Proof.
  revert x r. induction l as [|y l IH]; simpl; intros x r H; [destruct H|].
  destruct H as [[= <- <-]|H]; [apply Permutation_refl|].
  apply in_map_iff in H. destruct H as [[x' r'] [[= <- <-] H]]. simpl.
  rewrite (IH _ _ H). apply perm_swap.
Qed.
Lemma selections_complete {A} (l1 l2 : list A) x : In (x, l1 ++ l2) (selections (l1 ++ x :: l2)).
Proof.
  induction l1 as [|y l1 IH]; simpl; [now left|]. right. apply in_map_iff.
  exists (x, l1 ++ l2). auto.
Qed.
Lemma permutations_spec {A} (l p : list A) : In p (permutations l) <-> Permutation l p.
Proof.
  unfold permutations. remember (length l) as n eqn:E. symmetry in E. revert l p E.
  induction n as [|n IH]; intros l p E; simpl.
  - apply length_zero_iff_nil in E. subst l. split.
    + intros [<-|[]]. constructor.
    + intros H. apply Permutation_nil in H. subst. now left.
  - rewrite in_flat_map. split.
    + intros [[x r] [H1 H2]]. apply in_map_iff in H2. destruct H2 as [q [<- H2]]. simpl in *.
      assert (P := selections_spec _ _ _ H1). rewrite P. apply perm_skip.
      apply IH; [|assumption]. apply Permutation_length in P. simpl in P. lia.
    + intros P. destruct p as [|x q]; [apply Permutation_length in P; simpl in P; lia|].
      assert (Hx : In x l) by (apply (Permutation_in _ (Permutation_sym P)); now left).
      apply in_split in Hx. destruct Hx as [l1 [l2 ->]].
      exists (x, l1 ++ l2). split; [apply selections_complete|]. simpl. apply in_map. apply IH.
      * rewrite app_length in *. simpl in E. lia.
      * apply Permutation_sym, Permutation_cons_app_inv with x. now apply Permutation_sym.
Qed.

(** ** Blocks *)
(** The ones of a column form one contiguous block. *)
Definition block (col : list bool) : Prop :=
  exists a b c, col = repeat false a ++ repeat true b ++ repeat false c.

Lemma changes_0 l : changes false l = 0 <-> l = repeat false (length l).
Proof.
  induction l as [|[|] l IH]; simpl; [split; reflexivity | split; discriminate |].
  rewrite IH. split; [congruence | intros [= H]; exact H].
Qed.
Lemma changes_1 l : changes true l <= 1 <-> exists b c, l = repeat true b ++ repeat false c.
Proof.
  induction l as [|[|] l IH]; simpl.
  - split; [exists 0, 0; reflexivity | lia].
  - rewrite IH. split; intros [b [c H]].
    + exists (S b), c. simpl. congruence.
    + destruct b as [|b]; simpl in H; [destruct c; discriminate|]. injection H as H. eauto.
  - split.
    + intros H. assert (changes false l = 0) by lia. apply changes_0 in H0.
      exists 0, (S (length l)). simpl. congruence.
    + intros [b [c H]]. destruct b as [|b]; [|discriminate]. destruct c as [|c]; [discriminate|].
      simpl in H. injection H as H. assert (changes false l = 0); [|lia]. apply changes_0.
      rewrite H. now rewrite repeat_length.
Qed.
Lemma changes_block l : changes false l <= 2 <-> block l.
Proof.
  unfold block. induction l as [|[|] l IH]; simpl.
  - split; [exists 0, 0, 0; reflexivity | lia].
  - split.
    + intros H. assert (changes true l <= 1) by lia. apply changes_1 in H0. destruct H0 as [b [c ->]].
      exists 0, (S b), c. reflexivity.
    + intros [a [b [c H]]]. destruct a as [|a]; [|discriminate]. destruct b as [|b]; [destruct c; discriminate|].
      simpl in H. injection H as H. assert (changes true l <= 1); [|lia]. apply changes_1. eauto.
  - rewrite IH. split; intros [a [b [c H]]].
    + exists (S a), b, c. simpl. congruence.
    + destruct a as [|a]; simpl in H.
      * destruct b as [|b]; [|discriminate]. destruct c as [|c]; [discriminate|]. simpl in H. injection H as H.
        exists 0, 0, c. assumption.
      * injection H as H. eauto.
Qed.

Lemma can_be_connected_spec ncols table :
  can_be_connected_with_single_buffer ncols table = true <->
  forall j, j < ncols -> block (column table j).
Proof.
  unfold can_be_connected_with_single_buffer. rewrite forallb_forall. split.
  - intros H j Hj. apply changes_block. apply Nat.leb_le. apply H. apply in_seq. lia.
  - intros H j Hj. apply in_seq in Hj. apply Nat.leb_le, changes_block, H. lia.
Qed.

Lemma permute_rows_spec nesting ncols table :
  match permute_rows nesting ncols table with
  | Some p => exists q, Permutation nesting q /\ p = flatten q /\
                forall j, j < ncols -> block (column (map (fun i => nth i table []) p) j)
  | None => forall q, Permutation nesting q ->
                ~ forall j, j < ncols -> block (column (map (fun i => nth i table []) (flatten q)) j)
  end.
Proof.
  unfold permute_rows. destruct (find _ _) as [p|] eqn:E.
  - apply find_some in E. destruct E as [E1 E2]. rewrite can_be_connected_spec in E2.
    apply in_map_iff in E1. destruct E1 as [q [<- E1]]. exists q.
    split; [now apply permutations_spec | auto].
  - intros q Hq Hb. assert (X := find_none _ _ E (flatten q)). cbv beta in X.
    assert (Y : can_be_connected_with_single_buffer ncols (map (fun i => nth i table []) (flatten q)) = true).
    { apply (proj2 (can_be_connected_spec _ _)). exact Hb. }
    rewrite X in Y; [discriminate|]. apply in_map. now apply permutations_spec.
Qed.

(** ** Offsets *)
Lemma offset_0 sizes : offset sizes 0 = 0.
Proof. reflexivity. Qed.
Lemma offset_S sizes i : offset sizes (S i) = offset sizes i + nth i sizes 0.
Proof.
  unfold offset. revert sizes. induction i as [|i IH]; intros [|x sizes]; cbn [firstn fold_right nth]; try reflexivity.
  - lia.
  - specialize (IH sizes). destruct sizes; simpl in *; lia.
Qed.
Lemma offset_mono sizes i j : i <= j -> offset sizes i <= offset sizes j.
Proof. induction 1; [lia|]. rewrite offset_S. lia. Qed.
Lemma offset_all sizes n : length sizes <= n -> offset sizes n = fold_right Nat.add 0 sizes.
Proof. intros H. unfold offset. now rewrite firstn_all2. Qed.

(** Positions between two offsets belong to exactly one part. *)
Lemma offset_find sizes a b pos : a <= b ->
  (offset sizes a <= pos < offset sizes b <->
   exists i, a <= i < b /\ offset sizes i <= pos < offset sizes (S i)).
Proof.
  intros H. split.
  - intros Hp. induction H as [|b H IH]; [lia|].
    destruct (le_lt_dec (offset sizes b) pos) as [L|L].
    + exists b. lia.
    + destruct IH as [i Hi]; [lia|]. exists i. lia.
  - intros [i [Hi Hp]]. assert (A := offset_mono sizes a i). assert (B := offset_mono sizes (S i) b). lia.
Qed.
Lemma offset_unique sizes i j pos :
  offset sizes i <= pos < offset sizes (S i) -> offset sizes j <= pos < offset sizes (S j) -> i = j.
Proof.
  intros Hi Hj. destruct (lt_eq_lt_dec i j) as [[H|H]|H]; [|assumption|]; exfalso.
  - assert (offset sizes (S i) <= offset sizes j) by (apply offset_mono; lia). lia.
  - assert (offset sizes (S j) <= offset sizes i) by (apply offset_mono; lia). lia.
Qed.

(** ** argmax on blocks *)
Lemma existsb_repeat_false n : existsb (fun b : bool => b) (repeat false n) = false.
Proof. induction n; simpl; auto. Qed.
Lemma existsb_id_app l1 l2 : existsb (fun b : bool => b) (l1 ++ l2) =
  existsb (fun b => b) l1 || existsb (fun b => b) l2.
Proof. apply existsb_app. Qed.
Lemma first_true_block a b r : first_true (repeat false a ++ repeat true (S b) ++ r) = a.
Proof.
  induction a as [|a IH]; [reflexivity|].
  set (X := repeat false a ++ repeat true (S b) ++ r) in *.
  assert (E : existsb (fun b => b) X = true).
  { unfold X. rewrite !existsb_id_app. cbn [repeat existsb orb]. apply orb_true_r. }
  change (first_true (false :: X) = S a). cbn [first_true]. now rewrite E, IH.
Qed.
Lemma rev_repeat {A} (x : A) n : rev (repeat x n) = repeat x n.
Proof.
  induction n as [|n IH]; [reflexivity|]. simpl. rewrite IH. symmetry. apply (repeat_cons n x).
Qed.

Lemma nth_block a b c i :
  nth i (repeat false a ++ repeat true b ++ repeat false c) false = true <-> a <= i < a + b.
Proof.
  destruct (le_lt_dec a i) as [H|H].
  - rewrite app_nth2, repeat_length by (rewrite repeat_length; lia).
    destruct (le_lt_dec b (i - a)) as [H2|H2].
    + rewrite app_nth2, repeat_length by (rewrite repeat_length; lia).
      assert (N : nth (i - a - b) (repeat false c) false = false).
      { destruct (nth_in_or_default (i - a - b) (repeat false c) false) as [X|X]; [|assumption].
        now apply repeat_spec in X. }
      rewrite N. split; [discriminate | lia].
    + rewrite app_nth1 by (rewrite repeat_length; lia).
      assert (N : nth (i - a) (repeat true b) false = true).
      { apply (repeat_spec b true). apply nth_In. rewrite repeat_length. lia. }
      rewrite N. split; [lia | reflexivity].
  - rewrite app_nth1 by (rewrite repeat_length; lia).
    assert (N : nth i (repeat false a) false = false).
    { destruct (nth_in_or_default i (repeat false a) false) as [X|X]; [|assumption].
      now apply repeat_spec in X. }
    rewrite N. split; [discriminate | lia].
Qed.

(** ** Specification of a hub *)
(** [hub_ok so cns source_set sink_set h]: what the properties C10 and C11 say
    about a hub. *)
Definition hub_ok (so : string -> option lstruct) (cns : list (string * string))
  (source_set sink_set : list node) (h : hub) : Prop :=
  (* the sources, groups kept together and in order *)
  (exists order, Permutation source_set order /\ h_sources h = flat_map node_flat order) /\
  (* the sinks *)
  (forall t, In t (h_sinks h) <-> In (Single t) sink_set) /\
  (* sizes *)
  length (h_sizes h) = length (h_sources h) /\
  (forall i s, nth_error (h_sources h) i = Some s ->
     exists st, so s = Some st /\ nth_error (h_sizes h) i = Some (ls_size st) /\
                ls_btype st = h_btype h /\ ls_ctx st <= h_ctx h /\ ls_bwd st = h_bwd h) /\
  h_size h = fold_right Nat.add 0 (h_sizes h) /\
  (* the table *)
  length (h_table h) = length (h_sources h) /\
  (forall i j s t, nth_error (h_sources h) i = Some s -> nth_error (h_sinks h) j = Some t ->
     (nth i (column (h_table h) j) false = true <-> In (s, t) cns)) /\
  (forall j, j < length (h_sinks h) -> block (column (h_table h) j)).

Lemma Forall2_weaken {A B} (P Q : A -> B -> Prop) l1 l2 :
  (forall a b, P a b -> Q a b) -> Forall2 P l1 l2 -> Forall2 Q l1 l2.
Proof. intros H F. induction F; constructor; auto. Qed.

Lemma nodes_nesting (ns : list node) :
  forall (pre : list string) i, i = length pre ->
  Forall2 (fun n q => forall rest, map (fun k => nth k (pre ++ flat_map node_flat ns ++ rest) "") (flatten1 q) = node_flat n)
    ns (fst (nest_list (map node_nested ns) i)) /\
  snd (nest_list (map node_nested ns) i) = length (pre ++ flat_map node_flat ns).
Proof.
  induction ns as [|n ns IH]; intros pre i ->; cbn [map nest_list].
  - simpl. split; [constructor | now rewrite app_nil_r].
  - assert (K : fst (nest1 (node_nested n) (length pre)) =
                match n with Single _ => Leaf (length pre) | Group l => Node (map (@Leaf nat) (seq (length pre) (length l))) end
                /\ snd (nest1 (node_nested n) (length pre)) = length pre + length (node_flat n)).
    { destruct n as [s|l]; cbn [node_nested node_flat].
      - simpl. split; [reflexivity | lia].
      - rewrite nest1_node. generalize (length pre) as j. induction l as [|s l IHl]; intros j; simpl.
        + split; [reflexivity | lia].
        + destruct (IHl (S j)) as [A B].
          destruct (nest_list (map (@Leaf string) l) (S j)) as [l' j'] eqn:E. simpl in *.
          injection A as A. rewrite A, B. split; [reflexivity | lia]. }
    destruct (nest1 (node_nested n) (length pre)) as [q j] eqn:E. cbn [fst snd] in K. destruct K as [Kq Kj].
    assert (Lp : j = length (pre ++ node_flat n)) by (rewrite app_length; lia).
    specialize (IH (pre ++ node_flat n) j Lp). destruct IH as [IH1 IH2].
    destruct (nest_list (map node_nested ns) j) as [r' j2]. cbn [fst snd] in *.
    split.
    + constructor.
      * intros rest. cbn [flat_map]. rewrite Kq. destruct n as [s|l]; cbn [node_flat flatten1].
        -- simpl. rewrite app_nth2, Nat.sub_diag by lia. reflexivity.
        -- replace (flat_map flatten1 (map (@Leaf nat) (seq (length pre) (length l)))) with (seq (length pre) (length l)).
           2:{ generalize (length pre). clear. induction l as [|s l IHl]; intros j; simpl; [reflexivity|]. now rewrite <- IHl. }
           rewrite <- (app_assoc l). clear. revert pre. induction l as [|s l IHl]; intros pre; simpl; [reflexivity|].
           f_equal.
           ++ rewrite app_nth2, Nat.sub_diag by lia. reflexivity.
           ++ specialize (IHl (pre ++ [s])). rewrite app_length in IHl. simpl in IHl.
              rewrite Nat.add_1_r in IHl. rewrite <- app_assoc in IHl. exact IHl.
      * revert IH1. apply Forall2_weaken. intros a b H rest. specialize (H rest). cbn [flat_map].
        rewrite <- !app_assoc in H. rewrite <- app_assoc. exact H.
    + rewrite IH2. cbn [flat_map]. now rewrite <- app_assoc.
Qed.

Lemma get_all_spec {A B} (f : A -> option B) l ys : get_all f l = Some ys ->
  length ys = length l /\ forall i x, nth_error l i = Some x -> exists y, f x = Some y /\ nth_error ys i = Some y.
Proof.
  revert ys. induction l as [|a l IH]; simpl; intros ys H.
  - injection H as <-. split; [reflexivity|]. intros [|i] x; discriminate.
  - destruct (f a) as [y|] eqn:E; [|discriminate]. destruct (get_all f l) as [r|]; [|discriminate].
    injection H as <-. destruct (IH r eq_refl) as [L N]. split; [simpl; now rewrite L|].
    intros [|i] x Hx; simpl in *; [injection Hx as <-; eauto | auto].
Qed.

Lemma uniform_nat_spec l b : uniform_nat l = Some b -> forall x, In x l -> x = b.
Proof.
  destruct l as [|a l]; simpl; [discriminate|]. destruct (forallb (Nat.eqb a) l) eqn:E; [|discriminate].
  intros [= <-] x [->|H]; [reflexivity|]. rewrite forallb_forall in E. symmetry. now apply Nat.eqb_eq, E.
Qed.
Lemma uniform_bool_spec l b : uniform_bool l = Some b -> forall x, In x l -> x = b.
Proof.
  destruct l as [|a l]; simpl; [discriminate|]. destruct (forallb (Bool.eqb a) l) eqn:E; [|discriminate].
  intros [= <-] x [->|H]; [reflexivity|]. rewrite forallb_forall in E. symmetry. now apply eqb_prop, E.
Qed.

Lemma single_names_spec l r : single_names l = Some r ->
  r = flat_map node_flat l /\ (forall t, In t r <-> In (Single t) l) /\ l = map Single r.
Proof.
  unfold single_names. destruct (forallb _ l) eqn:E; [|discriminate]. intros [= <-]. split; [reflexivity|].
  induction l as [|[s|g] l IH]; simpl in *; try discriminate.
  - split; [tauto | reflexivity].
  - destruct (IH E) as [I1 I2]. split; [|congruence]. intros t. rewrite I1. split; intros [H|H]; auto; left; congruence.
Qed.

Lemma max_ge l x : In x l -> x <= fold_right Nat.max 0 l.
Proof. induction l as [|y l IH]; simpl; [intros []|]. intros [->|H]; [lia|]. specialize (IH H). lia. Qed.

Lemma column_map table perm j :
  column (map (fun i => nth i table []) perm) j = map (fun i => nth j (nth i table []) false) perm.
Proof. unfold column. now rewrite map_map. Qed.

Lemma sort_nodes_perm l s : sort_nodes l = Some s -> Permutation l s.
Proof.
  unfold sort_nodes. destruct (_ || _); [|discriminate]. intros [= <-]. apply Permutation_sym, isort_perm.
Qed.

Lemma isort_string_In x l : In x (isort String.leb l) <-> In x l.
Proof. apply isort_In. Qed.

Lemma table_entry sources sinks cns i j s t :
  nth_error sources i = Some s -> nth_error sinks j = Some t ->
  (nth j (nth i (connection_table sources sinks cns) []) false = true <-> In (s, t) cns).
Proof.
  intros Hi Hj. unfold connection_table.
  set (f := fun s0 t0 => existsb (fun c : string * string => String.eqb (fst c) s0 && String.eqb (snd c) t0) cns).
  assert (E : nth i (map (fun s0 => map (f s0) sinks) sources) [] = map (f s) sinks).
  { apply nth_error_nth. rewrite nth_error_map, Hi. reflexivity. }
  assert (E2 : nth j (map (f s) sinks) false = f s t).
  { apply nth_error_nth. rewrite nth_error_map, Hj. reflexivity. }
  change (nth j (nth i (map (fun s0 => map (f s0) sinks) sources) []) false = true <-> In (s, t) cns).
  rewrite E, E2. unfold f. rewrite existsb_exists. split.
  - intros [[a b] [H1 H2]]. apply andb_true_iff in H2. rewrite !String.eqb_eq in H2. simpl in H2.
    destruct H2 as [-> ->]. assumption.
  - intros H. exists (s, t). split; [assumption|]. simpl. now rewrite !String.eqb_refl.
Qed.

Lemma hub_create_spec source_set sink_set so cns h :
  hub_create source_set sink_set so cns = LOk h -> hub_ok so cns source_set sink_set h.
Proof.
  unfold hub_create. destruct (sort_nodes source_set) as [srt|] eqn:Es; [|discriminate].
  destruct (get_all so (flat_map node_flat srt)) as [structs|] eqn:Eg; [|discriminate].
  destruct (uniform_nat (map ls_btype structs)) as [btype|] eqn:Eb; [|discriminate].
  destruct (single_names sink_set) as [names|] eqn:En; [|discriminate]. cbv zeta.
  set (flat := flat_map node_flat srt) in *. set (sinks := isort String.leb names).
  set (table := connection_table flat sinks cns).
  set (nesting := convert_to_nested_indices (map node_nested srt)).
  assert (PR := permute_rows_spec nesting (length sinks) table).
  destruct (permute_rows nesting (length sinks) table) as [perm|]; [|discriminate].
  destruct (uniform_bool _) as [bwd|] eqn:Eu; [|discriminate]. intros [= <-].
  destruct PR as [q [Pq [-> Hb]]].
  destruct (get_all_spec _ _ _ Eg) as [Lg Ng].
  (* permuted nodes *)
  destruct (nodes_nesting srt [] 0 eq_refl) as [NN _]. simpl in NN.
  change (fst (nest_list (map node_nested srt) 0)) with nesting in NN.
  assert (NN' : Forall2 (fun q n => forall rest, map (fun k => nth k (flat ++ rest) "") (flatten1 q) = node_flat n) nesting srt).
  { clear - NN. induction NN; constructor; auto. }
  destruct (Permutation_Forall2 Pq NN') as [order [Po FO]].
  assert (Esrc : map (fun i => nth i flat "") (flatten q) = flat_map node_flat order).
  { clear - FO. unfold flatten. induction FO as [|a b l1 l2 H F IH]; simpl; [reflexivity|].
    rewrite map_app, IH. f_equal. specialize (H []). now rewrite app_nil_r in H. }
  assert (Hperm : Permutation (flatten nesting) (flatten q)).
  { unfold flatten. clear - Pq. induction Pq; simpl.
    - constructor.
    - now apply Permutation_app_head.
    - rewrite !app_assoc. apply Permutation_app_tail, Permutation_app_comm.
    - eapply Permutation_trans; eauto. }
  assert (Hseq : flatten nesting = seq 0 (length flat)).
  { unfold nesting. rewrite (proj1 (convert_spec _)). f_equal. unfold flat, flatten. clear.
    induction srt as [|[s|l] srt IH]; simpl; [reflexivity | now rewrite IH |].
    rewrite !app_length, IH. f_equal. clear. induction l; simpl; auto. }
  rewrite Hseq in Hperm. set (perm := flatten q) in *.
  assert (Bound : forall i k, nth_error perm i = Some k -> k < length flat).
  { intros i k Hk. apply nth_error_In in Hk. apply (Permutation_in _ (Permutation_sym Hperm)) in Hk.
    apply in_seq in Hk. lia. }
  assert (Src : forall i s, nth_error (map (fun i => nth i flat "") perm) i = Some s ->
            exists k, nth_error perm i = Some k /\ nth_error flat k = Some s).
  { intros i s H. rewrite nth_error_map in H. destruct (nth_error perm i) as [k|] eqn:Ek; [|discriminate].
    exists k. split; [reflexivity|]. injection H as <-. apply nth_error_nth'. eapply Bound; eauto. }
  unfold hub_ok. cbn [h_sources h_sinks h_btype h_ctx h_table h_sizes h_size h_bwd].
  split.
  { exists order. split; [|assumption]. rewrite (sort_nodes_perm _ _ Es). assumption. }
  destruct (single_names_spec _ _ En) as [_ [Hn _]].
  split. { intros t. unfold sinks. rewrite isort_string_In. apply Hn. }
  split. { now rewrite !map_length. }
  split.
  { intros i s H. destruct (Src i s H) as [k [Hk Hs]].
    destruct (Ng k s Hs) as [st [H1 H2]]. exists st. split; [assumption|].
    split.
    - rewrite nth_error_map, Hk. simpl. now rewrite (nth_error_nth _ _ _ H2).
    - apply nth_error_In in H2. split; [|split].
      + apply (uniform_nat_spec _ _ Eb). now apply in_map.
      + apply max_ge. now apply in_map.
      + apply (uniform_bool_spec _ _ Eu). apply in_map_iff. exists k. split; [|eapply nth_error_In; eauto].
        destruct (Ng k s Hs) as [st' [K1 K2]]. rewrite H1 in K1. injection K1 as <-.
        now rewrite (nth_error_nth _ _ _ K2). }
  split; [reflexivity|]. split; [now rewrite !map_length|]. split.
  { intros i j s t Hi Hj. destruct (Src i s Hi) as [k [Hk Hs]].
    rewrite column_map.
    replace (nth i (map (fun i0 => nth j (nth i0 table []) false) perm) false) with (nth j (nth k table []) false).
    - now apply table_entry.
    - symmetry. apply nth_error_nth. rewrite nth_error_map, Hk. reflexivity. }
  exact Hb.
Qed.

(** ** Layout of a hub (C10) *)
Lemma source_slice_spec so cns ss ks h : hub_ok so cns ss ks h ->
  forall i s, nth_error (h_sources h) i = Some s ->
  nth_error (source_indices h) i = Some (s, (offset (h_sizes h) i, offset (h_sizes h) (S i))) /\
  exists st, so s = Some st /\ offset (h_sizes h) (S i) = offset (h_sizes h) i + ls_size st.
Proof.
  intros [_ [_ [L [S _]]]] i s H. split.
  - unfold source_indices. rewrite nth_error_map.
    assert (Hi : i < length (h_sources h)) by (apply nth_error_Some; congruence).
    rewrite (nth_error_nth' (seq 0 (length (h_sources h))) 0) by (rewrite seq_length; lia).
    rewrite seq_nth by lia. simpl. now rewrite (nth_error_nth _ _ _ H).
  - destruct (S i s H) as [st [H1 [H2 _]]]. exists st. split; [assumption|].
    rewrite offset_S. now rewrite (nth_error_nth _ _ _ H2).
Qed.

Lemma sink_slice_block so cns ss ks h j t : hub_ok so cns ss ks h ->
  nth_error (h_sinks h) j = Some t ->
  (exists s, In s (h_sources h) /\ In (s, t) cns) ->
  exists a b, a < b <= length (h_sources h) /\
    sink_slice h j = (offset (h_sizes h) a, offset (h_sizes h) b) /\
    forall i s, nth_error (h_sources h) i = Some s -> (In (s, t) cns <-> a <= i < b).
Proof.
  intros [_ [_ [_ [_ [_ [Lt [Tb Bl]]]]]]] Hj [s0 [Hs0 Hc0]].
  assert (Hjl : j < length (h_sinks h)) by (apply nth_error_Some; congruence).
  destruct (Bl j Hjl) as [a [b [c E]]].
  apply In_nth_error in Hs0. destruct Hs0 as [i0 Hi0].
  assert (H0 := proj2 (Tb i0 j s0 t Hi0 Hj) Hc0). rewrite E in H0. apply nth_block in H0.
  assert (Lc : a + b + c = length (h_sources h)).
  { rewrite <- Lt. assert (X := f_equal (@length bool) E). unfold column in X.
    rewrite map_length, !app_length, !repeat_length in X. lia. }
  exists a, (a + b). split; [lia|]. split.
  - unfold sink_slice. rewrite E. rewrite !rev_app_distr, !rev_repeat, <- app_assoc.
    destruct b as [|b]; [lia|]. rewrite !first_true_block. rewrite Lt. do 2 f_equal. lia.
  - intros i s Hi. rewrite <- (Tb i j s t Hi Hj), E. apply nth_block.
Qed.

(** The slice of a sink consists of exactly the cells of its sources. *)
Lemma sink_slice_union so cns ss ks h j t : hub_ok so cns ss ks h ->
  nth_error (h_sinks h) j = Some t ->
  (exists s, In s (h_sources h) /\ In (s, t) cns) ->
  forall pos, fst (sink_slice h j) <= pos < snd (sink_slice h j) <->
    exists i s, nth_error (h_sources h) i = Some s /\ In (s, t) cns /\
                offset (h_sizes h) i <= pos < offset (h_sizes h) (S i).
Proof.
  intros Hok Hj Hex pos. destruct (sink_slice_block _ _ _ _ _ _ _ Hok Hj Hex) as [a [b [Hab [-> Hi]]]].
  simpl. rewrite offset_find by lia. split.
  - intros [i [H1 H2]]. destruct (nth_error (h_sources h) i) as [s|] eqn:Es.
    + exists i, s. split; [assumption|]. split; [now apply (Hi i s Es) | assumption].
    + exfalso. apply nth_error_None in Es. lia.
  - intros [i [s [H1 [H2 H3]]]]. exists i. split; [now apply (Hi i s H1) | assumption].
Qed.

(** Where the features of a source are within the slice of a sink. *)
Lemma hub_size_offset so cns ss ks h : hub_ok so cns ss ks h ->
  offset (h_sizes h) (length (h_sources h)) = h_size h.
Proof. intros [_ [_ [L [_ [-> _]]]]]. apply offset_all. lia. Qed.

(** ** Completeness of the search (C11) *)
(** In the order [order] of the nodes the sources of the sink t are adjacent. *)
Definition adjacent (cns : list (string * string)) (order : list node) (t : string) : Prop :=
  exists a b, forall i s, nth_error (flat_map node_flat order) i = Some s -> (In (s, t) cns <-> a <= i < b).

Lemma block_of_interval (l : list bool) a b :
  (forall i, i < length l -> (nth i l false = true <-> a <= i < b)) -> block l.
Proof.
  intros H. apply changes_block. revert a b H. induction l as [|x l IH]; intros a b H; [simpl; lia|].
  destruct x; simpl.
  - assert (H0 := proj1 (H 0 ltac:(simpl; lia)) eq_refl). assert (a = 0) by lia. subst a.
    assert (changes true l <= 1); [|lia]. apply changes_1. exists (Nat.min (b - 1) (length l)), (length l - Nat.min (b - 1) (length l)).
    apply nth_error_ext. intros i. destruct (le_lt_dec (length l) i) as [L|L].
    + rewrite (proj2 (nth_error_None l i)) by assumption. symmetry. apply nth_error_None.
      rewrite app_length, !repeat_length. lia.
    + rewrite (nth_error_nth' l false) by assumption. symmetry.
      rewrite (nth_error_nth' _ false) by (rewrite app_length, !repeat_length; lia). f_equal.
      specialize (H (S i) ltac:(simpl; lia)). simpl in H.
      assert (X := nth_block 0 (Nat.min (b - 1) (length l)) (length l - Nat.min (b - 1) (length l)) i).
      simpl in X. destruct (nth i l false), (nth i (_ ++ _) false); try reflexivity.
      * assert (S i < b) by (apply H; reflexivity). apply X. lia.
      * assert (K : i < Nat.min (b - 1) (length l)) by (apply X; reflexivity). symmetry. apply H. lia.
  - apply (IH (a - 1) (b - 1)). intros i Hi. specialize (H (S i) ltac:(simpl; lia)). simpl in H. rewrite H.
    assert (Z := H). destruct a as [|a]; [|lia].
    split; [lia|]. intros K. lia.
Qed.

Lemma column_order flat sinks cns perm j t :
  nth_error sinks j = Some t ->
  (forall k, In k perm -> k < length flat) ->
  column (map (fun i => nth i (connection_table flat sinks cns) []) perm) j =
  map (fun s => existsb (fun c => String.eqb (fst c) s && String.eqb (snd c) t) cns)
      (map (fun i => nth i flat "") perm).
Proof.
  intros Hj B. rewrite column_map, map_map. apply map_ext_in. intros k Hk.
  unfold connection_table.
  set (f := fun s0 t0 => existsb (fun c : string * string => String.eqb (fst c) s0 && String.eqb (snd c) t0) cns).
  assert (Hn : nth_error flat k = Some (nth k flat "")) by (apply nth_error_nth'; auto).
  assert (E : nth k (map (fun s0 => map (f s0) sinks) flat) [] = map (f (nth k flat "")) sinks).
  { apply nth_error_nth. rewrite nth_error_map, Hn. reflexivity. }
  assert (E2 : nth j (map (f (nth k flat "")) sinks) false = f (nth k flat "") t).
  { apply nth_error_nth. rewrite nth_error_map, Hj. reflexivity. }
  change (nth j (nth k (map (fun s0 => map (f s0) sinks) flat) []) false = f (nth k flat "") t).
  now rewrite E, E2.
Qed.

Lemma nesting_flatten srt :
  flatten (convert_to_nested_indices (map node_nested srt)) = seq 0 (length (flat_map node_flat srt)).
Proof.
  rewrite (proj1 (convert_spec _)). f_equal. unfold flatten.
  induction srt as [|[s|l] srt IH]; simpl; [reflexivity | now rewrite IH |].
  rewrite !app_length, IH. f_equal. clear. induction l; simpl; auto.
Qed.
Lemma flatten_perm {A} (p q : list (nested A)) : Permutation p q -> Permutation (flatten p) (flatten q).
Proof.
  unfold flatten. intros P. induction P; simpl.
  - constructor.
  - now apply Permutation_app_head.
  - rewrite !app_assoc. apply Permutation_app_tail, Permutation_app_comm.
  - eapply Permutation_trans; eauto.
Qed.

Lemma nesting_order srt order : Permutation srt order ->
  exists q, Permutation (convert_to_nested_indices (map node_nested srt)) q /\
    map (fun i => nth i (flat_map node_flat srt) "") (flatten q) = flat_map node_flat order.
Proof.
  intros P. destruct (nodes_nesting srt [] 0 eq_refl) as [NN _]. simpl in NN.
  destruct (Permutation_Forall2 P NN) as [q [Pq F]]. exists q. split; [exact Pq|].
  clear - F. unfold flatten. induction F as [|a b l1 l2 H F IH]; simpl; [reflexivity|].
  rewrite map_app, IH. f_equal. specialize (H []). now rewrite app_nil_r in H.
Qed.

Lemma search_complete srt order sinks cns :
  Permutation srt order -> (forall t, In t sinks -> adjacent cns order t) ->
  permute_rows (convert_to_nested_indices (map node_nested srt)) (length sinks)
     (connection_table (flat_map node_flat srt) sinks cns) <> None.
Proof.
  intros P A E.
  assert (PR := permute_rows_spec (convert_to_nested_indices (map node_nested srt)) (length sinks)
     (connection_table (flat_map node_flat srt) sinks cns)). rewrite E in PR.
  destruct (nesting_order srt order P) as [q [Pq Eq]]. apply (PR q Pq). intros j Hj.
  assert (Ht := nth_error_nth' sinks "" Hj).
  rewrite (column_order _ _ _ _ _ _ Ht).
  2:{ intros k Hk. apply (Permutation_in _ (Permutation_sym (flatten_perm _ _ Pq))) in Hk.
      rewrite nesting_flatten in Hk. apply in_seq in Hk. lia. }
  rewrite Eq. destruct (A (nth j sinks "")) as [a [b H]]; [apply nth_In; assumption|].
  apply (block_of_interval _ a b). intros i Hi. rewrite map_length in Hi.
  assert (Hs := nth_error_nth' _ "" Hi). rewrite <- (H i _ Hs).
  set (s := nth i (flat_map node_flat order) "") in *.
  rewrite (nth_error_nth _ i (x := existsb (fun c => String.eqb (fst c) s && String.eqb (snd c) (nth j sinks "")) cns)).
  2:{ rewrite nth_error_map, Hs. reflexivity. }
  rewrite existsb_exists. split.
  - intros [[u v] [H1 H2]]. apply andb_true_iff in H2. rewrite !String.eqb_eq in H2. simpl in H2.
    destruct H2 as [<- <-]. assumption.
  - intros K. eexists. split; [exact K|]. simpl. now rewrite !String.eqb_refl.
Qed.

Lemma hub_create_failed source_set sink_set so cns :
  hub_create source_set sink_set so cns = LErr EFailedLayout ->
  forall order, Permutation source_set order ->
  exists t, In (Single t) sink_set /\ ~ adjacent cns order t.
Proof.
  unfold hub_create. destruct (sort_nodes source_set) as [srt|] eqn:Es; [|discriminate].
  destruct (get_all so (flat_map node_flat srt)) as [structs|] eqn:Eg; [|discriminate].
  destruct (uniform_nat (map ls_btype structs)) as [btype|] eqn:Eb; [|discriminate].
  destruct (single_names sink_set) as [names|] eqn:En; [|discriminate]. cbv zeta.
  destruct (single_names_spec _ _ En) as [_ [Hn _]].
  set (sinks := isort String.leb names).
  destruct (permute_rows _ _ _) as [perm|] eqn:E; [destruct (uniform_bool _); discriminate|].
  intros _ order P.
  assert (P' : Permutation srt order).
  { rewrite <- (sort_nodes_perm _ _ Es). assumption. }
  (* decidability of adjacency is not needed: the search tests it *)
  assert (PR := permute_rows_spec (convert_to_nested_indices (map node_nested srt)) (length sinks)
     (connection_table (flat_map node_flat srt) sinks cns)). rewrite E in PR.
  destruct (nesting_order srt order P') as [q [Pq Eq]]. specialize (PR q Pq).
  rewrite <- can_be_connected_spec in PR. apply not_true_is_false in PR.
  unfold can_be_connected_with_single_buffer in PR.
  assert (X : exists j, j < length sinks /\
     ~ block (column (map (fun i => nth i (connection_table (flat_map node_flat srt) sinks cns) []) (flatten q)) j)).
  { clear - PR. revert PR. set (g := fun j => _). intros PR.
    assert (Y : exists j, In j (seq 0 (length sinks)) /\ g j = false).
    { revert PR. induction (seq 0 (length sinks)) as [|x l IH]; simpl; [discriminate|].
      destruct (g x) eqn:Gx; [|eauto]. intros PR. destruct (IH PR) as [j [H1 H2]]. eauto. }
    destruct Y as [j [H1 H2]]. exists j. apply in_seq in H1. split; [lia|]. rewrite <- changes_block.
    apply Nat.leb_gt in H2. lia. }
  destruct X as [j [Hj NB]]. assert (Ht := nth_error_nth' sinks "" Hj).
  exists (nth j sinks ""). split; [apply Hn; apply (isort_string_In (nth j sinks "") names); now apply nth_In|].
  intros [a [b H]]. apply NB.
  rewrite (column_order _ _ _ _ _ _ Ht).
  2:{ intros k Hk. apply (Permutation_in _ (Permutation_sym (flatten_perm _ _ Pq))) in Hk.
      rewrite nesting_flatten in Hk. apply in_seq in Hk. lia. }
  rewrite Eq. apply (block_of_interval _ a b). intros i Hi. rewrite map_length in Hi.
  assert (Hs := nth_error_nth' _ "" Hi). rewrite <- (H i _ Hs).
  set (s := nth i (flat_map node_flat order) "") in *.
  rewrite (nth_error_nth _ i (x := existsb (fun c => String.eqb (fst c) s && String.eqb (snd c) (nth j sinks "")) cns)).
  2:{ rewrite nth_error_map, Hs. reflexivity. }
  rewrite existsb_exists. split.
  - intros [[u v] [H1 H2]]. apply andb_true_iff in H2. rewrite !String.eqb_eq in H2. simpl in H2.
    destruct H2 as [<- <-]. assumption.
  - intros K. eexists. split; [exact K|]. simpl. now rewrite !String.eqb_refl.
Qed.

Lemma get_all_total {A B} (f : A -> option B) l :
  (forall x, In x l -> exists y, f x = Some y) -> exists ys, get_all f l = Some ys.
Proof.
  induction l as [|x l IH]; simpl; intros H; [eauto|].
  destruct (H x) as [y ->]; [now left|]. destruct IH as [ys ->]; eauto.
Qed.
Lemma uniform_nat_total l b : l <> [] -> (forall x, In x l -> x = b) -> uniform_nat l = Some b.
Proof.
  destruct l as [|x l]; intros N H; [congruence|]. simpl. rewrite (H x) by now left.
  replace (forallb (Nat.eqb b) l) with true; [reflexivity|]. symmetry. apply forallb_forall.
  intros y Hy. apply Nat.eqb_eq. symmetry. apply H. now right.
Qed.
Lemma uniform_bool_total l b : l <> [] -> (forall x, In x l -> x = b) -> uniform_bool l = Some b.
Proof.
  destruct l as [|x l]; intros N H; [congruence|]. simpl. rewrite (H x) by now left.
  replace (forallb (Bool.eqb b) l) with true; [reflexivity|]. symmetry. apply forallb_forall.
  intros y Hy. apply Bool.eqb_true_iff. symmetry. apply H. now right.
Qed.

(** Nodes that can be sorted by Python 3: all paths or all tuples. *)
Definition same_kind (l : list node) : Prop :=
  (forall n, In n l -> is_group n = true) \/ (forall n, In n l -> is_group n = false).
Lemma sort_nodes_total l : same_kind l -> exists s, sort_nodes l = Some s.
Proof.
  intros H. unfold sort_nodes.
  replace (forallb is_group l || forallb (fun n => negb (is_group n)) l) with true; [eauto|].
  symmetry. apply orb_true_iff. rewrite !forallb_forall. destruct H as [H|H]; [now left | right].
  intros n Hn. now rewrite H.
Qed.

Lemma hub_create_total source_set sink_set so cns bt bw order :
  same_kind source_set ->
  (forall t, In t sink_set -> is_group t = false) ->
  (exists n s, In n source_set /\ In s (node_flat n)) ->
  (forall n s, In n source_set -> In s (node_flat n) ->
     exists st, so s = Some st /\ ls_btype st = bt /\ ls_bwd st = bw) ->
  Permutation source_set order ->
  (forall t, In (Single t) sink_set -> adjacent cns order t) ->
  exists h, hub_create source_set sink_set so cns = LOk h.
Proof.
  intros K1 K2 [n0 [s0 [Hn0 Hs0]]] HS P A. unfold hub_create.
  destruct (sort_nodes_total _ K1) as [srt Es]. rewrite Es. assert (Ps := sort_nodes_perm _ _ Es).
  assert (HS' : forall s, In s (flat_map node_flat srt) -> exists st, so s = Some st /\ ls_btype st = bt /\ ls_bwd st = bw).
  { intros s Hs. apply in_flat_map in Hs. destruct Hs as [n [Hn Hs]]. apply (HS n s); [|assumption].
    apply (Permutation_in _ (Permutation_sym Ps)); assumption. }
  destruct (get_all_total so (flat_map node_flat srt)) as [structs Eg].
  { intros s Hs. destruct (HS' s Hs) as [st [H _]]. eauto. }
  rewrite Eg. destruct (get_all_spec _ _ _ Eg) as [Lg Ng].
  assert (I0 : In s0 (flat_map node_flat srt)).
  { apply in_flat_map. exists n0. split; [|assumption]. now apply (Permutation_in _ Ps). }
  assert (HB : forall st, In st structs -> ls_btype st = bt /\ ls_bwd st = bw).
  { intros st Hst. apply In_nth_error in Hst. destruct Hst as [i Hi].
    assert (Li : i < length (flat_map node_flat srt)) by (rewrite <- Lg; apply nth_error_Some; congruence).
    assert (Hs := nth_error_nth' _ "" Li). destruct (Ng _ _ Hs) as [st' [H1 H2]].
    rewrite Hi in H2. injection H2 as <-. destruct (HS' _ (nth_error_In _ _ Hs)) as [st' [H3 H4]].
    rewrite H1 in H3. injection H3 as <-. assumption. }
  rewrite (uniform_nat_total (map ls_btype structs) bt).
  2:{ intros E. apply map_eq_nil in E. subst structs. destruct (flat_map node_flat srt); [destruct I0 | discriminate]. }
  2:{ intros x Hx. apply in_map_iff in Hx. destruct Hx as [st [<- Hst]]. now apply HB. }
  assert (En : exists names, single_names sink_set = Some names).
  { unfold single_names. replace (forallb (fun n => negb (is_group n)) sink_set) with true; [eauto|].
    symmetry. apply forallb_forall. intros n Hn. now rewrite K2. }
  destruct En as [names En]. rewrite En. cbv zeta. destruct (single_names_spec _ _ En) as [_ [Hn _]].
  set (nesting := convert_to_nested_indices (map node_nested srt)).
  assert (SC := search_complete srt order (isort String.leb names) cns).
  assert (PR := permute_rows_spec nesting (length (isort String.leb names))
     (connection_table (flat_map node_flat srt) (isort String.leb names) cns)).
  destruct (permute_rows _ _ _) as [perm|] eqn:Ep.
  2:{ exfalso. apply SC; [|..].
      - rewrite <- Ps. assumption.
      - intros t Ht. apply A, Hn. now apply (proj1 (isort_string_In t names)).
      - reflexivity. }
  destruct PR as [q [Pq [-> _]]].
  assert (Hin : forall k, In k (flatten q) <-> k < length (flat_map node_flat srt)).
  { intros k. assert (F := flatten_perm _ _ Pq). unfold nesting in F. rewrite nesting_flatten in F. split.
    - intros H. apply (Permutation_in _ (Permutation_sym F)) in H. apply in_seq in H. lia.
    - intros H. apply (Permutation_in _ F). apply in_seq. lia. }
  rewrite (uniform_bool_total _ bw); [eauto|..].
  - intros E. apply map_eq_nil in E. apply In_nth_error in I0. destruct I0 as [i Hi].
    assert (X : In i (flatten q)) by (apply Hin; apply nth_error_Some; congruence). rewrite E in X. destruct X.
  - intros x Hx. apply in_map_iff in Hx. destruct Hx as [k [<- Hk]]. apply Hin in Hk.
    apply HB. apply nth_In. now rewrite Lg.
Qed.
