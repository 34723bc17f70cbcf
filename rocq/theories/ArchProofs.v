(** Proofs for ArchModel.v: C03-C06. *)
From Coq Require Import String Ascii List Arith Bool Lia Permutation Sorting.Sorted Relations.
From Verif Require Import PyBase PyFacts UtilsModel NamesModel NamesProofs ArchModel.
Import ListNotations.
Open Scope string_scope.
Open Scope list_scope.
Open Scope nat_scope.

(** ** Specification vocabulary *)

(** [x] occurs before [y] in [l]. *)
Definition before {A} (l : list A) (x y : A) : Prop :=
  exists l1 l2 l3, l = l1 ++ x :: l2 ++ y :: l3.

(** Edges of the layer graph. *)
Definition edge (cns : list connection) (x y : string) : Prop :=
  exists c, In c cns /\ c_start c = x /\ c_end c = y.

Definition acyclic (cns : list connection) : Prop :=
  forall x, ~ clos_trans string (edge cns) x x.

(** [path cns x n]: a path of n edges starts in x. *)
Inductive path (cns : list connection) : string -> nat -> Prop :=
| path_0 x : path cns x 0
| path_S x y n : edge cns x y -> path cns y n -> path cns x (S n).

(** The longest path starting in x has n edges. *)
Definition height (cns : list connection) (x : string) (n : nat) : Prop :=
  path cns x n /\ ~ path cns x (S n).

(** ** Paths *)
Lemma path_pred cns x n : path cns x (S n) -> path cns x n.
Proof.
  revert x. induction n as [|n IH]; intros x H; [constructor|].
  inversion H; subst. econstructor; eauto.
Qed.
Lemma path_le cns x n m : m <= n -> path cns x n -> path cns x m.
Proof.
  intros L H. induction L as [|n L IH] in H |- *; [assumption|].
  apply IH. now apply path_pred.
Qed.
Lemma height_fun cns x n m : height cns x n -> height cns x m -> n = m.
Proof.
  intros [P1 N1] [P2 N2]. destruct (Nat.lt_total n m) as [L|[E|L]]; [|assumption|];
    exfalso; [apply N1 | apply N2]; eapply path_le; eauto.
Qed.

(** A list of nodes in which each node has an edge to the next. *)
Inductive chain (cns : list connection) : list string -> Prop :=
| chain_1 x : chain cns [x]
| chain_S x y l : edge cns x y -> chain cns (y :: l) -> chain cns (x :: y :: l).

Lemma path_chain cns x n : path cns x n -> exists l, chain cns (x :: l) /\ length l = n.
Proof.
  induction 1 as [x|x y n E P [l [C L]]].
  - exists []. split; [constructor | reflexivity].
  - exists (y :: l). split; [now constructor | simpl; lia].
Qed.

Lemma chain_reach cns l x y :
  chain cns (x :: l) -> In y l -> clos_trans string (edge cns) x y.
Proof.
  revert x. induction l as [|z l IH]; intros x C []; inversion C; subst.
  - now apply t_step.
  - eapply t_trans; [apply t_step; eassumption | auto].
Qed.

Lemma chain_dup_cycle cns l :
  chain cns l -> ~ NoDup l -> exists x, clos_trans string (edge cns) x x.
Proof.
  intros C. induction C as [x|x y l E C IH]; intros ND.
  - exfalso. apply ND. repeat constructor. intros [].
  - destruct (in_dec string_dec x (y :: l)) as [I|NI].
    + exists x. eapply chain_reach; [|exact I]. now constructor.
    + apply IH. intros ND2. apply ND. now constructor.
Qed.

Lemma long_path_cycle cns names x n :
  (forall c, In c cns -> In (c_end c) names) -> In x names ->
  path cns x n -> length names <= n -> exists y, clos_trans string (edge cns) y y.
Proof.
  intros HE Hx P L. destruct (path_chain _ _ _ P) as [l [C Ln]].
  apply (chain_dup_cycle _ _ C). intros ND.
  assert (B : length (x :: l) <= length names).
  { apply NoDup_incl_length; [assumption|]. clear - HE Hx C. 
    assert (G : forall l x, chain cns (x :: l) -> In x names -> incl (x :: l) names).
    { induction l0 as [|z l0 IH]; intros x0 C0 Hx0 y [<-|Hy]; try assumption; [destruct Hy|].
      inversion C0 as [|? ? ? [c [Hc [_ <-]]] C1]; subst. apply (IH (c_end c)); auto. }
    now apply G. }
  simpl in B. lia.
Qed.

Lemma cycle_path cns x n : clos_trans string (edge cns) x x -> path cns x n.
Proof.
  intros Cy.
  assert (Step : forall u v, clos_trans string (edge cns) u v ->
            exists z, edge cns u z /\ clos_refl_trans string (edge cns) z v).
  { intros u v H. apply clos_trans_t1n in H. inversion H; subst.
    - exists v. split; [assumption | apply rt_refl].
    - exists y. split; [assumption|]. apply clos_t1n_trans in H1.
      clear - H1. induction H1; [now apply rt_step | eapply rt_trans; eauto]. }
  assert (G : forall m y, clos_refl_trans string (edge cns) y x -> path cns y m).
  { induction m as [|m IH]; intros y H; [constructor|].
    apply clos_rt_rt1n in H. inversion H; subst.
    - destruct (Step _ _ Cy) as [z [E R]]. econstructor; eauto.
    - econstructor; [eassumption|]. apply IH. now apply clos_rt1n_rt. }
  apply G, rt_refl.
Qed.

(** ** The loop *)
Lemma round_In names cns lo x :
  In x (round_layers names cns lo) <->
  In x names /\ ~ In x lo /\ forall y, edge cns x y -> In y lo.
Proof.
  unfold round_layers. rewrite filter_In, andb_true_iff, negb_true_iff, smem_false, forallb_forall.
  split.
  - intros [H1 [H2 H3]]. repeat split; auto. intros y [c [Hc [E1 E2]]].
    specialize (H3 c Hc). rewrite E1, String.eqb_refl in H3. apply smem_In in H3. congruence.
  - intros [H1 [H2 H3]]. repeat split; auto. intros c Hc.
    destruct (String.eqb_spec (c_start c) x) as [E|]; [|reflexivity].
    apply smem_In, H3. exists c. auto.
Qed.

Lemma not_round cns lo x :
  ~ (forall y, edge cns x y -> In y lo) -> exists y, edge cns x y /\ ~ In y lo.
Proof.
  intros H.
  destruct (existsb (fun c => String.eqb (c_start c) x && negb (smem (c_end c) lo)) cns) eqn:E.
  - apply existsb_exists in E. destruct E as [c [Hc E]]. apply andb_true_iff in E.
    destruct E as [E1 E2]. apply String.eqb_eq in E1. apply negb_true_iff, smem_false in E2.
    exists (c_end c). split; [exists c; auto | assumption].
  - exfalso. apply H. intros y [c [Hc [E1 E2]]].
    destruct (in_dec string_dec y lo) as [|N]; [assumption|]. exfalso.
    assert (existsb (fun c => String.eqb (c_start c) x && negb (smem (c_end c) lo)) cns = true); [|congruence].
    apply existsb_exists. exists c. split; [assumption|]. rewrite E1, String.eqb_refl. simpl.
    apply negb_true_iff, smem_false. congruence.
Qed.

(** [x] may stand before [y] in the (reversed) loop order. *)
Definition rank_le (cns : list connection) (x y : string) : Prop :=
  exists hx hy, height cns x hx /\ height cns y hy /\
    (hx < hy \/ (hx = hy /\ String.leb y x = true)).

Record LoopInv (names : list string) (cns : list connection) (k : nat) (lo : list string)
  : Prop := {
  li_nodup : NoDup lo;
  li_incl : incl lo names;
  li_in : forall x, In x lo -> exists h, height cns x h /\ h < k;
  li_out : forall x, In x names -> ~ In x lo -> path cns x k;
  li_sorted : StronglySorted (rank_le cns) lo
}.

Lemma sorted_app {A} (R : A -> A -> Prop) l1 l2 :
  StronglySorted R l1 -> StronglySorted R l2 ->
  (forall x y, In x l1 -> In y l2 -> R x y) -> StronglySorted R (l1 ++ l2).
Proof.
  induction 1 as [|a l1 S1 IH F]; simpl; intros S2 H; [assumption|].
  constructor.
  - apply IH; [assumption|]. intros x y Hx Hy. apply H; [now right | assumption].
  - rewrite Forall_forall in *. intros x Hx. apply in_app_or in Hx. destruct Hx as [Hx|Hx].
    + auto.
    + apply H; [now left | assumption].
Qed.

Lemma sorted_desc_sorted l : StronglySorted (fun a b => String.leb b a = true) (sorted_desc l).
Proof.
  unfold sorted_desc. apply (isort_sorted (fun a b => String.leb b a)).
  - intros x y. destruct (String.leb_total y x); auto.
  - intros x y z H1 H2. eapply string_leb_trans; eauto.
Qed.

Lemma sorted_impl {A} (P : A -> Prop) (R1 R2 : A -> A -> Prop) l :
  (forall x, In x l -> P x) -> (forall x y, P x -> P y -> R1 x y -> R2 x y) ->
  StronglySorted R1 l -> StronglySorted R2 l.
Proof.
  intros HP H S. induction S as [|a l S IH F]; constructor.
  - apply IH. intros x Hx. apply HP. now right.
  - rewrite Forall_forall in *. intros x Hx. apply H; auto; apply HP; simpl; auto.
Qed.

Lemma round_height names cns k lo x :
  LoopInv names cns k lo -> In x (round_layers names cns lo) -> height cns x k.
Proof.
  intros I H. apply round_In in H. destruct H as [H1 [H2 H3]]. split.
  - now apply (li_out _ _ _ _ I).
  - intros P. inversion P as [|? y ? E P2]; subst.
    destruct (li_in _ _ _ _ I y (H3 y E)) as [h [[_ N] L]].
    apply N. eapply path_le; [|exact P2]. lia.
Qed.

Lemma loop_step names cns k lo :
  NoDup names -> (forall c, In c cns -> In (c_end c) names) ->
  LoopInv names cns k lo ->
  LoopInv names cns (S k) (lo ++ sorted_desc (round_layers names cns lo)).
Proof.
  intros NDn HE I.
  assert (M : forall x, In x (sorted_desc (round_layers names cns lo)) <->
                        In x (round_layers names cns lo)) by (intros; apply isort_In).
  constructor.
  - apply NoDup_app_intro.
    + apply (li_nodup _ _ _ _ I).
    + eapply Permutation_NoDup; [symmetry; apply isort_perm|]. now apply NoDup_filter.
    + intros x Hx Hn. apply M, round_In in Hn. tauto.
  - intros x Hx. apply in_app_or in Hx. destruct Hx as [Hx|Hx].
    + now apply (li_incl _ _ _ _ I).
    + apply M, round_In in Hx. tauto.
  - intros x Hx. apply in_app_or in Hx. destruct Hx as [Hx|Hx].
    + destruct (li_in _ _ _ _ I x Hx) as [h [H1 H2]]. exists h. split; [assumption | lia].
    + apply M in Hx. exists k. split; [eapply round_height; eauto | lia].
  - intros x Hx Hn.
    assert (N1 : ~ In x lo) by (intros H; apply Hn, in_or_app; now left).
    assert (N2 : ~ In x (round_layers names cns lo)).
    { intros H. apply Hn, in_or_app. right. now apply M. }
    destruct (not_round cns lo x) as [y [E Ny]].
    { intros H. apply N2, round_In. auto. }
    econstructor; [exact E|]. apply (li_out _ _ _ _ I); [|assumption].
    destruct E as [c [Hc [_ <-]]]. auto.
  - apply sorted_app.
    + apply (li_sorted _ _ _ _ I).
    + eapply sorted_impl with (P := fun x => height cns x k); [| |apply sorted_desc_sorted].
      * intros x Hx. apply M in Hx. eapply round_height; eauto.
      * intros x y Hx Hy L. exists k, k. auto.
    + intros x y Hx Hy. apply M in Hy. apply (round_height _ _ _ _ _ I) in Hy.
      destruct (li_in _ _ _ _ I x Hx) as [h [H1 H2]]. exists h, k. auto.
Qed.

Lemma order_loop_spec fuel names cns k lo :
  NoDup names -> (forall c, In c cns -> In (c_end c) names) ->
  LoopInv names cns k lo -> length names < length lo + fuel ->
  exists k' lo', order_loop fuel names cns lo = Some lo' /\ LoopInv names cns k' lo' /\
                 round_layers names cns lo' = [].
Proof.
  intros NDn HE. revert k lo. induction fuel as [|f IH]; intros k lo I L.
  - exfalso. assert (length lo <= length names); [|lia].
    apply NoDup_incl_length; [apply (li_nodup _ _ _ _ I) | apply (li_incl _ _ _ _ I)].
  - assert (St := loop_step names cns k lo NDn HE I).
    cbn [order_loop]. destruct (round_layers names cns lo) as [|x r] eqn:E.
    + exists k, lo. auto.
    + apply (IH (S k)); [exact St|].
      unfold sorted_desc. rewrite app_length, isort_length. simpl. lia.
Qed.

(** Nothing left over in an acyclic graph, something left over in a cyclic one. *)
Lemma final_acyclic names cns k lo :
  (forall c, In c cns -> In (c_end c) names) ->
  LoopInv names cns k lo -> round_layers names cns lo = [] -> acyclic cns -> incl names lo.
Proof.
  intros HE I R A x Hx. destruct (in_dec string_dec x lo) as [|N]; [assumption|]. exfalso.
  assert (G : forall n y, In y names -> ~ In y lo -> path cns y n).
  { induction n as [|n IH]; intros y Hy Ny; [constructor|].
    destruct (not_round cns lo y) as [z [E Nz]].
    { intros H. assert (In y (round_layers names cns lo)) by (apply round_In; auto).
      rewrite R in H0. destruct H0. }
    econstructor; [exact E|]. apply IH; [|assumption].
    destruct E as [c [Hc [_ <-]]]. auto. }
  destruct (long_path_cycle cns names x (length names) HE Hx (G _ x Hx N) (le_n _)) as [y Cy].
  exact (A y Cy).
Qed.

Lemma final_cyclic names cns k lo x :
  LoopInv names cns k lo -> clos_trans string (edge cns) x x -> ~ In x lo.
Proof.
  intros I Cy H. destruct (li_in _ _ _ _ I x H) as [h [[_ N] _]]. apply N. now apply cycle_path.
Qed.

(** ** Collecting connections *)
Lemma collect_unsorted_start a cns c :
  collect_unsorted a = Some cns -> In c cns -> In (c_start c) (dkeys a).
Proof.
  revert cns. induction a as [|[n l] a IH]; simpl; intros cns H Hc.
  - injection H as <-. destruct Hc.
  - destruct (collect_all_outgoing_connections l n) as [x|] eqn:E; [|discriminate].
    destruct (collect_unsorted a) as [y|]; [|discriminate]. injection H as <-.
    apply in_app_or in Hc. destruct Hc as [Hc|Hc]; [left|right; eauto].
    unfold collect_all_outgoing_connections in E.
    assert (P : forall o s, c_start (parse_con n o s) = n).
    { intros. unfold parse_con. destruct (partition_dot s). reflexivity. }
    destruct (r_out l); try discriminate; injection E as <-.
    + apply in_map_iff in Hc. destruct Hc as [s [<- _]]. now rewrite P.
    + apply in_flat_map in Hc. destruct Hc as [it [_ Hc]].
      apply in_map_iff in Hc. destruct Hc as [s [<- _]]. now rewrite P.
Qed.

Lemma collect_start a cns c :
  collect_all_connections a = Some cns -> In c cns -> In (c_start c) (dkeys a).
Proof.
  unfold collect_all_connections. destruct (collect_unsorted a) eqn:E; [|discriminate].
  intros [= <-] H. apply isort_In in H. eapply collect_unsorted_start; eauto.
Qed.

(** ** The order *)
Lemma filter_nil {A} (f : A -> bool) l : filter f l = [] <-> forall x, In x l -> f x = false.
Proof.
  induction l as [|x l IH]; simpl; [tauto|]. destruct (f x) eqn:E.
  - split; [discriminate|]. intros H. specialize (H x (or_introl eq_refl)). congruence.
  - rewrite IH. split; intros H; [intros y [<-|Hy]; auto | intros y Hy; apply H; now right].
Qed.

Lemma order_cases a cns :
  NoDup (dkeys a) -> collect_all_connections a = Some cns ->
  (forall c, In c cns -> In (c_end c) (dkeys a)) ->
  exists k lo, LoopInv (dkeys a) cns k lo /\ round_layers (dkeys a) cns lo = [] /\
    ((incl (dkeys a) lo /\ get_canonical_layer_order a = OrderOk (rev lo)) \/
     (~ incl (dkeys a) lo /\ get_canonical_layer_order a = OrderAssertionError)).
Proof.
  intros ND HC HE. unfold get_canonical_layer_order. rewrite HC.
  destruct (order_loop_spec (S (length a)) (dkeys a) cns 0 [] ND HE) as [k [lo [E [I R]]]].
  - constructor; simpl; try constructor; try tauto. intros x [].
  - simpl. rewrite dkeys_length. lia.
  - rewrite E. exists k, lo. split; [assumption|]. split; [assumption|].
    destruct (filter (fun l => negb (smem l lo)) (dkeys a)) as [|y r] eqn:F.
    + left. split; [|reflexivity]. intros x Hx. rewrite filter_nil in F.
      apply smem_In. specialize (F x Hx). now apply negb_false_iff in F.
    + right. split; [|reflexivity]. intros H.
      assert (Hy : In y (filter (fun l => negb (smem l lo)) (dkeys a))) by (rewrite F; now left).
      apply filter_In in Hy. destruct Hy as [Hy N]. apply negb_true_iff, smem_false in N. auto.
Qed.

Lemma sorted_before {A} (R : A -> A -> Prop) l x y :
  StronglySorted R l -> before l x y -> R x y.
Proof.
  intros S [l1 [l2 [l3 ->]]]. induction l1 as [|z l1 IH]; simpl in S; inversion S; subst.
  - rewrite Forall_forall in H2. apply H2, in_or_app. right. now left.
  - auto.
Qed.

Lemma before_rev {A} (l : list A) x y : before (rev l) x y -> before l y x.
Proof.
  intros [l1 [l2 [l3 E]]]. exists (rev l3), (rev l2), (rev l1).
  rewrite <- (rev_involutive l), E, !rev_app_distr. simpl. rewrite rev_app_distr. simpl.
  rewrite <- !app_assoc. reflexivity.
Qed.

Lemma before_total {A} (l : list A) x y :
  (forall a b : A, {a = b} + {a <> b}) -> In x l -> In y l -> x <> y -> before l x y \/ before l y x.
Proof.
  intros dec Hx Hy N. apply in_split in Hx. destruct Hx as [l1 [l2 ->]].
  apply in_app_or in Hy. destruct Hy as [Hy|[Hy|Hy]]; [|congruence|].
  - right. apply in_split in Hy. destruct Hy as [m1 [m2 ->]].
    exists m1, m2, l2. rewrite <- app_assoc. reflexivity.
  - left. apply in_split in Hy. destruct Hy as [m1 [m2 ->]]. exists l1, m1, m2. reflexivity.
Qed.

Lemma topo_order a cns :
  NoDup (dkeys a) -> collect_all_connections a = Some cns ->
  (forall c, In c cns -> In (c_end c) (dkeys a)) -> acyclic cns ->
  exists l, get_canonical_layer_order a = OrderOk l /\ Permutation l (dkeys a) /\
            forall c, In c cns -> before l (c_start c) (c_end c).
Proof.
  intros ND HC HE A. destruct (order_cases a cns ND HC HE) as [k [lo [I [R Cs]]]].
  assert (Inc := final_acyclic _ _ _ _ HE I R A).
  destruct Cs as [[_ E]|[N _]]; [|contradiction].
  exists (rev lo). split; [exact E|]. split.
  - rewrite <- Permutation_rev. apply NoDup_Permutation; [apply (li_nodup _ _ _ _ I) | assumption |].
    intros x. split; [apply (li_incl _ _ _ _ I) | apply Inc].
  - intros c Hc.
    assert (Hs := Inc _ (collect_start _ _ _ HC Hc)). assert (He := Inc _ (HE c Hc)).
    assert (Ed : edge cns (c_start c) (c_end c)) by (exists c; auto).
    assert (N : c_start c <> c_end c).
    { intros Q. apply (A (c_start c)). rewrite Q at 2. now apply t_step. }
    destruct (before_total (rev lo) (c_start c) (c_end c) string_dec) as [B|B];
      try (now rewrite <- in_rev); try assumption. exfalso.
    apply before_rev in B. apply (sorted_before _ _ _ _ (li_sorted _ _ _ _ I)) in B.
    destruct B as [hx [hy [[P1 N1] [[P2 N2] B]]]].
    apply N1. apply path_le with (n := S hy); [lia|]. econstructor; eauto.
Qed.

Lemma cyclic_rejected a cns :
  NoDup (dkeys a) -> collect_all_connections a = Some cns ->
  (forall c, In c cns -> In (c_end c) (dkeys a)) -> ~ acyclic cns ->
  get_canonical_layer_order a = OrderAssertionError.
Proof.
  intros ND HC HE A. destruct (order_cases a cns ND HC HE) as [k [lo [I [R Cs]]]].
  destruct Cs as [[Inc _]|[_ E]]; [|assumption]. exfalso. apply A. intros x Cy.
  apply (final_cyclic _ _ _ _ _ I Cy), Inc.
  apply clos_trans_t1n in Cy. inversion Cy as [y [c [Hc [<- _]]]|y z [c [Hc [<- _]]]]; subst;
    eapply collect_start; eauto.
Qed.

(** The order is sorted by (height, name). *)
Lemma order_sorted a cns l x y :
  NoDup (dkeys a) -> collect_all_connections a = Some cns ->
  (forall c, In c cns -> In (c_end c) (dkeys a)) ->
  get_canonical_layer_order a = OrderOk l -> before l x y ->
  exists hx hy, height cns x hx /\ height cns y hy /\
    (hy < hx \/ (hx = hy /\ String.leb x y = true)).
Proof.
  intros ND HC HE E B. destruct (order_cases a cns ND HC HE) as [k [lo [I [R Cs]]]].
  destruct Cs as [[Inc E2]|[_ E2]]; [|congruence]. rewrite E2 in E. injection E as <-.
  apply before_rev in B. apply (sorted_before _ _ _ _ (li_sorted _ _ _ _ I)) in B.
  destruct B as [hx [hy [H1 [H2 H3]]]]. exists hy, hx. repeat split; try apply H1; try apply H2.
  destruct H3 as [|[-> ]]; auto.
Qed.

(** ** Canonicity *)
Lemma con_leb_total x y : con_leb x y = true \/ con_leb y x = true.
Proof.
  unfold con_leb, lex.
  rewrite (String.compare_antisym (c_start y)), (String.compare_antisym (c_out y)),
    (String.compare_antisym (c_end y)).
  destruct (String.compare (c_start x) (c_start y)), (String.compare (c_out x) (c_out y)),
    (String.compare (c_end x) (c_end y)); simpl; auto; apply String.leb_total.
Qed.

Lemma lex_trans_gen (x y z : string) b1 b2 b3 :
  (b1 = true -> b2 = true -> b3 = true) ->
  lex (String.compare x y) b1 = true -> lex (String.compare y z) b2 = true ->
  lex (String.compare x z) b3 = true.
Proof.
  intros H. unfold lex.
  destruct (String.compare x y) eqn:E1; try discriminate;
    destruct (String.compare y z) eqn:E2; try discriminate.
  - apply String.compare_eq_iff in E1. subst. rewrite E2. auto.
  - apply String.compare_eq_iff in E1. subst. rewrite E2. auto.
  - apply String.compare_eq_iff in E2. subst. rewrite E1. auto.
  - now rewrite (string_ltb_trans _ _ _ E1 E2).
Qed.

Lemma con_leb_trans x y z : con_leb x y = true -> con_leb y z = true -> con_leb x z = true.
Proof.
  unfold con_leb. apply lex_trans_gen, lex_trans_gen, lex_trans_gen, string_leb_trans.
Qed.

Lemma con_leb_antisym x y : con_leb x y = true -> con_leb y x = true -> x = y.
Proof.
  destruct x as [a b c d], y as [a' b' c' d']. unfold con_leb, lex. simpl.
  rewrite (String.compare_antisym a'), (String.compare_antisym b'), (String.compare_antisym c').
  destruct (String.compare a a') eqn:Ea; simpl; try discriminate.
  destruct (String.compare b b') eqn:Eb; simpl; try discriminate.
  destruct (String.compare c c') eqn:Ec; simpl; try discriminate.
  intros H1 H2. apply String.compare_eq_iff in Ea, Eb, Ec. subst. f_equal.
  now apply String.leb_antisym.
Qed.

(** Two descriptions of the same architecture: dictionaries and connection
    lists in different orders. *)
Definition out_same (o1 o2 : out_value) : Prop :=
  match o1, o2 with
  | OutMissing, OutMissing => True
  | OutOther, OutOther => True
  | OutList l1, OutList l2 => Permutation l1 l2
  | OutDict d1, OutDict d2 =>
      exists d', Permutation d1 d' /\
        Forall2 (fun x y => fst x = fst y /\ Permutation (snd x) (snd y)) d' d2
  | _, _ => False
  end.
Definition arch_same (a1 a2 : raw_arch) : Prop :=
  exists a', Permutation a1 a' /\
    Forall2 (fun x y => fst x = fst y /\ r_type (snd x) = r_type (snd y) /\
                        out_same (r_out (snd x)) (r_out (snd y))) a' a2.

Lemma Permutation_flat_map_gen {A B} (f : A -> list B) l1 l2 :
  Permutation l1 l2 -> Permutation (flat_map f l1) (flat_map f l2).
Proof. apply Permutation_flat_map. Qed.

Lemma out_same_collect n l1 l2 :
  out_same (r_out l1) (r_out l2) ->
  match collect_all_outgoing_connections l1 n, collect_all_outgoing_connections l2 n with
  | Some x, Some y => Permutation x y
  | None, None => True
  | _, _ => False
  end.
Proof.
  unfold out_same, collect_all_outgoing_connections.
  destruct (r_out l1) as [|x|x|], (r_out l2) as [|y|y|]; try tauto.
  - apply Permutation_map.
  - intros [d' [P F]]. unfold outgoing_connections. rewrite P. clear P.
    induction F as [|a b d1 d2 [E Pm] F IH]; simpl; [constructor|].
    rewrite E, IH. apply Permutation_app_tail, Permutation_map, Pm.
Qed.

Definition opt_perm (x y : option (list connection)) : Prop :=
  match x, y with
  | Some x, Some y => Permutation x y
  | None, None => True
  | _, _ => False
  end.

Lemma collect_unsorted_perm a1 a2 : Permutation a1 a2 ->
  opt_perm (collect_unsorted a1) (collect_unsorted a2).
Proof.
  unfold opt_perm. induction 1 as [|[n l] a1 a2 P IH|[n1 l1] [n2 l2] a|a1 a2 a3 P1 IH1 P2 IH2]; simpl.
  - constructor.
  - destruct (collect_all_outgoing_connections l n), (collect_unsorted a1), (collect_unsorted a2);
      try tauto. now apply Permutation_app_head.
  - destruct (collect_all_outgoing_connections l1 n1), (collect_all_outgoing_connections l2 n2),
      (collect_unsorted a); auto.
    rewrite !app_assoc. apply Permutation_app_tail, Permutation_app_comm.
  - destruct (collect_unsorted a1), (collect_unsorted a2), (collect_unsorted a3); try tauto.
    etransitivity; eauto.
Qed.

Lemma collect_same a1 a2 : arch_same a1 a2 ->
  collect_all_connections a1 = collect_all_connections a2.
Proof.
  intros [a' [P F]]. apply collect_unsorted_perm in P.
  assert (Q : opt_perm (collect_unsorted a') (collect_unsorted a2)).
  { clear P. unfold opt_perm. induction F as [|[n1 l1] [n2 l2] d1 d2 [E [T O]] F IH]; simpl; [constructor|].
    simpl in E, O. subst n2. apply (out_same_collect n1) in O.
    destruct (collect_all_outgoing_connections l1 n1), (collect_all_outgoing_connections l2 n1); try tauto.
    destruct (collect_unsorted d1), (collect_unsorted d2); try tauto. now apply Permutation_app. }
  unfold collect_all_connections, opt_perm in *.
  destruct (collect_unsorted a1), (collect_unsorted a'), (collect_unsorted a2); try tauto.
  f_equal. apply isort_permutation_eq.
  - apply con_leb_total.
  - apply con_leb_trans.
  - apply con_leb_antisym.
  - etransitivity; eauto.
Qed.

Lemma same_keys a1 a2 : arch_same a1 a2 -> Permutation (dkeys a1) (dkeys a2).
Proof.
  intros [a' [P F]]. unfold dkeys. rewrite P. clear P.
  induction F as [|x y d1 d2 [E _] F IH]; simpl; [constructor|]. rewrite E. now constructor.
Qed.

Lemma round_perm n1 n2 cns lo : Permutation n1 n2 ->
  Permutation (round_layers n1 cns lo) (round_layers n2 cns lo).
Proof.
  unfold round_layers. generalize (fun l => negb (smem l lo) &&
            forallb (fun c => if String.eqb (c_start c) l
                              then smem (c_end c) lo else true) cns). intros f.
  induction 1 as [|x l1 l2 P IH|x y l|l1 l2 l3 P1 IH1 P2 IH2]; simpl.
  - constructor.
  - destruct (f x); [now constructor | assumption].
  - destruct (f x), (f y); try reflexivity. constructor.
  - etransitivity; eauto.
Qed.

Lemma sorted_desc_perm l1 l2 : Permutation l1 l2 -> sorted_desc l1 = sorted_desc l2.
Proof.
  intros P. unfold sorted_desc.
  apply (isort_permutation_eq (fun a b => String.leb b a)); try assumption.
  - intros x y. destruct (String.leb_total y x); auto.
  - intros x y z H1 H2. eapply string_leb_trans; eauto.
  - intros x y H1 H2. now apply String.leb_antisym.
Qed.

Lemma order_loop_perm fuel n1 n2 cns lo : Permutation n1 n2 ->
  order_loop fuel n1 cns lo = order_loop fuel n2 cns lo.
Proof.
  intros P. revert lo. induction fuel as [|f IH]; intros lo; cbn [order_loop]; [reflexivity|].
  assert (R := round_perm n1 n2 cns lo P).
  assert (D := sorted_desc_perm _ _ R).
  destruct (round_layers n1 cns lo), (round_layers n2 cns lo); [reflexivity | | |rewrite D; apply IH].
  - now apply Permutation_nil_cons in R.
  - symmetry in R. now apply Permutation_nil_cons in R.
Qed.

Lemma order_canonical a1 a2 : arch_same a1 a2 ->
  get_canonical_layer_order a1 = get_canonical_layer_order a2.
Proof.
  intros S. unfold get_canonical_layer_order. rewrite (collect_same _ _ S).
  destruct (collect_all_connections a2) as [cns|]; [|reflexivity].
  assert (P := same_keys _ _ S).
  assert (L : length a1 = length a2).
  { rewrite <- (dkeys_length a1), <- (dkeys_length a2). now apply Permutation_length. }
  rewrite L, (order_loop_perm _ _ _ _ _ P).
  destruct (order_loop (Datatypes.S (length a2)) (dkeys a2) cns []) as [lo|]; [|reflexivity].
  assert (Q : filter (fun l => negb (smem l lo)) (dkeys a1) = [] <->
              filter (fun l => negb (smem l lo)) (dkeys a2) = []).
  { rewrite !filter_nil. split; intros H x Hx; apply H;
      (eapply Permutation_in; [|exact Hx]); [symmetry|]; assumption. }
  destruct (filter _ (dkeys a1)), (filter _ (dkeys a2)); try reflexivity.
  - destruct Q as [Q _]. discriminate (Q eq_refl).
  - destruct Q as [_ Q]. discriminate (Q eq_refl).
Qed.

(** ** Validation *)
Definition identifier_start : list ascii :=
  chars "_abcdefghijklmnopqrstuvwxyzABCDEFGHIJKLMNOPQRSTUVWXYZ".
Definition identifier_chars : list ascii := identifier_start ++ chars "0123456789".

(** Python identifiers (ASCII): a letter or underscore followed by letters,
    underscores and digits. *)
Definition identifier (s : string) : Prop :=
  exists c r, chars s = c :: r /\ In c identifier_start /\ (forall d, In d r -> In d identifier_chars).

Lemma ident_start_spec c : ident_start c = existsb (Ascii.eqb c) identifier_start.
Proof. destruct c as [[] [] [] [] [] [] [] []]; reflexivity. Qed.
Lemma ident_char_spec c : ident_char c = existsb (Ascii.eqb c) identifier_chars.
Proof. destruct c as [[] [] [] [] [] [] [] []]; reflexivity. Qed.
Lemma existsb_ascii c l : existsb (Ascii.eqb c) l = true <-> In c l.
Proof.
  rewrite existsb_exists. split.
  - intros [x [H E]]. apply Ascii.eqb_eq in E. now subst.
  - intros H. exists c. split; [assumption | apply Ascii.eqb_refl].
Qed.

Lemma ident_tail_spec s :
  ident_tail s = true <->
  exists r, (chars s = r \/ chars s = r ++ [newline]) /\ forall d, In d r -> In d identifier_chars.
Proof.
  induction s as [|c s IH]; simpl.
  - split; [|reflexivity]. intros _. exists []. split; [now left | intros d []].
  - rewrite ident_char_spec. destruct (existsb (Ascii.eqb c) identifier_chars) eqn:E.
    + apply existsb_ascii in E. rewrite IH. split.
      * intros [r [H F]]. exists (c :: r). split.
        -- simpl. destruct H as [H|H]; rewrite H; [now left | now right].
        -- intros d [Hd|Hd]; [now subst d | now apply F].
      * intros [r [[H|H] F]].
        -- exists (chars s). split; [now left|]. intros d Hd. apply F. rewrite <- H. now right.
        -- destruct r as [|x r]; simpl in H.
           ++ injection H as -> H. exfalso. vm_compute in E. intuition discriminate.
           ++ injection H as -> H. exists r. split; [now right|]. intros d Hd. apply F. now right.
    + assert (N : ~ In c identifier_chars).
      { intros H. apply existsb_ascii in H. congruence. }
      rewrite andb_true_iff, Ascii.eqb_eq, String.eqb_eq. split.
      * intros [-> ->]. exists []. split; [now right | intros d []].
      * intros [r [[H|H] F]].
        -- exfalso. apply N, F. rewrite <- H. now left.
        -- destruct r as [|x r]; simpl in H; injection H as Hc H.
           ++ split; [assumption|]. now apply chars_inj.
           ++ exfalso. apply N, F. left. congruence.
Qed.

(** Valid layer names: identifiers, possibly followed by a newline, other than
    the two reserved ones. *)
Lemma valid_layer_name_spec s :
  is_valid_layer_name s = true <->
  s <> "default" /\ s <> "fallback" /\
  exists t, identifier t /\ (s = t \/ s = (t ++ String newline "")%string).
Proof.
  unfold is_valid_layer_name, name_blacklist, smem. simpl.
  destruct (String.eqb_spec s "default") as [->|N1]; simpl.
  { split; [discriminate | intros [H _]; congruence]. }
  destruct (String.eqb_spec s "fallback") as [->|N2]; simpl.
  { split; [discriminate | intros [_ [H _]]; congruence]. }
  destruct s as [|c s]; simpl.
  - split; [discriminate|]. intros [_ [_ [t [[c [r [E _]]] [H|H]]]]].
    + subst t. discriminate.
    + apply (f_equal chars) in H. rewrite chars_app, E in H. discriminate.
  - rewrite andb_true_iff, ident_start_spec, existsb_ascii, ident_tail_spec. split.
    + intros [Hc [r [Hr F]]]. split; [assumption|]. split; [assumption|].
      exists (String c (string_of_list_ascii r)).
      assert (CL : forall l, chars (string_of_list_ascii l) = l).
      { induction l as [|x l IHl]; simpl; [reflexivity | now rewrite IHl]. }
      split.
      * exists c, r. simpl. now rewrite CL.
      * destruct Hr as [Hr|Hr]; [left|right]; apply chars_inj; simpl; rewrite ?chars_app, CL, Hr; reflexivity.
    + intros [_ [_ [t [[c' [r [E [Hc F]]]] H]]]].
      destruct H as [H|H]; apply (f_equal chars) in H; simpl in H.
      * rewrite E in H. injection H as -> H. split; [assumption|]. exists r. split; [now left | assumption].
      * rewrite chars_app, E in H. simpl in H. injection H as -> H. split; [assumption|].
        exists r. split; [now right | assumption].
Qed.

(** What validation accepts. *)
Definition well_formed (a : raw_arch) : Prop :=
  (forall n l, In (n, l) a ->
     (exists t, r_type l = TypeString t) /\
     ((exists cs, r_out l = OutList cs) \/ (exists d, r_out l = OutDict d)) /\
     is_valid_layer_name n = true) /\
  (exists cns, collect_all_connections a = Some cns /\
     forall c, In c cns -> In (c_end c) (dkeys a) /\ c_end c <> "Input") /\
  (exists l, In ("Input", l) a /\ r_type l = TypeString "Input").

Lemma collect_some_out a cns n l :
  collect_all_connections a = Some cns -> In (n, l) a ->
  (exists cs, r_out l = OutList cs) \/ (exists d, r_out l = OutDict d).
Proof.
  unfold collect_all_connections. destruct (collect_unsorted a) as [u|] eqn:E; [|discriminate].
  intros _. revert u E. induction a as [|[n' l'] a IH]; simpl; intros u E; [tauto|].
  destruct (collect_all_outgoing_connections l' n') eqn:E1; [|discriminate].
  destruct (collect_unsorted a); [|discriminate]. intros [H|H].
  - injection H as -> ->. unfold collect_all_outgoing_connections in E1.
    destruct (r_out l); try discriminate; eauto.
  - eapply IH; eauto.
Qed.

Lemma validate_spec a :
  NoDup (dkeys a) -> (validate_architecture a = Accepted <-> well_formed a).
Proof.
  intros ND. unfold validate_architecture, well_formed.
  destruct (forallb (fun it => schema_ok (snd it)) a) eqn:E1; cbn [negb].
  2:{ split; [discriminate|]. intros [H _]. exfalso.
      assert (forallb (fun it => schema_ok (snd it)) a = true); [|congruence].
      apply forallb_forall. intros [n l] I. destruct (H n l I) as [[t Ht] [Ho _]].
      unfold schema_ok. simpl. rewrite Ht. destruct Ho as [[cs ->]|[d ->]]; reflexivity. }
  destruct (forallb is_valid_layer_name (dkeys a)) eqn:E2; cbn [negb].
  2:{ split; [discriminate|]. intros [H _]. exfalso.
      assert (forallb is_valid_layer_name (dkeys a) = true); [|congruence].
      apply forallb_forall. intros n I. apply in_map_iff in I. destruct I as [[n' l] [<- I]].
      now apply (H n' l). }
  rewrite forallb_forall in E1, E2.
  destruct (collect_all_connections a) as [cns|] eqn:EC.
  2:{ split; [discriminate|]. intros [_ [[c [H _]] _]]. discriminate. }
  destruct (forallb (fun e => smem e (dkeys a)) (map c_end cns)) eqn:E3; cbn [negb].
  2:{ split; [discriminate|]. intros [_ [[c [[= <-] H]] _]]. exfalso.
      assert (forallb (fun e => smem e (dkeys a)) (map c_end cns) = true); [|congruence].
      apply forallb_forall. intros e I. apply in_map_iff in I. destruct I as [c [<- I]].
      apply smem_In. now apply H. }
  rewrite forallb_forall in E3.
  destruct (dget "Input" a) as [l|] eqn:EI.
  2:{ split; [discriminate|]. intros [_ [_ [l [I _]]]]. apply (In_dget _ _ _ ND) in I. congruence. }
  destruct (type_is_input l) eqn:ET; cbn [negb].
  2:{ split; [discriminate|]. intros [_ [_ [l' [I T]]]]. apply (In_dget _ _ _ ND) in I.
      rewrite EI in I. injection I as <-. unfold type_is_input in ET. rewrite T in ET. discriminate. }
  destruct (smem "Input" (map c_end cns)) eqn:EM.
  { split; [discriminate|]. intros [_ [[c [[= <-] H]] _]]. exfalso.
    apply smem_In, in_map_iff in EM. destruct EM as [c [E I]]. now apply (H c I). }
  split; [|reflexivity]. intros _. split; [|split].
  - intros n l0 I. assert (S := E1 _ I). unfold schema_ok in S. simpl in S.
    split.
    + destruct (r_type l0); try discriminate. eauto.
    + split; [eapply collect_some_out; eauto|]. apply E2.
      change n with (fst (n, l0)). now apply in_map.
  - exists cns. split; [reflexivity|]. intros c I. split.
    + apply smem_In, E3. now apply in_map.
    + intros E. apply smem_false in EM. apply EM. rewrite <- E. now apply in_map.
  - exists l. split; [now apply dget_In|]. unfold type_is_input in ET.
    destruct (r_type l); try discriminate. apply String.eqb_eq in ET. now subst.
Qed.

(** KeyError exactly for a well-typed, well-named architecture with a missing
    '@outgoing_connections'. *)
Lemma collect_none a :
  (forall n l, In (n, l) a -> r_out l <> OutOther) ->
  collect_all_connections a = None <-> exists n l, In (n, l) a /\ r_out l = OutMissing.
Proof.
  intros H. unfold collect_all_connections.
  assert (G : collect_unsorted a = None <-> exists n l, In (n, l) a /\ r_out l = OutMissing).
  { induction a as [|[n l] a IH]; simpl.
    - split; [discriminate | intros [? [? [[] _]]]].
    - assert (IH' := IH (fun n l I => H n l (or_intror I))). clear IH.
      assert (Hl := H n l (or_introl eq_refl)).
      unfold collect_all_outgoing_connections. destruct (r_out l) eqn:E; try congruence.
      + split; [|reflexivity]. intros _. exists n, l. auto.
      + destruct (collect_unsorted a).
        * split; [discriminate|]. intros [n' [l' [[Q|I] M]]]; [congruence|].
          exfalso. destruct IH' as [_ IH']. discriminate IH'. eauto.
        * split; [|reflexivity]. intros _. destruct IH' as [IH' _].
          destruct (IH' eq_refl) as [n' [l' [I M]]]. eauto.
      + destruct (collect_unsorted a).
        * split; [discriminate|]. intros [n' [l' [[Q|I] M]]]; [congruence|].
          exfalso. destruct IH' as [_ IH']. discriminate IH'. eauto.
        * split; [|reflexivity]. intros _. destruct IH' as [IH' _].
          destruct (IH' eq_refl) as [n' [l' [I M]]]. eauto. }
  destruct (collect_unsorted a); [|exact G].
  split; [discriminate|]. intros Q. apply G in Q. discriminate.
Qed.

(** ** Input first *)
Lemma input_first a cns l :
  NoDup (dkeys a) -> validate_architecture a = Accepted ->
  collect_all_connections a = Some cns ->
  (forall n, In n (dkeys a) -> n <> "Input" -> exists c, In c cns /\ c_end c = n) ->
  get_canonical_layer_order a = OrderOk l ->
  exists r, l = "Input" :: r /\ ~ In "Input" r.
Proof.
  intros ND V HC Inc O.
  apply (validate_spec _ ND) in V. destruct V as [_ [[cns' [HC' HE']] [li [Ii _]]]].
  rewrite HC in HC'. injection HC' as <-.
  assert (HE : forall c, In c cns -> In (c_end c) (dkeys a)) by (intros; now apply HE').
  assert (A : acyclic cns).
  { destruct (order_cases a cns ND HC HE) as [k [lo [I [R [[Hi _]|[_ Q]]]]]]; [|congruence].
    intros x Cy. apply (final_cyclic _ _ _ _ _ I Cy), Hi.
    apply clos_trans_t1n in Cy. inversion Cy as [y [c [Hc [<- _]]]|y z [c [Hc [<- _]]]]; subst;
      eapply collect_start; eauto. }
  destruct (topo_order a cns ND HC HE A) as [l' [O' [P B]]].
  rewrite O in O'. injection O' as <-.
  assert (NDl : NoDup l) by (eapply Permutation_NoDup; [symmetry; exact P | exact ND]).
  assert (HI : In "Input" l).
  { eapply Permutation_in; [symmetry; exact P|]. change "Input" with (fst ("Input", li)). now apply in_map. }
  destruct l as [|h r]; [destruct HI|].
  inversion NDl as [|? ? Nh NDr]; subst.
  destruct (string_dec h "Input") as [->|N].
  - exists r. auto.
  - exfalso. destruct (Inc h) as [c [Hc E]]; [|assumption|].
    { eapply Permutation_in; [exact P | now left]. }
    destruct (B c Hc) as [l1 [l2 [l3 Q]]]. rewrite E in Q.
    destruct l1 as [|z l1]; simpl in Q; injection Q as Q1 Q2.
    + apply Nh. rewrite Q2. apply in_or_app. right. now left.
    + apply Nh. rewrite Q2. apply in_or_app. right. right. apply in_or_app. right. now left.
Qed.
