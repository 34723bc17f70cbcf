(** Property theorems C78: the initialization of networks made by create_net_from_spec. *)
From Coq Require Import String Ascii List Arith Bool Lia ZArith Reals Lra.
From Verif Require Import PyBase PyFacts UtilsModel UtilsProofs ArchProofs ViewRefsModel ViewRefsProofs SaveModel SaveProofs SpecInitModel.
From Verif Require SetupModel ShapesModel SpecModel NamesModel NamesProofs PassShapesProofs SetupProps InstanceProofs InstanceProps NetLayoutProofs.
Import ListNotations.
Open Scope string_scope.
Open Scope list_scope.
Open Scope nat_scope.

(** The layers have different names which are identifiers other than 'default' and 'fallback', and so have the views of a layer. *)
Definition good_layers (layers : list layer) : Prop :=
  NoDup (map l_name layers) /\ forall l, In l layers -> plain_name (l_name l) /\ NoDup (map fst (l_params l)) /\ forall v sh, In (v, sh) (l_params l) -> plain_name v.
(** A layer with an activation without a scale has a parameter with at least two dimensions. *)
Definition unknown_activation (layers : list layer) : Prop :=
  exists l a v sh, In l layers /\ l_act l = Some a /\ In (v, sh) (l_params l) /\ 2 <= length sh /\ ~ In a ["rel"; "tanh"; "sigmoid"; "linear"].
(** What the view of a layer has to be filled with: *)
Inductive wanted (l : layer) (sh : list nat) : source -> Prop :=
| wa_weights a : l_act l = Some a -> 2 <= length sh -> wanted l sh (Uniform_of a)
| wa_bias : length sh < 2 -> wanted l sh Noise
| wa_plain : l_act l = None -> wanted l sh Noise.

Lemma entries_In layers : forall i k x, In (k, x) (init_entries layers i) <-> exists j l a, nth_error layers j = Some l /\ l_act l = Some a /\ k = l_name l /\ x = DLeaf [i + j].
Proof.
  induction layers as [|l r IH]; intros i k x; cbn [init_entries].
  - split; [intros []|]. intros [j [l [a [H _]]]]. destruct j; discriminate.
  - assert (T : In (k, x) (init_entries r (S i)) <-> exists j l0 a, nth_error (l :: r) (S j) = Some l0 /\ l_act l0 = Some a /\ k = l_name l0 /\ x = DLeaf [i + S j]).
    { rewrite IH. split; intros [j [l0 [a [H1 [H2 [H3 H4]]]]]]; exists j, l0, a; cbn [nth_error] in *; repeat split; auto; rewrite H4; do 2 f_equal; lia. }
    assert (D : (exists j l0 a, nth_error (l :: r) j = Some l0 /\ l_act l0 = Some a /\ k = l_name l0 /\ x = DLeaf [i + j]) <->
      (exists a, l_act l = Some a /\ k = l_name l /\ x = DLeaf [i]) \/ exists j l0 a, nth_error (l :: r) (S j) = Some l0 /\ l_act l0 = Some a /\ k = l_name l0 /\ x = DLeaf [i + S j]).
    { split.
      - intros [[|j] [l0 [a [H1 [H2 [H3 H4]]]]]].
        + left. cbn in H1. injection H1 as <-. exists a. rewrite Nat.add_0_r in H4. auto.
        + right. exists j, l0, a. auto.
      - intros [[a [H2 [H3 H4]]]|[j [l0 [a H]]]].
        + exists 0, l, a. rewrite Nat.add_0_r. auto.
        + exists (S j), l0, a. exact H. }
    rewrite D. destruct (l_act l) as [a|] eqn:E.
    + cbn [In]. rewrite T. split.
      * intros [[= <- <-]|H]; [left; exists a; auto|now right].
      * intros [[a' [_ [-> ->]]]|H]; [now left|now right].
    + rewrite T. split; [now right|]. intros [[a' [H _]]|H]; [discriminate|exact H].
Qed.
Lemma name_unique layers i j l l' : NoDup (map l_name layers) -> nth_error layers i = Some l -> nth_error layers j = Some l' -> l_name l = l_name l' -> i = j.
Proof.
  intros ND H1 H2 E. rewrite NoDup_nth_error in ND. apply ND.
  - rewrite map_length. apply nth_error_Some. congruence.
  - rewrite (map_nth_error l_name _ _ H1), (map_nth_error l_name _ _ H2). now rewrite E.
Qed.

Section Initialized.
  Variable layers : list layer.
  Hypothesis G : good_layers layers.
  Let d := init_entries layers 2 ++ [("default", DLeaf [0]); ("fallback", DLeaf [1])].

  Lemma d_In k x : In (k, x) d <-> (exists j l a, nth_error layers j = Some l /\ l_act l = Some a /\ k = l_name l /\ x = DLeaf [2 + j]) \/ (k = "default" /\ x = DLeaf [0]) \/ (k = "fallback" /\ x = DLeaf [1]).
  Proof.
    unfold d. rewrite in_app_iff, entries_In. cbn [In]. split.
    - intros [H|[[= <- <-]|[[= <- <-]|[]]]]; auto.
    - intros [H|[[-> ->]|[-> ->]]]; auto.
  Qed.
  Lemma d_special k x : k = "default" \/ k = "fallback" -> dget k d = Some x -> (k = "default" /\ x = DLeaf [0]) \/ (k = "fallback" /\ x = DLeaf [1]).
  Proof.
    intros K H. apply dget_In, d_In in H. destruct H as [[j [l [a [N [_ [-> _]]]]]]|H]; [|exact H]. exfalso.
    destruct (proj2 G l (nth_error_In _ _ N)) as [[_ [O1 O2]] _]. destruct K; contradiction.
  Qed.
  Lemma d_has k x : In (k, x) d -> In k (dkeys d).
  Proof. apply In_dkeys. Qed.
  Lemma d_fallback : dget "fallback" d = Some (DLeaf [1]).
  Proof.
    assert (K : In "fallback" (dkeys d)) by (apply (d_has _ (DLeaf [1])), d_In; right; right; auto).
    apply key_dget in K. destruct K as [x K]. rewrite K. destruct (d_special "fallback" x (or_intror eq_refl) K) as [[E _]|[_ ->]]; [discriminate|reflexivity].
  Qed.
  Lemma good_params : good_views (all_parameters layers).
  Proof.
    destruct G as [ND H]. split.
    - unfold dkeys, all_parameters. now rewrite map_map.
    - intros n vs Hn. apply in_map_iff in Hn. destruct Hn as [l [[= <- <-] Hl]]. exact (H l Hl).
  Qed.
  Lemma d_fits : fits (DDict d) (empty_dict_from (view_tree (all_parameters layers))).
  Proof.
    unfold view_tree. cbn [empty_dict_from]. constructor.
    - apply check_references_None. intros ref Hr Or. apply key_dget in Hr. destruct Hr as [x Hr]. apply dget_In, d_In in Hr.
      destruct Or as [O1 O2]. destruct Hr as [[j [l [a [N [_ [-> _]]]]]]|[[-> _]|[-> _]]]; [|congruence..].
      destruct (proj2 G l (nth_error_In _ _ N)) as [P _]. split; [now apply plain_valid|]. exists (l_name l). split; [|now apply glob_plain; [apply P|apply P|]].
      unfold dkeys, all_parameters. rewrite !map_map. cbn [fst]. exact (in_map l_name _ _ (nth_error_In _ _ N)).
    - intros x Hx. destruct (d_special _ _ (or_introl eq_refl) Hx) as [[_ ->]|[E _]]; [eauto|discriminate].
    - intros x Hx. destruct (d_special _ _ (or_intror eq_refl) Hx) as [[E _]|[_ ->]]; [discriminate|eauto].
    - intros ref R k t Hr _ _. apply d_In in Hr. destruct Hr as [[j [l [a [_ [_ [_ ->]]]]]]|[[_ ->]|[_ ->]]]; constructor.
  Qed.
  (** The initializer of a layer's views *)
  Definition chosen (i : nat) (l : layer) : nat := match l_act l with Some _ => 2 + i | None => 0 end.
  Lemma selected i l v x : nth_error layers i = Some l -> (selects (DDict d) [l_name l; v] x <-> x = chosen i l).
  Proof.
    intros N. destruct (proj2 G l (nth_error_In _ _ N)) as [P _]. unfold chosen. split.
    - intros H. inversion H as [|? ref x0 ? ? ? H1 H2 H3 H4|? x0 ? ? ? H1 H2 H4]; subst.
      + apply d_In in H1. destruct H2 as [O1 O2]. destruct H1 as [[j [l' [a [N' [A [-> ->]]]]]]|[[-> _]|[-> _]]]; [|congruence..].
        destruct (proj2 G l' (nth_error_In _ _ N')) as [P' _]. apply glob_plain in H3; [|apply P'|apply P].
        assert (j = i) by exact (name_unique _ _ _ _ _ (proj1 G) N' N H3). subst j. rewrite N in N'. injection N' as <-. rewrite A.
        inversion H4 as [? ? ? Hv| |]; subst. destruct Hv as [<-|[]]. reflexivity.
      + apply d_In in H1. destruct H1 as [[j [l' [a [N' [A [E _]]]]]]|[[_ ->]|[E _]]]; [|..|discriminate].
        { exfalso. destruct (proj2 G l' (nth_error_In _ _ N')) as [[_ [O1 _]] _]. now apply O1. }
        destruct (l_act l) as [a|] eqn:A.
        * exfalso. apply (H2 (l_name l)); [|apply P|apply glob_plain; [apply P|apply P|reflexivity]].
          apply (d_has _ (DLeaf [2 + i])), d_In. left. exists i, l, a. auto.
        * inversion H4 as [? ? ? Hv| |]; subst. destruct Hv as [<-|[]]. reflexivity.
    - intros ->. destruct (l_act l) as [a|] eqn:A.
      + apply (sel_ref d (l_name l) (DLeaf [2 + i])); [apply d_In; left; exists i, l, a; auto|apply P|apply glob_plain; [apply P|apply P|reflexivity]|]. constructor. now left.
      + apply (sel_default d (DLeaf [0])); [apply d_In; right; left; auto| |constructor; now left].
        intros ref Hr [O1 O2] Hg. apply key_dget in Hr. destruct Hr as [x Hr]. apply dget_In, d_In in Hr. destruct Hr as [[j [l' [a [N' [A' [-> ->]]]]]]|[[-> _]|[-> _]]]; [|congruence..].
        destruct (proj2 G l' (nth_error_In _ _ N')) as [P' _]. apply glob_plain in Hg; [|apply P'|apply P].
        assert (j = i) by exact (name_unique _ _ _ _ _ (proj1 G) N' N Hg). subst j. rewrite N in N'. injection N' as <-. congruence.
  Qed.
  Lemma falls_back i l v x : nth_error layers i = Some l -> (inherits "fallback" (DDict d) None [l_name l; v] x <-> x = 1).
  Proof.
    intros N. assert (C : current "fallback" d None = Some (DLeaf [1])) by (unfold current; now rewrite d_fallback).
    assert (L : forall k R, In (k, R) d -> exists y, R = DLeaf [y]).
    { intros k R Hr. apply d_In in Hr. destruct Hr as [[j [l' [a [_ [_ [_ ->]]]]]]|[[_ ->]|[_ ->]]]; eauto. }
    split.
    - intros H. inversion H as [|? ? ? ? l' ? H1 H2 H3 H4|? ref R ? ? ? ? H1 H2 H3 H4|? R ? ? ? ? H1 H2 H4]; subst.
      + rewrite C in H3. injection H3 as <-. destruct H4 as [<-|[]]. reflexivity.
      + destruct (L _ _ H1) as [y ->]. rewrite C in H4. inversion H4 as [? ? ? ? Hv| | |]; subst. destruct Hv as [<-|[]]. reflexivity.
      + destruct (L _ _ H1) as [y ->]. rewrite C in H4. inversion H4 as [? ? ? ? Hv| | |]; subst. destruct Hv as [<-|[]]. reflexivity.
    - intros ->. assert (S := proj2 (selected i l v _ N) eq_refl). inversion S as [|? ref R ? ? ? H1 H2 H3 H4|? R ? ? ? H1 H2 H4]; subst.
      + apply (inh_ref "fallback" d ref R); auto. destruct (L _ _ H1) as [y ->]. rewrite C. constructor. now left.
      + apply (inh_def "fallback" d R); auto. destruct (L _ _ H1) as [y ->]. rewrite C. constructor. now left.
  Qed.
  Lemma nodup_single (l : list nat) x : (forall v, In v l <-> v = x) -> nodup Nat.eq_dec l = [x].
  Proof.
    intros H. assert (ND := NoDup_nodup Nat.eq_dec l). assert (I : forall v, In v (nodup Nat.eq_dec l) <-> v = x) by (intros v; rewrite nodup_In; apply H).
    destruct (nodup Nat.eq_dec l) as [|a [|b r]]; [exfalso; now apply (I x)|f_equal; apply I; now left|].
    exfalso. inversion ND as [|? ? N1 _]. apply N1. left. transitivity x; [|symmetry]; apply I; cbn; auto.
  Qed.
  Lemma resolved : exists r fb, resolve_references (view_tree (all_parameters layers)) (init_dict layers) = Ok (r, fb) /\
    forall i l v sh, nth_error layers i = Some l -> In (v, sh) (l_params l) ->
      exists x f, get_by_parts r [l_name l; v] = Some (DLeaf x) /\ get_by_parts fb [l_name l; v] = Some (DLeaf f) /\ nodup Nat.eq_dec x = [chosen i l] /\ nodup Nat.eq_dec f = [1].
  Proof.
    assert (VT : forall l v sh, In l layers -> In (v, sh) (l_params l) -> get_by_parts (view_tree (all_parameters layers)) [l_name l; v] = Some (DLeaf sh)).
    { intros l v sh Hl Hv. apply (view_tree_get _ _ (l_params l)).
      - apply In_dget; [apply good_params|]. unfold all_parameters. apply in_map_iff. exists l. auto.
      - apply In_dget; [|exact Hv]. exact (proj1 (proj2 (proj2 G l Hl))). }
    destruct (resolve_total (view_tree (all_parameters layers)) (init_dict layers) (view_tree_nodup _ good_params) d_fits) as [[r [fb E]]|[_ [p [x [v1 [v2 [Gp [NS _]]]]]]]].
    - exists r, fb. split; [exact E|]. intros i l v sh N Hv.
      destruct (resolve_spec _ _ _ _ _ _ E (VT l v sh (nth_error_In _ _ N) Hv)) as [y [f [G1 [G2 [HF [HS _]]]]]].
      exists y, f. split; [exact G1|]. split; [exact G2|]. split; apply nodup_single.
      + intros w. rewrite <- (selected i l v w N). apply HS. exists (chosen i l). exact (proj2 (selected i l v _ N) eq_refl).
      + intros w. rewrite <- (falls_back i l v w N). apply HF.
    - exfalso. destruct p as [|n [|v [|z p]]].
      + discriminate Gp.
      + unfold view_tree in Gp. cbn [get_by_parts] in Gp. destruct (dget n _) as [t|] eqn:En; [|discriminate]. apply dget_In in En. apply in_map_iff in En. destruct En as [[n' vs] [[= _ <-] _]]. discriminate.
      + unfold view_tree in Gp. cbn [get_by_parts] in Gp. destruct (dget n _) as [t|] eqn:En; [|discriminate]. apply dget_In in En. apply in_map_iff in En. destruct En as [[n' vs] [[= -> <-] Hn]].
        unfold all_parameters in Hn. apply in_map_iff in Hn. destruct Hn as [l [[= <- <-] Hl]]. apply In_nth_error in Hl. destruct Hl as [i Hi]. apply (NS (chosen i l)). exact (proj2 (selected i l v _ Hi) eq_refl).
      + unfold view_tree in Gp. cbn [get_by_parts] in Gp. destruct (dget n _) as [t|] eqn:En; [|discriminate]. apply dget_In in En. apply in_map_iff in En. destruct En as [[n' vs] [[= _ <-] _]]. cbn [snd] in Gp.
        destruct (dget v _) as [t|] eqn:Ev; [|discriminate]. apply dget_In in Ev. apply in_map_iff in Ev. destruct Ev as [[v' sh'] [[= _ <-] _]]. discriminate.
  Qed.
End Initialized.

Lemma scales_known a : dget a scales = None <-> ~ In a ["rel"; "tanh"; "sigmoid"; "linear"].
Proof.
  unfold scales. cbn [dget In]. destruct (String.eqb_spec a "rel") as [->|N1]; [intuition discriminate|]. destruct (String.eqb_spec a "tanh") as [->|N2]; [intuition discriminate|].
  destruct (String.eqb_spec a "sigmoid") as [->|N3]; [intuition discriminate|]. destruct (String.eqb_spec a "linear") as [->|N4]; [intuition discriminate|]. intuition congruence.
Qed.
Lemma view_result layers i l sh : nth_error layers i = Some l ->
  match evaluate_with (object layers (chosen i l)) (Some (object layers 1)) sh with
  | IOk s => wanted l sh s
  | IErr e => e = EKey /\ exists a, l_act l = Some a /\ 2 <= length sh /\ ~ In a ["rel"; "tanh"; "sigmoid"; "linear"]
  end.
Proof.
  intros N. unfold chosen. destruct (l_act l) as [a|] eqn:A.
  - cbn [object Nat.add]. rewrite N. destruct l as [ln la lp]. cbn in A. subst la. unfold evaluate_with, call. destruct (Nat.ltb_spec (length sh) 2) as [L|L].
    + now apply wa_bias.
    + destruct (dget a scales) eqn:D.
      * now apply wa_weights.
      * split; [reflexivity|]. exists a. apply scales_known in D. auto.
  - now apply wa_plain.
Qed.

(** The initialization succeeds for every network whose activations have a scale.  Every parameter view is filled exactly once:
    a view with two or more dimensions of a layer with an activation by DenseSqrtFanInOut with the scale of that activation,
    all other views with Gaussian noise. *)
Theorem C78_initialized : forall layers, good_layers layers -> ~ unknown_activation layers ->
  exists filled, initialize_spec layers = IOk filled /\
    map fst filled = flat_map (fun l => map (fun v => (l_name l, fst v)) (l_params l)) layers /\ NoDup (map fst filled) /\
    forall n v s, In (n, v, s) filled -> exists l sh, In l layers /\ n = l_name l /\ In (v, sh) (l_params l) /\ wanted l sh s.
Proof.
  intros layers G U. destruct (resolved layers G) as [r [fb [E H]]]. unfold initialize_spec. rewrite E.
  assert (P : forall vs, (forall n v sh, In (n, v, sh) vs -> exists l, In l layers /\ n = l_name l /\ In (v, sh) (l_params l)) ->
    exists filled, imap (init_view layers r fb) vs = IOk filled /\ map fst filled = map fst vs /\ forall n v s, In (n, v, s) filled -> exists l sh, In l layers /\ n = l_name l /\ In (v, sh) (l_params l) /\ wanted l sh s).
  { induction vs as [|[[n v] sh] vs IH]; intros Q.
    - exists []. repeat split. intros n v s [].
    - destruct (Q n v sh (or_introl eq_refl)) as [l [Hl [-> Hv]]]. destruct (In_nth_error _ _ Hl) as [i N]. destruct (H i l v sh N Hv) as [x [f [G1 [G2 [X F]]]]].
      destruct IH as [filled [E2 [M D]]]; [intros; apply Q; now right|].
      cbn [imap]. unfold init_view at 1. rewrite G1, G2, X, F. assert (W := view_result layers i l sh N).
      destruct (evaluate_with _ _ sh) as [s|e].
      + rewrite E2. exists ((l_name l, v, s) :: filled). split; [reflexivity|]. split; [cbn [map fst]; now rewrite M|].
        intros n' v' s' [[= <- <- <-]|H']; [|now apply D]. exists l, sh. auto.
      + exfalso. destruct W as [_ [a [A [L K]]]]. apply U. exists l, a, v, sh. auto. }
  destruct (P (all_views layers)) as [filled [E2 [M D]]].
  { intros n v sh Hn. unfold all_views in Hn. apply in_flat_map in Hn. destruct Hn as [l [Hl Hn]]. apply in_map_iff in Hn. destruct Hn as [[v' sh'] [[= <- <- <-] Hv]]. exists l. auto. }
  assert (M2 : map fst filled = flat_map (fun l => map (fun v => (l_name l, fst v)) (l_params l)) layers).
  { rewrite M. unfold all_views. clear. induction layers as [|l r IH]; [reflexivity|]. cbn [flat_map]. rewrite map_app, IH, map_map. reflexivity. }
  exists filled. split; [exact E2|]. split; [exact M2|]. split; [|exact D]. rewrite M2. clear - G. destruct G as [ND G].
  induction layers as [|l r IH]; [constructor|]. cbn [flat_map]. cbn [map] in ND. apply NoDup_cons_iff in ND. destruct ND as [N1 N2].
  assert (A : forall X (xs ys : list X), NoDup xs -> NoDup ys -> (forall x, In x xs -> ~ In x ys) -> NoDup (xs ++ ys)).
  { intros X xs. induction xs as [|x xs IHx]; intros ys A1 A2 A3; [exact A2|]. cbn [app]. apply NoDup_cons_iff in A1. destruct A1 as [B1 B2]. constructor.
    - rewrite in_app_iff. intros [B|B]; [contradiction|]. exact (A3 x (or_introl eq_refl) B).
    - apply IHx; auto. intros y Hy. apply A3. now right. }
  apply A.
  - destruct (G l (or_introl eq_refl)) as [_ [NV _]]. clear - NV. induction (l_params l) as [|[v sh] ps IH]; [constructor|]. cbn [map fst] in *. apply NoDup_cons_iff in NV. destruct NV as [V1 V2]. constructor; [|now apply IH].
    intros H. apply in_map_iff in H. destruct H as [y [[= Ey] Hy]]. apply V1. rewrite <- Ey. now apply in_map.
  - apply IH; [exact N2|]. intros l' Hl'. apply G. now right.
  - intros [n v] H1 H2. apply in_map_iff in H1. destruct H1 as [y [[= <- <-] _]]. apply in_flat_map in H2. destruct H2 as [l' [Hl' H2]]. apply in_map_iff in H2. destruct H2 as [z [[= Ez _] _]].
    apply N1. rewrite <- Ez. now apply in_map.
Qed.
Print Assumptions C78_initialized.

(** With an activation that has no scale the initialization ends with a KeyError: the fallback does not help. *)
Theorem C78_unknown : forall layers, good_layers layers -> unknown_activation layers -> initialize_spec layers = IErr EKey.
Proof.
  intros layers G [l [a [v [sh [Hl [A [Hv [L K]]]]]]]]. destruct (resolved layers G) as [r [fb [E H]]]. unfold initialize_spec. rewrite E.
  assert (P : forall vs, (forall n v sh, In (n, v, sh) vs -> exists l, In l layers /\ n = l_name l /\ In (v, sh) (l_params l)) -> In (l_name l, v, sh) vs -> imap (init_view layers r fb) vs = IErr EKey).
  { induction vs as [|[[n w] sh'] vs IH]; intros Q I; [destruct I|]. cbn [imap].
    destruct (Q n w sh' (or_introl eq_refl)) as [l' [Hl' [-> Hw]]]. destruct (In_nth_error _ _ Hl') as [i N]. destruct (H i l' w sh' N Hw) as [x [f [G1 [G2 [X F]]]]].
    unfold init_view at 1. rewrite G1, G2, X, F. assert (W := view_result layers i l' sh' N). destruct (evaluate_with _ _ sh') as [s|e] eqn:Es.
    - destruct I as [[= I1 I2 I3]|I]; [|rewrite IH; [reflexivity|intros; apply Q; now right|exact I]]. exfalso. subst w sh'.
      destruct (In_nth_error _ _ Hl) as [j N']. assert (i = j) by exact (name_unique _ _ _ _ _ (proj1 G) N N' I1). subst j. rewrite N in N'. injection N' as <-.
      unfold chosen in Es. rewrite A in Es. cbn [object Nat.add] in Es. rewrite N in Es. destruct l' as [ln la lp]. cbn in A. subst la. unfold evaluate_with, call in Es.
      apply Nat.ltb_ge in L. rewrite L in Es. apply scales_known in K. rewrite K in Es. discriminate.
    - destruct W as [-> _]. reflexivity. }
  apply P.
  - intros n w sh' Hn. unfold all_views in Hn. apply in_flat_map in Hn. destruct Hn as [l' [Hl' Hn]]. apply in_map_iff in Hn. destruct Hn as [[v' sh''] [[= <- <- <-] Hv']]. exists l'. auto.
  - unfold all_views. apply in_flat_map. exists l. split; [exact Hl|]. apply in_map_iff. exists (v, sh). auto.
Qed.
Print Assumptions C78_unknown.

(** The values lie in the documented interval [-scale / sqrt(n1 + n2), scale / sqrt(n1 + n2)], which is exhausted symmetrically;
    the scales are the documented ones: sqrt(12) for rel, sqrt(6) for tanh, 4 sqrt(6) for sigmoid, 1 for linear. *)
Theorem C78_interval : forall activation scale n1 n2 u, dget activation scales = Some scale -> 0 < n1 + n2 -> (0 <= u < 1)%R ->
  (0 <= scale /\ scale * scale = match activation with "rel" => 12 | "tanh" => 6 | "sigmoid" => 96 | _ => 1 end)%R /\
  (- (scale / sqrt (INR n1 + INR n2)) <= fan_value scale n1 n2 u < scale / sqrt (INR n1 + INR n2))%R /\
  fan_value scale n1 n2 0 = (- (scale / sqrt (INR n1 + INR n2)))%R /\ fan_value scale n1 n2 (1 - u) = (- fan_value scale n1 n2 u)%R.
Proof.
  intros a c n1 n2 u H N [U0 U1]. assert (S6 := sqrt_lt_R0 6 ltac:(lra)). assert (S12 := sqrt_lt_R0 12 ltac:(lra)).
  assert (Q6 := sqrt_sqrt 6 ltac:(lra)). assert (Q12 := sqrt_sqrt 12 ltac:(lra)).
  assert (C : (0 < c)%R /\ (c * c = match a with "rel" => 12 | "tanh" => 6 | "sigmoid" => 96 | _ => 1 end)%R).
  { apply dget_In in H. unfold scales in H. destruct H as [H|[H|[H|[H|[]]]]]; injection H as <- <-; (split; [lra|]); nra. }
  destruct C as [C CC].
  assert (Q : (0 < sqrt (INR n1 + INR n2))%R). { apply sqrt_lt_R0. rewrite <- plus_INR. now apply lt_0_INR. }
  assert (D : (0 < / sqrt (INR n1 + INR n2))%R) by now apply Rinv_0_lt_compat. unfold fan_value, Rdiv. set (q := (/ sqrt (INR n1 + INR n2))%R) in *.
  assert (CQ : (0 < c * q)%R) by (apply Rmult_lt_0_compat; lra). split; [split; [lra|exact CC]|]. split; [|split; ring].
  replace (c * (2 * u - 1) * q)%R with ((c * q) * (2 * u - 1))%R by ring. split; nra.
Qed.
Print Assumptions C78_interval.

(** Every layer that create_net_from_spec creates, whatever the line, is created with an activation which has a scale, or without any. *)
Definition known_only (kw : SetupModel.kwargs) : Prop := forall v, In ("activation", v) kw -> exists a, v = SetupModel.KStr a /\ In a ["rel"; "tanh"; "sigmoid"; "linear"].
Lemma taken default args f r : In default ["rel"; "tanh"; "sigmoid"; "linear"] -> SpecModel.take_activation default args = (f, r) -> In f ["rel"; "tanh"; "sigmoid"; "linear"].
Proof.
  intros D H. unfold SpecModel.take_activation in H. destruct args as [|a args]; [now injection H as <- _|]. destruct (SpecModel.act_funcs a) as [g|] eqn:E; [|now injection H as <- _]. injection H as <- _.
  unfold SpecModel.act_funcs in E. repeat match type of E with match ?x with _ => _ end = _ => destruct x; try discriminate end; injection E as <-; cbn; auto 10.
Qed.
Lemma sized_known ty default args call : In default ["rel"; "tanh"; "sigmoid"; "linear"] -> SpecModel.sized ty default args = SetupModel.SOk call -> known_only (snd call).
Proof.
  intros D H. unfold SpecModel.sized in H. destruct (SpecModel.take_activation default args) as [f r] eqn:E. apply (taken _ _ _ _ D) in E.
  destruct r as [|[z|q|c] r]; try discriminate. injection H as <-. intros v [H|[H|[]]]; [discriminate|]. injection H as <-. exists f. auto.
Qed.
Lemma created_known ty args call : SpecModel.create_layer ty args = SetupModel.SOk call -> known_only (snd call).
Proof.
  unfold SpecModel.create_layer. intros H.
  destruct (String.eqb ty "F"); [revert H; apply sized_known; cbn; auto|].
  destruct (String.eqb ty "B"). { unfold SpecModel.spec_B in H. destruct args; [|discriminate]. injection H as <-. intros v [H|[H|[]]]; discriminate. }
  destruct (String.eqb ty "R"); [revert H; apply sized_known; cbn; auto|].
  destruct (String.eqb ty "L"); [revert H; apply sized_known; cbn; auto|].
  destruct (String.eqb ty "D"). { unfold SpecModel.spec_D in H. destruct args as [|[z|q|c] args]; try discriminate; injection H as <-; intros v [H|[]]; discriminate. }
  destruct (String.eqb ty "C").
  { unfold SpecModel.spec_C in H. destruct (SpecModel.take_activation "rel" args) as [f r] eqn:E. apply taken in E; [|cbn; auto].
    destruct r as [|[n|q|c] [|[k|q'|c'] r]]; try discriminate. destruct (SpecModel.options _ _ _ _) as [o|e]; [|discriminate]. cbn [SetupModel.sbind] in H. injection H as <-.
    intros v Hv. cbn [snd In] in Hv. destruct Hv as [H|[H|[H|[H|[H|[]]]]]]; try discriminate. injection H as <-. exists f. auto. }
  destruct (String.eqb ty "P"); [|discriminate]. unfold SpecModel.spec_P in H. destruct args as [|a r]; [discriminate|].
  destruct (match a with SpecModel.ALetter c => _ | _ => _ end) as [pool r']. destruct r' as [|[k|q'|c'] r2]; try discriminate. destruct (SpecModel.options _ _ _ _) as [o|e]; [|discriminate]. cbn [SetupModel.sbind] in H. injection H as <-.
  intros v Hv. cbn [snd In] in Hv. destruct Hv as [H|[H|[H|[H|[]]]]]; discriminate.
Qed.
Theorem C78_activations : forall task in_shape out_shape line data_name targets_name mask use_conv p,
  SpecModel.spec_program task in_shape out_shape line data_name targets_name mask use_conv = SetupModel.SOk p ->
  forall kw v, In kw (SpecModel.pg_kwargs p) -> In ("activation", v) kw -> exists a, v = SetupModel.KStr a /\ In a ["rel"; "tanh"; "sigmoid"; "linear"].
Proof.
  intros task ish osh line dn tn mask uc p H kw v Hk. revert v. change (known_only kw). unfold SpecModel.spec_program, SpecModel.get_in_out_layers in H.
  destruct (SpecModel.projection osh uc) as [proj|e] eqn:EP; [|discriminate]. cbn [SetupModel.sbind] in H.
  destruct (SpecModel.out_layer_type task) as [ty|e]; [|discriminate]. cbn [SetupModel.sbind] in H.
  assert (KP : known_only (snd proj)).
  { unfold SpecModel.projection in EP. destruct (_ || _) in EP; [injection EP as <-|destruct (_ || _) in EP; [|discriminate]; destruct osh; [discriminate|]; injection EP as <-];
      intros v Hv; cbn [snd In] in Hv; repeat (destruct Hv as [Hv|Hv]; [try discriminate|]); try contradiction; injection Hv as <-; exists "linear"; cbn; auto 10. }
  assert (KI : forall its items, SetupModel.smap (fun it => SpecModel.create_layer (fst it) (snd it)) its = SetupModel.SOk items -> forall c, In c items -> known_only (snd c)).
  { induction its as [|it its IH]; intros items E c Hc; cbn [SetupModel.smap] in E; [injection E as <-; destruct Hc|].
    destruct (SpecModel.create_layer (fst it) (snd it)) as [c0|e] eqn:E0; [|discriminate]. cbn [SetupModel.sbind] in E. destruct (SetupModel.smap _ its) as [r|e] eqn:E1; [|discriminate]. cbn [SetupModel.sbind] in E. injection E as <-.
    destruct Hc as [<-|Hc]; [exact (created_known _ _ _ E0)|exact (IH r eq_refl c Hc)]. }
  assert (KO : forall (k : string) (x : SetupModel.kval), k <> "activation" -> known_only [(k, x)]) by (intros k x N v [[= E _]|[]]; contradiction).
  assert (KN : known_only []) by (intros v []).
  destruct mask as [k|]; cbn [SetupModel.sbind] in H; (destruct (SetupModel.smap _ (SpecModel.read_spec line)) as [items|e] eqn:EI; [|discriminate]); cbn [SetupModel.sbind] in H;
    destruct (SpecModel.add_layers _ _ _) as [ops last]; injection H as <-; cbn [SpecModel.pg_kwargs] in Hk;
    repeat (destruct Hk as [<-|Hk]; [first [exact KP|exact KN|apply KO; discriminate]|]); apply in_map_iff in Hk; destruct Hk as [c [<- Hc]]; exact (KI _ _ EI c Hc).
Qed.
Print Assumptions C78_activations.

(** So the layers of the network have an activation with a scale, if their class has an activation at all. *)
Theorem C78_layers : forall task in_shape out_shape line data_name targets_name mask use_conv p order ar layers,
  SpecModel.spec_program task in_shape out_shape line data_name targets_name mask use_conv = SetupModel.SOk p ->
  SpecModel.architecture_in p order = Some ar -> SetupModel.instantiate ar = SetupModel.SOk layers ->
  forall l, In l layers -> In "activation" (SetupModel.expected_kwargs (SetupModel.li_cls l)) ->
    exists a, SetupModel.cf_act (SetupModel.li_cfg l) = SetupModel.KStr a /\ In a ["rel"; "tanh"; "sigmoid"; "linear"].
Proof.
  intros task ish osh line dn tn mask uc p order ar layers H HA HI l Hl HC.
  assert (K : forall n r kw, dget n ar = Some (r, kw) -> known_only kw).
  { intros n r kw D. unfold SpecModel.architecture_in in HA. destruct (NamesModel.run _ _) as [w|]; [|discriminate]. destruct (NamesModel.generate_architecture_in w order) as [a|]; [|discriminate]. injection HA as <-.
    apply dget_In in D. unfold SpecModel.with_kwargs in D. apply in_map_iff in D. destruct D as [[k e] [[= _ _ <-] _]]. cbn [fst].
    destruct (nth_in_or_default k (SpecModel.pg_kwargs p) []) as [D|D]; [|rewrite D; intros v []]. intros v Hv. exact (C78_activations _ _ _ _ _ _ _ _ _ H _ v D Hv). }
  unfold SetupModel.instantiate in HI. destruct (ArchModel.validate_architecture _); try discriminate. destruct (ArchModel.collect_all_connections _) as [cns|]; [|discriminate].
  destruct (ArchModel.get_canonical_layer_order _) eqn:EO; try discriminate.
  destruct (SetupProps.loop_made _ _ _ _ _ HI) as [_ [_ M]]. destruct (M l Hl) as [[]|M']. destruct M' as [pre [r [kw [ty [c [ins [_ [D [_ [_ [_ ML]]]]]]]]]]].
  assert (KW := K _ _ _ D). apply PassShapesProofs.make_layer_inv in ML. destruct ML as [_ [sp [SP EL]]]. rewrite EL in HC |- *. cbn [SetupModel.li_cls SetupModel.li_cfg] in HC |- *.
  assert (KG : forall default, In default ["rel"; "tanh"; "sigmoid"; "linear"] -> exists a, SetupModel.kget "activation" (SetupModel.KStr default) kw = SetupModel.KStr a /\ In a ["rel"; "tanh"; "sigmoid"; "linear"]).
  { intros default Hd. unfold SetupModel.kget. destruct (dget "activation" kw) as [v|] eqn:E; [|eauto]. apply KW. now apply dget_In. }
  assert (KT := KG "tanh" ltac:(cbn; auto)). assert (KR := KG "rel" ltac:(cbn; auto)). clear KG.
  assert (B : forall A B (x : SetupModel.sres A) (f : A -> SetupModel.sres B) y, SetupModel.sbind x f = SetupModel.SOk y -> exists z, x = SetupModel.SOk z /\ f z = SetupModel.SOk y).
  { intros A B [z|e] f y E; [|discriminate]. eauto. }
  destruct c; cbn in HC; try solve [exfalso; intuition discriminate]; cbn [SetupModel.setup] in SP;
    unfold SetupModel.setup_recurrent, SetupModel.setup_lstm, SetupModel.setup_conv, SetupModel.setup_elementwise, SetupModel.setup_fully_connected in SP; cbv zeta in SP;
    repeat match type of SP with
           | SetupModel.sbind _ _ = _ => apply B in SP; let z := fresh in let E := fresh in destruct SP as [z [E SP]]
           | match ?x with _ => _ end = _ => destruct x; try discriminate
           end; injection SP as <-; cbn; assumption.
Qed.
Print Assumptions C78_layers.

(** ** The network *)
(** The layers of a network as [initialize_spec] needs them. *)
Definition dim (d : ShapesModel.sdim) : nat := match d with ShapesModel.DInt z => Z.to_nat z | _ => 0 end.
Definition init_layer (l : SetupModel.linst) : layer :=
  mkLayer (SetupModel.li_name l)
    (if smem "activation" (SetupModel.expected_kwargs (SetupModel.li_cls l)) then match SetupModel.cf_act (SetupModel.li_cfg l) with SetupModel.KStr a => Some a | _ => None end else None)
    (map (fun e => (fst e, map dim (SetupModel.bs_shape (snd e)))) (SetupModel.li_params l)).

Lemma plain_from_valid s : is_valid_layer_name s = true -> ~ In newline (chars s) -> plain_name s.
Proof.
  intros H N. apply valid_layer_name_spec in H. destruct H as [H1 [H2 [t [I [->| ->]]]]]; [split; [exact I|split; assumption]|].
  exfalso. apply N. rewrite PyFacts.chars_app. apply in_or_app. right. now left.
Qed.
Definition plainb (s : string) : bool := is_valid_layer_name s && negb (existsb (Ascii.eqb newline) (chars s)).
Lemma plainb_ok s : plainb s = true -> plain_name s.
Proof.
  intros H. apply andb_true_iff in H. destruct H as [H1 H2]. apply plain_from_valid; [exact H1|]. intros I. apply negb_true_iff in H2.
  assert (X : existsb (Ascii.eqb newline) (chars s) = true); [|congruence]. apply existsb_exists. exists newline. split; [exact I|apply Ascii.eqb_refl].
Qed.
Lemma view_names c name kw ins sp : SetupModel.setup c name kw ins = SetupModel.SOk sp -> forallb plainb (map fst (SetupModel.sp_params sp)) = true.
Proof.
  intros SP.
  assert (B : forall A B (x : SetupModel.sres A) (f : A -> SetupModel.sres B) y, SetupModel.sbind x f = SetupModel.SOk y -> exists z, x = SetupModel.SOk z /\ f z = SetupModel.SOk y).
  { intros A B [z|e] f y E; [|discriminate]. eauto. }
  destruct c; cbn [SetupModel.setup] in SP;
    match type of SP with ?f ?a ?b ?c = _ => unfold f in SP | ?f ?a ?b = _ => unfold f in SP end; cbv zeta in SP;
    repeat match type of SP with
           | SetupModel.sbind _ _ = _ => apply B in SP; let z := fresh in let E := fresh in destruct SP as [z [E SP]]
           | match ?x with _ => _ end = _ => destruct x; try discriminate
           end; injection SP as <-; cbn [SetupModel.sp_params];
    first [reflexivity | match goal with E : SetupModel.build _ = SetupModel.SOk ?z |- context[map fst ?z] => rewrite (InstanceProofs.build_keys _ _ E); reflexivity end].
Qed.

(** The names of the layers have no newlines. *)
Lemma layer_name_no_newline ops w a n : NamesProofs.Inv ops w -> (forall b, In b (NamesProofs.created ops) -> ~ In newline (chars b)) -> NamesModel.layer_name w a = Some n -> ~ In newline (chars n).
Proof.
  intros I HB. unfold NamesModel.layer_name. destruct (nth_error (NamesModel.w_layers w) a) as [la|] eqn:Ea; [|discriminate].
  destruct (nth_error (NamesModel.w_scopes w) (NamesModel.l_scope la)) as [d|]; [|discriminate]. destruct (dget (NamesModel.l_base la) d) as [l|]; [|discriminate].
  assert (B : ~ In newline (chars (NamesModel.l_base la))). { apply HB. rewrite <- (NamesProofs.inv_base _ _ I). apply in_map. eapply nth_error_In; eauto. }
  destruct (length l =? 1); [intros [= <-]; exact B|]. generalize 1. induction l as [|u l IH]; intros i; simpl; [discriminate|].
  destruct (match dget _ d with Some _ => _ | None => _ end) as [j|]; [|discriminate]. destruct (u =? a); [|apply IH]. intros [= <-].
  unfold PyBase.suffixed. rewrite PyFacts.chars_app. intros J. apply in_app_or in J. destruct J as [J|[J|J]]; [contradiction|discriminate|]. now apply PyFacts.dec_digits in J.
Qed.
Lemma architecture_names w order : forall ar, NamesModel.generate_architecture_in w order = Some ar -> forall k e, In (k, e) ar -> exists a, NamesModel.layer_name w a = Some k.
Proof.
  unfold NamesModel.generate_architecture_in. intros ar H.
  assert (X : forall acc, fold_left (NamesModel.add_desc w) order acc = Some ar -> (forall d, acc = Some d -> forall k e, In (k, e) d -> exists a, NamesModel.layer_name w a = Some k) -> forall k e, In (k, e) ar -> exists a, NamesModel.layer_name w a = Some k).
  { clear H. induction order as [|x r IH]; intros acc; cbn [fold_left]; [intros E Q; exact (Q ar E)|].
    intros E Q. apply (IH _ E). intros d Ed. unfold NamesModel.add_desc in Ed. destruct acc as [d0|]; [|discriminate]. destruct (nth_error _ x) as [l|]; [|discriminate]. destruct (NamesModel.layer_name w x) as [n|] eqn:En; [|discriminate]. destruct (NamesModel.outgoing_description w x) as [o|]; [|discriminate].
    injection Ed as <-. specialize (Q d0 eq_refl). clear - Q En. revert Q. induction d0 as [|[k0 e0] d0 IH]; intros Q k e; cbn [dset].
    - intros [[= <- _]|[]]. eauto.
    - destruct (String.eqb n k0).
      + intros [[= <- _]|Hk]; [|exact (Q k e (or_intror Hk))]. exact (Q k0 e0 (or_introl eq_refl)) || eauto.
      + intros [[= <- <-]|Hk]; [exact (Q k0 e0 (or_introl eq_refl))|]. exact (IH (fun k e H => Q k e (or_intror H)) k e Hk). }
  apply (X _ H). intros d [= <-] k e [].
Qed.
Lemma created_class ty args call : SpecModel.create_layer ty args = SetupModel.SOk call -> ~ In newline (chars (fst call)).
Proof.
  unfold SpecModel.create_layer, SpecModel.sized, SpecModel.spec_B, SpecModel.spec_D, SpecModel.spec_C, SpecModel.spec_P. intros H.
  repeat match type of H with
         | SetupModel.sbind ?x _ = _ => destruct x; cbn [SetupModel.sbind] in H
         | (let (_, _) := ?x in _) = _ => destruct x
         | match ?x with _ => _ end = _ => destruct x
         | SetupModel.SErr _ = _ => discriminate
         end; try discriminate; injection H as <-; vm_compute; intuition discriminate.
Qed.
Lemma program_names task ish osh line dn tn mask uc p : SpecModel.spec_program task ish osh line dn tn mask uc = SetupModel.SOk p -> forall b, In b (NamesProofs.created (SpecModel.pg_ops p)) -> ~ In newline (chars b).
Proof.
  intros H. unfold SpecModel.spec_program, SpecModel.get_in_out_layers in H.
  destruct (SpecModel.projection osh uc) as [proj|e]; [|discriminate]. cbn [SetupModel.sbind] in H.
  destruct (SpecModel.out_layer_type task) as [ty|e]; [|discriminate]. cbn [SetupModel.sbind] in H.
  assert (KI : forall its items, SetupModel.smap (fun it => SpecModel.create_layer (fst it) (snd it)) its = SetupModel.SOk items -> forall c, In c items -> ~ In newline (chars (fst c))).
  { induction its as [|it its IH]; intros items E c Hc; cbn [SetupModel.smap] in E; [injection E as <-; destruct Hc|].
    destruct (SpecModel.create_layer (fst it) (snd it)) as [c0|e] eqn:E0; [|discriminate]. cbn [SetupModel.sbind] in E. destruct (SetupModel.smap _ its) as [r|e] eqn:E1; [|discriminate]. cbn [SetupModel.sbind] in E. injection E as <-.
    destruct Hc as [<-|Hc]; [exact (created_class _ _ _ E0)|exact (IH r eq_refl c Hc)]. }
  assert (KA : forall items cur next ops last, SpecModel.add_layers items cur next = (ops, last) -> NamesProofs.created ops = map fst items).
  { induction items as [|[t kw] r IH]; intros cur next ops last E; cbn [SpecModel.add_layers] in E; [injection E as <- _; reflexivity|].
    destruct (SpecModel.add_layers r next (S next)) as [o l] eqn:E1. injection E as <- _. cbn. f_equal. exact (IH _ _ _ _ E1). }
  assert (CA : forall o1 o2, NamesProofs.created (o1 ++ o2) = NamesProofs.created o1 ++ NamesProofs.created o2) by (intros; unfold NamesProofs.created; apply flat_map_app).
  destruct mask as [k|]; cbn [SetupModel.sbind] in H; (destruct (SetupModel.smap _ (SpecModel.read_spec line)) as [items|e] eqn:EI; [|discriminate]); cbn [SetupModel.sbind] in H;
    destruct (SpecModel.add_layers _ _ _) as [ops last] eqn:EA; injection H as <-; cbn [SpecModel.pg_ops]; intros b Hb;
    repeat first [rewrite CA in Hb | rewrite (KA _ _ _ _ _ EA) in Hb]; cbn in Hb;
    repeat match type of Hb with
              | _ \/ _ => destruct Hb as [Hb|Hb]
              | In _ (_ ++ _) => apply in_app_or in Hb
              | False => destruct Hb
              | In _ (map fst _) => apply in_map_iff in Hb; let c := fresh in let Hc := fresh in destruct Hb as [c [<- Hc]]; exact (KI _ _ EI _ Hc)
              | @eq string _ _ => rewrite <- Hb; vm_compute; intuition discriminate
              | In _ (NamesProofs.created _) => destruct Hb
              | In ?x (flat_map _ ?o) => change (In x (NamesProofs.created o)) in Hb; rewrite CA, (KA _ _ _ _ _ EA) in Hb
              end.
Qed.

(** The network that create_net_from_spec makes of any line is completely initialized: every parameter exactly once, the ones with
    two or more dimensions of layers with an activation by DenseSqrtFanInOut for that activation, the others with Gaussian noise.
    (C71_network: for the lines of the documentation there is such a network, with well-named layers.) *)
Theorem C78_network : forall task in_shape out_shape line data_name targets_name mask use_conv p order ar layers,
  SpecModel.spec_program task in_shape out_shape line data_name targets_name mask use_conv = SetupModel.SOk p ->
  SpecModel.architecture_in p order = Some ar -> SetupModel.instantiate ar = SetupModel.SOk layers ->
  InstanceProps.named ar ->
  exists filled, initialize_spec (map init_layer layers) = IOk filled /\ NoDup (map fst filled) /\
    (forall n v, In (n, v) (map fst filled) <-> exists l b, In l layers /\ n = SetupModel.li_name l /\ In (v, b) (SetupModel.li_params l)) /\
    forall n v s, In (n, v, s) filled -> exists l b, In l layers /\ n = SetupModel.li_name l /\ In (v, b) (SetupModel.li_params l) /\
      let active := In "activation" (SetupModel.expected_kwargs (SetupModel.li_cls l)) in
      (active /\ 2 <= length (SetupModel.bs_shape b) /\ exists a, SetupModel.cf_act (SetupModel.li_cfg l) = SetupModel.KStr a /\ s = Uniform_of a) \/
      ((~ active \/ length (SetupModel.bs_shape b) < 2) /\ s = Noise).
Proof.
  intros task ish osh line dn tn mask uc p order ar layers H HA HI HN.
  assert (NL : forall l, In l layers -> ~ In newline (chars (SetupModel.li_name l))).
  { intros l Hl. destruct (SetupProps.instantiate_made _ _ HI) as [cns [names [_ [_ [_ [_ HM]]]]]]. destruct (HM l Hl) as [pre [r [kw [ty [c [ins [_ [D _]]]]]]]]. apply dget_In in D.
    unfold SpecModel.architecture_in in HA. destruct (NamesModel.run (SpecModel.pg_ops p) NamesModel.empty_world) as [w|] eqn:ER; [|discriminate]. destruct (NamesModel.generate_architecture_in w order) as [a|] eqn:EG; [|discriminate]. injection HA as <-.
    unfold SpecModel.with_kwargs in D. apply in_map_iff in D. destruct D as [[k [n e]] [[= En _ _] D]]. apply in_combine_r in D. destruct (architecture_names _ _ _ EG _ _ D) as [x Hx]. rewrite <- En.
    exact (layer_name_no_newline _ _ _ _ (NamesProofs.run_inv _ _ ER) (program_names _ _ _ _ _ _ _ _ _ H) Hx). }
  assert (ACT := C78_layers _ _ _ _ _ _ _ _ _ _ _ _ H HA HI). destruct (NetLayoutProofs.instantiate_names ar layers HN HI) as [ND [_ SL]].
  assert (ACT2 : forall l a, In l layers -> l_act (init_layer l) = Some a -> In "activation" (SetupModel.expected_kwargs (SetupModel.li_cls l)) /\ SetupModel.cf_act (SetupModel.li_cfg l) = SetupModel.KStr a).
  { intros l a Hl E. cbn [init_layer l_act] in E. destruct (smem "activation" _) eqn:S; [|discriminate]. apply PyFacts.smem_In in S. split; [exact S|]. destruct (ACT l Hl S) as [a' [E' _]]. rewrite E' in *. congruence. }
  assert (ACT3 : forall l, In l layers -> l_act (init_layer l) = None -> ~ In "activation" (SetupModel.expected_kwargs (SetupModel.li_cls l))).
  { intros l Hl E S. destruct (ACT l Hl S) as [a [E' _]]. cbn [init_layer l_act] in E. apply PyFacts.smem_In in S. rewrite S, E' in E. discriminate. }
  assert (VAL : forall l, In l layers -> is_valid_layer_name (SetupModel.li_name l) = true /\ forall v b, In (v, b) (SetupModel.li_params l) -> plain_name v).
  { destruct (SetupProps.instantiate_made _ _ HI) as [cns [names [_ [_ [HV [_ HM]]]]]].
    assert (NR : NoDup (dkeys (SetupModel.raw_of ar))) by (unfold dkeys, SetupModel.raw_of; rewrite map_map; apply HN). apply (validate_spec _ NR) in HV. destruct HV as [HV _].
    intros l Hl. destruct (HM l Hl) as [pre [r [kw [ty [c [ins [_ [D [_ [_ [_ ML]]]]]]]]]]]. split.
    - apply dget_In in D. assert (I : In (SetupModel.li_name l, r) (SetupModel.raw_of ar)) by (unfold SetupModel.raw_of; apply in_map_iff; exists (SetupModel.li_name l, (r, kw)); auto). apply (HV _ _ I).
    - intros v b Hv. apply PassShapesProofs.make_layer_inv in ML. destruct ML as [_ [sp [SP EL]]]. rewrite EL in Hv. cbn [SetupModel.li_params] in Hv. apply view_names in SP. rewrite forallb_forall in SP.
      apply plainb_ok, SP. exact (in_map fst _ _ Hv). }
  assert (G : good_layers (map init_layer layers)).
  { split; [rewrite map_map; exact ND|]. intros l' Hl'. apply in_map_iff in Hl'. destruct Hl' as [l [<- Hl]]. destruct (VAL l Hl) as [V1 V2]. cbn [init_layer l_name l_params]. split; [now apply plain_from_valid; [|apply NL]|]. split.
    - rewrite map_map. cbn [fst]. exact (proj1 (InstanceProps.sl_params _ (SL l Hl))).
    - intros v sh Hv. apply in_map_iff in Hv. destruct Hv as [[v' b] [[= <- _] Hv]]. exact (V2 _ _ Hv). }
  assert (U : ~ unknown_activation (map init_layer layers)).
  { intros [l' [a [v [sh [Hl' [E [_ [_ N]]]]]]]]. apply in_map_iff in Hl'. destruct Hl' as [l [<- Hl]]. destruct (ACT2 l a Hl E) as [A1 A2]. destruct (ACT l Hl A1) as [a' [A3 A4]]. apply N. congruence. }
  destruct (C78_initialized _ G U) as [filled [E [M [NF W]]]]. exists filled. split; [exact E|]. split; [exact NF|]. split.
  - intros n v. rewrite M, in_flat_map. split.
    + intros [l' [Hl' Hv]]. apply in_map_iff in Hl'. destruct Hl' as [l [<- Hl]]. cbn [init_layer l_name l_params] in Hv. rewrite map_map in Hv. apply in_map_iff in Hv. destruct Hv as [[v' b] [[= <- <-] Hv]]. exists l, b. auto.
    + intros [l [b [Hl [-> Hv]]]]. exists (init_layer l). split; [now apply in_map|]. cbn [init_layer l_name l_params]. rewrite map_map. apply in_map_iff. exists (v, b). auto.
  - intros n v s Hs. destruct (W n v s Hs) as [l' [sh [Hl' [-> [Hv WA]]]]]. apply in_map_iff in Hl'. destruct Hl' as [l [<- Hl]]. cbn [init_layer l_params] in Hv. apply in_map_iff in Hv. destruct Hv as [[v' b] [[= <- <-] Hv]]. cbn [snd] in WA.
    exists l, b. split; [exact Hl|]. split; [reflexivity|]. split; [exact Hv|]. cbv zeta. inversion WA as [a A L E'|L E'|A E']; subst; try rewrite map_length in L.
    + left. destruct (ACT2 l a Hl A) as [A1 A2]. split; [exact A1|]. split; [exact L|]. exists a. auto.
    + right. auto.
    + right. split; [left; exact (ACT3 l Hl A)|reflexivity].
Qed.
Print Assumptions C78_network.

(** Two layers with activations and one without (a batch normalization) *)
Example C78_case :
  initialize_spec [mkLayer "Input" None []; mkLayer "FullyConnected" (Some "tanh") [("W", [3; 2]); ("bias", [3])]; mkLayer "BatchNorm" None [("gamma", [3]); ("beta", [3])]; mkLayer "Output_projection" (Some "linear") [("W", [2; 3]); ("bias", [2])]] =
    IOk [("FullyConnected", "W", Uniform_of "tanh"); ("FullyConnected", "bias", Noise); ("BatchNorm", "gamma", Noise); ("BatchNorm", "beta", Noise); ("Output_projection", "W", Uniform_of "linear"); ("Output_projection", "bias", Noise)] /\
  initialize_spec [mkLayer "FullyConnected" (Some "el") [("W", [3; 2]); ("bias", [3])]] = IErr EKey.
Proof. split; vm_compute; reflexivity. Qed.
Example C78_case_good : good_layers [mkLayer "F" (Some "tanh") [("W", [3; 2]); ("b", [3])]; mkLayer "B" None [("g", [3])]] /\ ~ unknown_activation [mkLayer "F" (Some "tanh") [("W", [3; 2]); ("b", [3])]; mkLayer "B" None [("g", [3])]].
Proof.
  assert (P : forall c, In c identifier_start -> plain_name (String c "")).
  { intros c H. split; [exists c, []; repeat split; [exact H|intros d []]|split; discriminate]. }
  split; [split|].
  - cbn. repeat constructor; cbn; intuition discriminate.
  - intros l [<-|[<-|[]]]; cbn [l_name l_params map fst]; (split; [apply P; vm_compute; tauto|]); (split; [repeat constructor; cbn; intuition discriminate|]).
    + intros v sh [[= <- _]|[[= <- _]|[]]]; apply P; vm_compute; tauto.
    + intros v sh [[= <- _]|[]]; apply P; vm_compute; tauto.
  - intros [l [a [v [sh [[<-|[<-|[]]] [A [_ [_ N]]]]]]]]; cbn in A; [|discriminate]. injection A as <-. apply N. cbn. auto.
Qed.
