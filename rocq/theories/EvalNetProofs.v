(** Facts about evaluation passes on the memory of a network. *)
From Coq Require Import String Ascii List ZArith QArith Reals Bool Lia Lra Arith FunctionalExtensionality.
From Verif Require Import NumBase NumpyModel LayersModel NetworkModel NetworkProps NetLayersModel NetLayersProps MemoryPassModel MemoryPassProofs.
From Verif Require Import HubModel LayoutModel BuffersModel BuffersProofs.
From Verif Require Import PyBase PyFacts UtilsModel NamesModel ArchModel ShapesModel SetupModel SetupProofs SetupProps InstanceProofs InstanceProps NetLayoutExtra NetLayoutProofs NetLayoutProps CellsProofs NetMemoryModel NetSizesProofs NetMemoryProofs NetMemoryProps SchedulesModel TrainNetModel TrainNetProofs ModifiersModel ModNetModel EvalNetModel PassShapesModel PassShapesProofs PassShapesLayers ShapesProofs.
Import ListNotations.
Open Scope string_scope.
Open Scope list_scope.
Open Scope nat_scope.

Lemma pred_apart c x : In x (pred_names c) -> ~ In x (out_names c ++ loss_names c).
Proof. destruct c; cbn; intuition (subst; try discriminate); congruence. Qed.
Lemma loss_apart c x : In x (loss_names c) -> ~ In x (out_names c).
Proof. destruct c; cbn; tauto. Qed.
(** The environments of evaluations: dropout masks are not used. *)
Definition eval_same (e e' : env) : Prop := e_ctx e = e_ctx e' /\ e_precision e = e_precision e' /\ e_min e = e_min e'.

(** predictions have the shape of the inputs. *)
Lemma pred_size a layers l T B : instantiate a = SOk layers -> In l layers -> pred_names (li_cls l) <> [] ->
  sz (S T) B (li_out l) "predictions" = S T * B * nf (li_in l) "default".
Proof.
  intros HI Hl Hc. apply instantiate_made in HI. destruct HI as [cns [order [_ [_ [_ [_ M]]]]]]. assert (Ml := M l Hl).
  destruct (made_input_like _ _ _ _ Ml) as [c [ins [inc [outg [kw [Hm IL]]]]]]. apply make_layer_inv in Hm. destruct Hm as [HV [sp [HS El]]].
  assert (IL' : forall n b, In (n, b) (isort (fun a b : string * bstruct => String.leb (fst a) (fst b)) ins) -> input_like b) by (intros n b Hn; eapply IL; eapply isort_In; exact Hn).
  set (ins' := isort _ ins) in *. assert (Ec : li_cls l = c) by (rewrite El; reflexivity). assert (Ei : li_in l = ins') by (rewrite El; reflexivity). assert (Eo : li_out l = sp_out sp) by (rewrite El; reflexivity).
  rewrite Ei, Eo. rewrite Ec in Hc. clear El Ei Eo Ec Ml. destruct c; try (exfalso; apply Hc; reflexivity);
    match type of HV with validate_in_shapes ?c _ = _ => destruct (in_tb c ins' HV IL' "default") as [fs [_ Hd]]; [reflexivity|]; destruct (in_tb c ins' HV IL' "targets") as [gs [_ He]]; [reflexivity|] end;
    cbn [setup] in HS; unfold setup_squared_error, setup_sigmoid_ce, setup_softmax_ce, in_shape in HS; rewrite Hd, He in HS; cbn [sbind] in HS; rewrite !features_tb in HS;
    repeat (let E := fresh "E" in check HS E);
    step HS oq Eo; step HS iq Ei; injection HS as <-; inv_build Eo; sizes_simpl; reflexivity.
Qed.

Section Net.
  Variables (a : karch) (layers : list linst) (hubs : list hub) (lay : slices).
  Hypothesis HN : named a.
  Hypothesis HI : instantiate a = SOk layers.
  Hypothesis HL : create_layout (map layout_layer layers) = LOk (hubs, lay).
  Hypothesis HZ : nonnegative layers.
  Hypothesis HS : forall l, In l (tl layers) -> supported l = true.
  Hypothesis HD : differentiable layers = true.

  Section Passes.
  Variables (e : env) (T B : nat).
  Let cells := CellsProofs.cells layers hubs lay (S T) B.
  Let cells_of := NetMemoryModel.cells_of layers hubs lay T B.
  Let ml := mlayer_of layers hubs lay e T B.
  Let main := eval_main layers hubs lay e T B.
  Let ev := run_eval layers hubs lay e T B.
  Let pass := eval_pass layers hubs lay e T B.
  Let once := once a layers hubs lay HN HI HL HZ T B.
  Let known := known layers hubs lay T B.

  Lemma env_eval e' l m : eval_same e e' -> ev l m = run_eval layers hubs lay e' T B l m.
  Proof.
    intros [E1 [E2 E3]]. unfold ev, run_eval, eval_main. f_equal. unfold mlayer_of, kind_of. destruct (li_cls l); try reflexivity; rewrite ?E1, ?E2, ?E3; reflexivity.
  Qed.
  Lemma env_pass e' : eval_same e e' -> forall ls m, pass ls m = eval_pass layers hubs lay e' T B ls m.
  Proof. intros E. induction ls as [|l ls IH]; intros m; [reflexivity|]. unfold pass, eval_pass. cbn [fold_left]. rewrite <- (env_eval e' l m E). apply IH. Qed.

  Lemma main_keeps l m A : (forall x, In x (out_names (li_cls l) ++ loss_names (li_cls l)) -> ~ In A (cells l "outputs" x)) -> main l m A = m A.
  Proof.
    intros H. unfold main, eval_main. assert (F : forall L, L = ml l -> run_forward L m A = m A).
    { intros L ->. unfold run_forward. rewrite !write_out; [reflexivity| |]; unfold ml, mlayer_of; cbn [m_out m_loss]; intros K; apply cells_of_In in K; destruct K as [n [Hn K]]; apply (H n); auto; apply in_or_app; auto. }
    destruct (li_cls l) eqn:Ec; try (now apply F); cbv zeta; apply write_out; apply H; cbn; tauto.
  Qed.
  Lemma eval_keeps l m A : (forall x, ~ In A (cells l "outputs" x)) -> ev l m A = m A.
  Proof.
    intros H. unfold ev, run_eval. rewrite write_out by (intros K; apply cells_of_In in K; destruct K as [n [_ K]]; exact (H n K)). apply main_keeps. intros x _. apply H.
  Qed.
  Lemma pass_keeps A : forall ls m, (forall l x, In l ls -> ~ In A (cells l "outputs" x)) -> pass ls m A = m A.
  Proof.
    induction ls as [|l ls IH]; intros m H; [reflexivity|]. unfold pass, eval_pass. cbn [fold_left]. fold (pass ls (ev l m)). rewrite IH by (intros; apply H; now right). apply eval_keeps. intros x. apply H. now left.
  Qed.
  (** A layer depends on its inputs and parameters only. *)
  Lemma main_agree l m1 m2 A : (forall n A, In A (cells l "inputs" n) -> m1 A = m2 A) -> (forall n A, In A (cells l "parameters" n) -> m1 A = m2 A) ->
    m1 A = m2 A \/ (exists x, In x (out_names (li_cls l) ++ loss_names (li_cls l)) /\ In A (cells l "outputs" x)) -> main l m1 A = main l m2 A.
  Proof.
    intros H1 H2 K.
    assert (R1 : forall names, read (cells_of l "inputs" names) m1 = read (cells_of l "inputs" names) m2).
    { intros names. apply read_ext. intros A' HA'. apply cells_of_In in HA'. destruct HA' as [n [_ HA']]. exact (H1 n A' HA'). }
    assert (R2 : forall names, read (cells_of l "parameters" names) m1 = read (cells_of l "parameters" names) m2).
    { intros names. apply read_ext. intros A' HA'. apply cells_of_In in HA'. destruct HA' as [n [_ HA']]. exact (H2 n A' HA'). }
    assert (S1 : forall n, read (cells l "inputs" n) m1 = read (cells l "inputs" n) m2) by (intros n; apply read_ext; intros A' HA'; exact (H1 n A' HA')).
    assert (S2 : forall n, read (cells l "parameters" n) m1 = read (cells l "parameters" n) m2) by (intros n; apply read_ext; intros A' HA'; exact (H2 n A' HA')).
    assert (F : run_forward (ml l) m1 A = run_forward (ml l) m2 A).
    { unfold run_forward, ml, mlayer_of. cbn [m_kind m_in m_out m_par m_loss]. fold cells_of. rewrite !R1, !R2.
      assert (K' : m1 A = m2 A \/ In A (cells_of l "outputs" (out_names (li_cls l))) \/ In A (cells_of l "outputs" (loss_names (li_cls l)))).
      { destruct K as [K|[x [Hx K]]]; [now left|right]. apply in_app_or in Hx. destruct Hx as [Hx|Hx]; [left|right]; apply in_flat_map; exists x; auto. }
      destruct K' as [K'|[K'|K']]; apply write_agree; [left|left|now right]; apply write_agree; [now left|now right]. }
    unfold main, eval_main. fold cells. destruct (li_cls l) eqn:Ec; try exact F; cbv zeta; rewrite ?S1, ?S2; apply write_agree; (destruct K as [K|[x [Hx K]]]; [now left|right]);
      cbn [out_names loss_names app In] in Hx; destruct Hx as [<-|[]]; exact K.
  Qed.
  Lemma predicted_agree l m1 m2 : (forall n A, In A (cells l "inputs" n) -> m1 A = m2 A) -> predicted layers hubs lay T B l m1 = predicted layers hubs lay T B l m2.
  Proof.
    intros H1. assert (S1 : forall n, read (cells l "inputs" n) m1 = read (cells l "inputs" n) m2) by (intros n; apply read_ext; intros A' HA'; exact (H1 n A' HA')).
    unfold predicted. fold cells. now rewrite !S1.
  Qed.
  Lemma pred_cell l A : In l layers -> In A (cells_of l "outputs" (pred_names (li_cls l))) -> forall x, In x (out_names (li_cls l) ++ loss_names (li_cls l)) -> ~ In A (cells l "outputs" x).
  Proof.
    intros Hl H x Hx K. apply cells_of_In in H. destruct H as [n [Hn H]]. destruct (once l "outputs" n l "outputs" x A Hl Hl own_o own_o H K) as [_ [_ E]]. subst x. exact (pred_apart _ _ Hn Hx).
  Qed.
  Lemma eval_agree l m1 m2 A : (forall n A, In A (cells l "inputs" n) -> m1 A = m2 A) -> (forall n A, In A (cells l "parameters" n) -> m1 A = m2 A) ->
    m1 A = m2 A \/ (exists x, In x (out_names (li_cls l) ++ loss_names (li_cls l) ++ pred_names (li_cls l)) /\ In A (cells l "outputs" x)) -> ev l m1 A = ev l m2 A.
  Proof.
    intros H1 H2 K. unfold ev, run_eval. rewrite (predicted_agree l m1 m2 H1). apply write_agree. destruct (in_dec Nat.eq_dec A (cells_of l "outputs" (pred_names (li_cls l)))) as [I|I]; [now right|left].
    apply main_agree; [exact H1|exact H2|]. destruct K as [K|[x [Hx K]]]; [now left|]. rewrite app_assoc in Hx. apply in_app_or in Hx. destruct Hx as [Hx|Hx]; [right; now exists x|].
    exfalso. apply I. apply in_flat_map. now exists x.
  Qed.

  (** ** The evaluation pass depends on the parameters and the data only. *)
  Lemma eval_known : forall post pre m1 m2, layers = pre ++ post -> pre <> [] -> (forall A, known pre A -> m1 A = m2 A) ->
    forall A, known layers A -> pass post m1 A = pass post m2 A.
  Proof.
    induction post as [|l post IH]; intros pre m1 m2 E Np H A HA; [rewrite app_nil_r in E; rewrite E in HA; now apply H|]. unfold pass, eval_pass. cbn [fold_left].
    fold (pass post (ev l m1)) (pass post (ev l m2)). apply (IH (pre ++ [l])); [now rewrite <- app_assoc|destruct pre; discriminate| |exact HA].
    clear A HA. intros A HA. assert (Hl : In l layers) by (rewrite E; apply in_or_app; right; now left). apply eval_agree.
    - intros n A' HA'. apply H. exact (reads_known a layers hubs lay HN HI HL HZ HS HD e T B pre l post n A' E Np HA').
    - intros n A' HA'. apply H. left. now exists l, n.
    - destruct HA as [HA|[HA|[l1 [x [Hl1 [Hx HA]]]]]]; [left; apply H; now left|left; apply H; right; now left|].
      destruct pre as [|l0 pre']; [congruence|]. cbn [app tl] in Hl1. apply in_app_or in Hl1. destruct Hl1 as [Hl1|[<-|[]]]; [left; apply H; right; right; exists l1, x; auto|].
      right. exists x. split; [|exact HA]. rewrite app_assoc. apply in_or_app. now left.
  Qed.
  Lemma eval_of_data m1 m2 : (forall A, known [] A -> m1 A = m2 A) -> forall A, known layers A -> pass (tl layers) m1 A = pass (tl layers) m2 A.
  Proof.
    intros H A HA. assert (X : layers = [] \/ exists l0 r, layers = l0 :: r) by (clear; destruct layers as [|l0 r]; [now left|right; now exists l0, r]). destruct X as [E|[l0 [r E]]].
    - exfalso. destruct HA as [[l [x [K _]]]|[[l0' [r' [x [K _]]]]|[l [x [K _]]]]]; rewrite E in K; [destruct K|discriminate K|destruct K].
    - replace (tl layers) with r by now rewrite E. apply (eval_known r [l0] m1 m2); [exact E|discriminate| |exact HA]. intros A' [K|[K|[l [x [[] _]]]]]; apply H; [now left|right; now left].
  Qed.

  (** ** After the pass every layer's outputs are what the layer computes from its inputs and parameters. *)
  Lemma pass_app ls1 ls2 m : pass (ls1 ++ ls2) m = pass ls2 (pass ls1 m).
  Proof. apply fold_left_app. Qed.
  Lemma pass_fixed m l : In l (tl layers) -> let after := pass (tl layers) m in
    exists m1, (forall n A, In A (cells l "inputs" n) -> m1 A = after A) /\ (forall n A, In A (cells l "parameters" n) -> m1 A = after A) /\
      forall x A, In A (cells l "outputs" x) -> after A = ev l m1 A.
  Proof.
    intros Hl after. destruct (tl_split a layers hubs lay HI HL HZ HS HD e T B l Hl) as [pre [post [E Np]]]. assert (Hl' := In_tl l layers Hl).
    assert (ND := layers_NoDup a layers HN HI). assert (Et : tl layers = tl pre ++ l :: post) by (rewrite E; destruct pre; [congruence|reflexivity]).
    exists (pass (tl pre) m). assert (Ea : after = pass post (ev l (pass (tl pre) m))) by (unfold after; rewrite Et, pass_app; reflexivity). rewrite Ea.
    assert (Hp : forall l1, In l1 post -> In l1 layers) by (intros l1 H; rewrite E; apply in_or_app; right; now right).
    assert (Npost : ~ In l post) by (rewrite E in ND; apply NoDup_remove_2 in ND; intros K; apply ND; apply in_or_app; now right).
    split; [|split].
    - intros n A HA. destruct (input_from a layers hubs lay HN HI HL HZ HS HD e T B pre l post n A E Np HA) as [l' [c [H1 [_ [H2 [_ H3]]]]]].
      assert (Hl1 : In l' layers) by (rewrite E; apply in_or_app; now left).
      assert (Nl : forall l1 x, In l1 (l :: post) -> ~ In A (cells l1 "outputs" x)).
      { intros l1 x H K. assert (H' : In l1 layers) by (rewrite E; apply in_or_app; now right). destruct (once l1 "outputs" x l' "outputs" (c_out c) A H' Hl1 own_o own_o K H3) as [E1 _]. subst l1.
        rewrite E in ND. clear - ND H H1. apply in_split in H1. destruct H1 as [u [w ->]]. rewrite <- app_assoc in ND. cbn in ND. apply NoDup_remove_2 in ND. apply ND. apply in_or_app. right. apply in_or_app. now right. }
      rewrite (pass_keeps A post) by (intros l1 x H; apply Nl; now right). rewrite eval_keeps by (intros x; apply Nl; now left). reflexivity.
    - intros n A HA. assert (Nl : forall l1 x, In l1 layers -> ~ In A (cells l1 "outputs" x)).
      { intros l1 x H K. destruct (once l1 "outputs" x l "parameters" n A H Hl' own_o own_p K HA) as [_ [E1 _]]. discriminate E1. }
      rewrite (pass_keeps A post) by (intros l1 x H; apply Nl; now apply Hp). rewrite eval_keeps by (intros x; now apply Nl). reflexivity.
    - intros x A HA. apply pass_keeps. intros l1 y H K. destruct (once l1 "outputs" y l "outputs" x A (Hp l1 H) Hl' own_o own_o K HA) as [E1 _]. subst l1. contradiction.
  Qed.
  Lemma eval_values m l : In l (tl layers) -> let after := pass (tl layers) m in
    forall x A, In x (out_names (li_cls l) ++ loss_names (li_cls l) ++ pred_names (li_cls l)) -> In A (cells l "outputs" x) -> after A = ev l after A.
  Proof.
    intros Hl after x A Hx HA. destruct (pass_fixed m l Hl) as [m1 [H1 [H2 H3]]]. fold after in H1, H2, H3. rewrite (H3 x A HA). apply eval_agree; [exact H1|exact H2|]. right. now exists x.
  Qed.
  End Passes.
End Net.
