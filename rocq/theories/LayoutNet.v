(** Lemmas for C72: the layers of an architecture meet the hypotheses on layer lists. *)
From Coq Require Import String Ascii List ZArith QArith Bool Lia Permutation.
From Verif Require Import HubModel HubProofs LayoutModel LayoutProofs LayoutProps.
From Verif Require Import PyBase PyFacts UtilsModel UtilsProofs NamesModel ArchModel ArchProofs ShapesModel ShapesProofs SetupModel PassShapesModel SetupProofs PassShapesProofs SetupProps InstanceProofs InstanceProps NetLayoutExtra NetLayoutProofs NetLayoutProps NetSizesProofs LayoutExist.
From Verif Require Import BuffersProofs.
Import ListNotations.
Open Scope string_scope.
Open Scope list_scope.
Open Scope nat_scope.

Definition all_fwd (d : list (string * bstruct)) : Prop := forall n b, In (n, b) d -> bs_bwd b = false.
Lemma fwd_nil : all_fwd []. Proof. intros n b []. Qed.
Lemma fwd_cons n b d : bs_bwd b = false -> all_fwd d -> all_fwd ((n, b) :: d).
Proof. intros H1 H2 m b' [H|H]; [injection H as <- <-; exact H1|exact (H2 m b' H)]. Qed.
Lemma fwd_build l d : build l = SOk d -> (forall n b, In (n, SOk b) l -> bs_bwd b = false) -> all_fwd d.
Proof.
  revert d. induction l as [|[n r] l IH]; intros d H F; cbn [build] in H; [injection H as <-; apply fwd_nil|].
  destruct r as [b|]; [|discriminate]. cbn [sbind] in H. destruct (build l) as [d'|]; [|discriminate]. cbn [sbind] in H. injection H as <-.
  apply fwd_cons; [apply (F n b); now left|]. apply (IH d' eq_refl). intros m b' Hb. apply (F m b'). now right.
Qed.
Lemma new_fwd sh ctx b : new_structure sh ctx false = SOk b -> bs_bwd b = false.
Proof. intros H. apply new_structure_ok in H. now destruct H as [-> _]. Qed.

Ltac fwd_one HB :=
  match goal with
  | H : new_structure _ _ false = SOk ?b |- bs_bwd ?b = false => exact (new_fwd _ _ _ H)
  | H : timed _ _ false = SOk ?b |- bs_bwd ?b = false => exact (new_fwd _ _ _ H)
  | H : plain _ = SOk ?b |- bs_bwd ?b = false => exact (new_fwd _ _ _ H)
  | H : SOk ?a = SOk ?b |- bs_bwd ?b = false => injection H as <-; fwd_one HB
  | H : in_shape _ _ = SOk ?b |- bs_bwd ?b = false => unfold in_shape in H; fwd_one HB
  | H : (match dget ?n ?ins with _ => _ end) = SOk ?b |- bs_bwd ?b = false => let E := fresh "E" in destruct (dget n ins) as [?|] eqn:E; [injection H as <-; exact (HB _ _ E)|discriminate H]
  | H : dget _ _ = Some ?b |- bs_bwd ?b = false => exact (HB _ _ H)
  end.
Ltac fwds HB :=
  match goal with
  | |- all_fwd [] => apply fwd_nil
  | H : all_fwd ?d |- all_fwd ?d => exact H
  | |- all_fwd (_ :: _) => apply fwd_cons; [fwd_one HB|fwds HB]
  | H : build _ = SOk ?x |- all_fwd ?x =>
      let n := fresh "n" in let b := fresh "b" in let Hb := fresh "Hb" in
      apply (fwd_build _ _ H); intros n b Hb; cbn [In app map same_for] in Hb;
      repeat match type of Hb with _ \/ _ => destruct Hb as [Hb|Hb] end; try contradiction;
      apply (f_equal snd) in Hb; cbn [snd] in Hb; fwd_one HB
  end.
Ltac both HB HS :=
  inv_setup HS; injection HS as <-;
  repeat match goal with H : build (if ?b then _ else _) = _ |- _ => destruct b end;
  cbn [sp_params sp_out]; (split; fwds HB).

Lemma setup_fwd c name kw ins sp : all_fwd ins -> setup c name kw ins = SOk sp ->
  all_fwd (sp_out sp) /\ all_fwd (sp_params sp).
Proof.
  intros HI HS. assert (HB : forall n b, dget n ins = Some b -> bs_bwd b = false) by (intros n b Hb; exact (HI n b (dget_In _ _ _ Hb))).
  destruct c; cbn [setup] in HS.
  - unfold setup_batch_norm in HS. both HB HS.
  - unfold setup_binomial in HS. both HB HS.
  - unfold setup_recurrent in HS. both HB HS.
  - unfold setup_lstm in HS. both HB HS.
  - unfold setup_conv in HS. both HB HS.
  - unfold setup_deltas_scaling in HS. both HB HS.
  - unfold setup_dropout in HS. both HB HS.
  - unfold setup_elementwise in HS. both HB HS.
  - unfold setup_fully_connected in HS. both HB HS.
  - unfold setup_highway in HS. both HB HS.
  - split; [exact (input_bwd kw ins sp HS)|]. unfold setup_input in HS. inv_setup HS. injection HS as <-. apply fwd_nil.
  - unfold setup_l1_decay in HS. both HB HS.
  - unfold setup_l2_decay in HS. both HB HS.
  - unfold setup_loss in HS. both HB HS.
  - unfold setup_lstm in HS. both HB HS.
  - unfold setup_mask in HS. both HB HS.
  - unfold setup_merge in HS. both HB HS.
  - unfold setup_noop in HS. both HB HS.
  - unfold setup_pool in HS. both HB HS.
  - unfold setup_recurrent in HS. both HB HS.
  - unfold setup_sigmoid_ce in HS. both HB HS.
  - unfold setup_softmax_ce in HS. both HB HS.
  - unfold setup_squared_difference in HS. both HB HS.
  - unfold setup_squared_error in HS. both HB HS.
Qed.
Lemma made_fwd a cns layers l : made_from a cns layers l -> all_fwd (li_out l) /\ all_fwd (li_params l).
Proof.
  intros H. destruct (made_input_like _ _ _ _ H) as [c [ins [inc [outg [kw [Hm IL]]]]]]. apply make_layer_inv in Hm. destruct Hm as [HV [sp [HS El]]].
  rewrite El. cbn [li_out li_params]. refine (setup_fwd c (li_name l) kw _ sp _ HS).
  intros n b Hb. apply isort_In, IL in Hb. apply Hb.
Qed.

(** ** The outputs of a network side by side *)
(** Every connection starts at an output (not at '..internals.X' or '..parameters.X'). *)
Definition starts_at_outputs (layers : list linst) : Prop :=
  forall l c, In l layers -> In c (li_outgoing l) -> In (c_out c) (map fst (li_out l)).
Definition net_outputs (layers : list linst) : list (string * string) :=
  flat_map (fun l => map (fun e => (li_name l, fst e)) (li_out l)) layers.
(** The outputs connected to the input n of the layer l. *)
Definition input_from (l : linst) (n : string) : list (string * string) := map (fun c => (NamesModel.c_start c, c_out c)) (conns l n).
(** All outputs in an order in which the outputs connected to one input are neighbours. *)
Definition side_by_side (layers : list linst) (order : list (string * string)) : Prop :=
  Permutation order (net_outputs layers) /\
  forall l n, In l layers -> In n (map fst (li_in l)) -> exists before block after, order = before ++ block ++ after /\ Permutation block (input_from l n).

Lemma Forall2_In_l {A B} (P : A -> B -> Prop) l m x : Forall2 P l m -> In x l -> exists y, In y m /\ P x y.
Proof.
  induction 1 as [|x' y l m H1 H IH]; [intros []|]. intros [<-|Hx].
  - exists y. split; [now left|exact H1].
  - destruct (IH Hx) as [y' [I1 I2]]. exists y'. split; [now right|exact I2].
Qed.
Lemma NoDup_app_disjoint {A} (l m : list A) : NoDup (l ++ m) -> forall x, In x l -> ~ In x m.
Proof.
  induction l as [|y l IH]; cbn [app]; intros ND x Hx Hm; [destruct Hx|]. inversion_clear ND as [|? ? N1 N2]. destruct Hx as [->|Hx]; [apply N1, in_or_app; now right|now apply (IH N2 x)].
Qed.

Section NetExist.
  Variables (a : karch) (layers : list linst).
  Hypothesis HN : named a.
  Hypothesis HI : instantiate a = SOk layers.
  Hypothesis HO : starts_at_outputs layers.
  Let ls := map layout_layer layers.
  Lemma ne_sound l : In l layers -> sound_layer l.
  Proof. apply (proj2 (proj2 (instantiate_names _ _ HN HI))). Qed.
  Lemma ne_unique l l' : In l layers -> In l' layers -> li_name l = li_name l' -> l = l'.
  Proof.
    assert (N1 := proj1 (instantiate_names _ _ HN HI)). clear - N1. intros Hl Hl' E. induction layers as [|x r IH]; [destruct Hl|].
    cbn [map] in N1. inversion_clear N1 as [|? ? X Y].
    destruct Hl as [->|Hl], Hl' as [->|Hl']; auto; exfalso; apply X.
    - rewrite E. now apply in_map.
    - rewrite <- E. now apply in_map.
  Qed.
  Lemma ne_component l c : In l layers -> In c (li_outgoing l) -> component (c_out c).
  Proof. intros Hl Hc. destruct (sl_out _ (ne_sound l Hl)) as [_ F]. rewrite Forall_forall in F. apply F. now apply HO. Qed.
  Lemma ne_from : from_outputs ls.
  Proof.
    intros l c Hl Hc. apply in_map_iff in Hl. destruct Hl as [l0 [<- Hl]]. cbn [layout_layer LayoutModel.l_outgoing] in Hc. apply in_map_iff in Hc. destruct Hc as [c0 [<- Hc]].
    cbn [layout_conn c_output]. now apply (ne_component l0).
  Qed.
  Lemma ne_indep : independent layers.
  Proof. intros l c c' x Hl Hc Hc' E _. assert (C := ne_component l c Hl Hc). rewrite E in C. now apply (component_no_dot _ ("." ++ "internals." ++ x) C). Qed.
  Lemma ne_wf : wf_layers ls. Proof. exact (layers_wf a layers HN HI ne_indep). Qed.
  Lemma ne_conn l c : In l layers -> In c (li_outgoing l) ->
    exists l', In l' layers /\ li_name l' = NamesModel.c_end c /\ In c (li_incoming l') /\ In (c_in c) (map fst (li_in l')) /\ NamesModel.c_start c = li_name l.
  Proof.
    intros Hl Hc. destruct (net_cns a layers HI) as [cns HC]. destruct (C62_connections _ _ _ HN HI HC) as [K1 K2]. apply (K1 _ _ Hl) in Hc. destruct Hc as [Hc E].
    destruct (K2 _ Hc) as [pre [le [post [l1 [E1 [E2 [E3 [E4 [E5 _]]]]]]]]]. assert (Hle : In le layers) by (rewrite E1; apply in_or_app; right; now left).
    exists le. repeat split; try assumption. apply (K1 _ _ Hle). split; [assumption|]. now rewrite E3.
  Qed.
  Lemma ne_conn_in l c : In l layers -> In c (li_incoming l) ->
    exists l', In l' layers /\ li_name l' = NamesModel.c_start c /\ In c (li_outgoing l') /\ NamesModel.c_end c = li_name l /\ In (c_in c) (map fst (li_in l)).
  Proof.
    intros Hl Hc. destruct (net_cns a layers HI) as [cns HC]. destruct (C62_connections _ _ _ HN HI HC) as [K1 K2]. apply (K1 _ _ Hl) in Hc. destruct Hc as [Hc E].
    destruct (K2 _ Hc) as [pre [le [post [l1 [E1 [E2 [E3 [E4 [E5 _]]]]]]]]]. assert (Hle : In le layers) by (rewrite E1; apply in_or_app; right; now left).
    assert (H1 : In l1 layers) by (rewrite E1; apply in_or_app; now left). assert (le = l) by (apply ne_unique; congruence). subst le.
    exists l1. repeat split; try assumption. apply (K1 _ _ H1). auto.
  Qed.
  Lemma ne_outputs : outputs ls = net_outputs layers.
  Proof.
    unfold outputs, net_outputs, ls. rewrite !flat_map_concat_map, map_map. f_equal. apply map_ext. intros l. cbn [layout_layer LayoutModel.l_name LayoutModel.l_out]. unfold layout_dict. rewrite map_map. reflexivity.
  Qed.
  Lemma ne_feeds s t : feeds ls s t <-> exists l, In l layers /\ fst t = li_name l /\ In (snd t) (map fst (li_in l)) /\ In s (input_from l (snd t)).
  Proof.
    split.
    - intros [l [c [Hl [Hc [-> ->]]]]]. apply in_map_iff in Hl. destruct Hl as [l0 [<- Hl]]. cbn [layout_layer LayoutModel.l_outgoing] in Hc. apply in_map_iff in Hc. destruct Hc as [c0 [<- Hc]].
      destruct (ne_conn l0 c0 Hl Hc) as [l' [H1 [H2 [H3 [H4 H5]]]]]. exists l'. cbn [layout_conn LayoutModel.c_start LayoutModel.c_output LayoutModel.c_end LayoutModel.c_input fst snd]. repeat split; try assumption; [now rewrite H2|].
      apply (in_map (fun c => (NamesModel.c_start c, c_out c))). apply filter_In. split; [assumption|apply String.eqb_refl].
    - intros [l [Hl [E1 [E2 E3]]]]. apply in_map_iff in E3. destruct E3 as [c [<- Hc]]. apply filter_In in Hc. destruct Hc as [Hc En]. apply String.eqb_eq in En.
      destruct (ne_conn_in l c Hl Hc) as [l' [H1 [H2 [H3 [H4 H5]]]]]. exists (layout_layer l'), (layout_conn c). split; [now apply in_map|]. split; [cbn [layout_layer LayoutModel.l_outgoing]; now apply in_map|].
      split; [reflexivity|]. cbn [layout_conn LayoutModel.c_end LayoutModel.c_input]. destruct t as [t1 t2]. cbn [fst snd] in *. congruence.
  Qed.
  Lemma ne_source l n c : In l layers -> In c (conns l n) -> In (NamesModel.c_start c, c_out c) (net_outputs layers).
  Proof.
    intros Hl Hc. apply filter_In in Hc. destruct Hc as [Hc _]. destruct (ne_conn_in l c Hl Hc) as [l' [H1 [H2 [H3 _]]]]. assert (X := HO l' c H1 H3). rewrite <- H2.
    apply in_flat_map. exists l'. split; [assumption|]. apply in_map_iff in X. destruct X as [e [<- He]]. exact (in_map (fun e => (li_name l', fst e)) _ _ He).
  Qed.
  Lemma ne_from_NoDup l n : In l layers -> NoDup (input_from l n).
  Proof.
    intros Hl. assert (ND : NoDup (conns l n)) by (apply NoDup_filter, (incoming_NoDup a layers HI l Hl)).
    assert (X : forall c, In c (conns l n) -> NamesModel.c_end c = li_name l /\ c_in c = n).
    { intros c Hc. apply filter_In in Hc. destruct Hc as [Hc En]. apply String.eqb_eq in En. destruct (ne_conn_in l c Hl Hc) as [l' [_ [_ [_ [E _]]]]]. auto. }
    unfold input_from. revert ND X. generalize (conns l n). clear. induction l0 as [|c r IH]; intros ND X; [constructor|]. cbn [map]. inversion_clear ND as [|? ? N1 N2]. constructor.
    - intros Hin. apply in_map_iff in Hin. destruct Hin as [c' [E Hc']]. apply N1. destruct (X c (or_introl eq_refl)) as [X1 X2]. destruct (X c' (or_intror Hc')) as [X3 X4].
      replace c with c'; [assumption|]. destruct c, c'. cbn in *. congruence.
    - apply IH; [assumption|]. intros c' Hc'. apply X. now right.
  Qed.
  Lemma ne_arrangement order : arrangement ls order <-> side_by_side layers order.
  Proof.
    assert (NO : NoDup (net_outputs layers)) by (rewrite <- ne_outputs; exact (outputs_NoDup ls ne_wf)).
    unfold arrangement, side_by_side. rewrite ne_outputs. split; intros [P H]; split; try assumption; assert (ND : NoDup order) by (eapply Permutation_NoDup; [apply Permutation_sym; exact P|exact NO]).
    - intros l n Hl Hn. destruct (H (li_name l, n)) as [before [block [after [E [F1 F2]]]]]. exists before, block, after. split; [assumption|]. rewrite E in ND.
      rewrite Forall_forall in F1. rewrite Forall_forall in F2.
      apply NoDup_Permutation; [|now apply ne_from_NoDup|].
      + clear - ND. apply NoDup_app_r in ND. now apply NoDup_app_l in ND.
      + intros s. split.
        * intros Hs. apply F1, ne_feeds in Hs. destruct Hs as [l' [H1 [H2 [H3 H4]]]]. cbn [fst snd] in *. now rewrite <- (ne_unique _ _ Hl H1 H2) in H4.
        * intros Hs. assert (FD : feeds ls s (li_name l, n)) by (apply ne_feeds; exists l; cbn; auto).
          assert (Io : In s order). { eapply Permutation_in; [apply Permutation_sym; exact P|]. apply in_map_iff in Hs. destruct Hs as [c [<- Hc]]. now apply (ne_source l n). }
          rewrite E in Io. apply in_app_or in Io. destruct Io as [Io|Io]; [exfalso; apply (F2 s); [apply in_or_app; now left|assumption]|]. apply in_app_or in Io. destruct Io as [Io|Io]; [assumption|].
          exfalso; apply (F2 s); [apply in_or_app; now right|assumption].
    - intros t. assert (D : (exists l, In l layers /\ fst t = li_name l /\ In (snd t) (map fst (li_in l))) \/ ~ exists l, In l layers /\ fst t = li_name l /\ In (snd t) (map fst (li_in l))).
      { destruct (Exists_dec (fun l => fst t = li_name l /\ In (snd t) (map fst (li_in l))) layers) as [X|X].
        - intros l. destruct (string_dec (fst t) (li_name l)); [|right; tauto]. destruct (in_dec string_dec (snd t) (map fst (li_in l))); [left; auto|right; tauto].
        - left. apply Exists_exists in X. destruct X as [l X]. now exists l.
        - right. intros [l [X1 X2]]. apply X. apply Exists_exists. now exists l. }
      destruct D as [[l [Hl [E1 E2]]]|D].
      + destruct (H l (snd t) Hl E2) as [before [block [after [E Pb]]]]. exists before, block, after. split; [assumption|]. rewrite E in ND. split; apply Forall_forall; intros s Hs.
        * apply ne_feeds. exists l. repeat split; try assumption. eapply Permutation_in; [exact Pb|exact Hs].
        * intros FD. apply ne_feeds in FD. destruct FD as [l' [H1 [H2 [H3 H4]]]]. assert (l' = l) by (apply ne_unique; congruence). subst l'.
          apply (Permutation_in s (Permutation_sym Pb)) in H4. apply (Permutation_NoDup (Permutation_app_comm _ _)) in ND. rewrite <- app_assoc in ND.
          apply (NoDup_app_disjoint _ _ ND s H4). apply in_or_app. apply in_app_or in Hs. tauto.
      + exists [], [], order. split; [reflexivity|]. split; [constructor|]. apply Forall_forall. intros s _ FD. apply D. apply ne_feeds in FD. destruct FD as [l [H1 [H2 [H3 _]]]]. now exists l.
  Qed.

  Lemma ne_uniform : uniform ls.
  Proof.
    destruct (instantiate_made _ _ HI) as [cns [order [_ [_ [_ [_ M]]]]]]. constructor.
    - intros l x st Hl Hx. apply in_map_iff in Hl. destruct Hl as [l0 [<- Hl]]. cbn [layout_layer LayoutModel.l_params] in Hx. apply layout_dict_In in Hx. destruct Hx as [b [Hb ->]].
      split; [|cbn [layout_struct ls_bwd]; exact (proj2 (made_fwd _ _ _ _ (M l0 Hl)) x b Hb)]. cbn [layout_struct ls_btype].
      destruct (proj1 (made_extra _ _ _ _ (M l0 Hl)) x b Hb) as [dims E]. assert (V : valid b) by exact (proj1 (proj2 (proj2 (made_valid _ _ _ _ (M l0 Hl)))) x b Hb).
      destruct (valid_parts b V) as [k [f [E2 [_ [B _]]]]]. rewrite B. rewrite E in E2. destruct k; [reflexivity|exfalso|exfalso]; destruct dims; discriminate E2.
    - intros l x st Hl Hx. apply in_map_iff in Hl. destruct Hl as [l0 [<- Hl]]. cbn [layout_layer LayoutModel.l_out] in Hx. apply layout_dict_In in Hx. destruct Hx as [b [Hb ->]].
      cbn [layout_struct ls_bwd]. exact (proj1 (made_fwd _ _ _ _ (M l0 Hl)) x b Hb).
    - intros l l' x x' st st' t Hl Hl' Hx Hx' F F'. apply in_map_iff in Hl. destruct Hl as [l0 [<- Hl]]. apply in_map_iff in Hl'. destruct Hl' as [l0' [<- Hl']].
      cbn [layout_layer LayoutModel.l_out LayoutModel.l_name] in *. apply layout_dict_In in Hx. destruct Hx as [b [Hb ->]]. apply layout_dict_In in Hx'. destruct Hx' as [b' [Hb' ->]].
      apply ne_feeds in F. destruct F as [m [Hm [E1 [E2 E3]]]]. apply ne_feeds in F'. destruct F' as [m' [Hm' [E1' [_ E3']]]]. assert (m' = m) by (apply ne_unique; congruence). subst m'.
      apply in_map_iff in E2. destruct E2 as [[n0 bi] [En Hbi]]. cbn [fst] in En. subst n0.
      destruct (C62_inputs _ _ _ _ _ HN HI Hm Hbi) as [sources [k [fixed [lasts [FS [_ [C _]]]]]]].
      assert (K : forall l x b, In l layers -> In (x, b) (li_out l) -> In (li_name l, x) (input_from m (snd t)) -> buffer_type (bs_shape b) = match k with Fixed => 0 | Batch => 1 | Time => 2 end).
      { clear - HN HI HO FS C M. intros l x b Hl Hb Hin. apply in_map_iff in Hin. destruct Hin as [c [Ec Hc]]. injection Ec as Ec1 Ec2.
        change (conns m (snd t)) with (filter (fun c => String.eqb (c_in c) (snd t)) (li_incoming m)) in Hc. destruct (Forall2_In_l _ _ _ _ FS Hc) as [s [Hs [l' [Hl' [En O]]]]].
        assert (l' = l) by (apply ne_unique; congruence). subst l'. assert (S := ne_sound l Hl).
        assert (Cx : component x). { destruct (sl_out _ S) as [_ F]. rewrite Forall_forall in F. apply F. now apply (in_map fst) in Hb. }
        assert (s = b). { rewrite Ec2 in O. inversion O as [y s0 Hy|y s0 Hy Ey|y s0 Hy Ey]; subst.
          - assert (ND := proj1 (sl_out _ S)). apply (In_dget _ _ _ ND) in Hy. apply (In_dget _ _ _ ND) in Hb. congruence.
          - exfalso. rewrite <- Ey in Cx. now apply (component_no_dot _ ("." ++ "internals." ++ y) Cx).
          - exfalso. rewrite <- Ey in Cx. now apply (component_no_dot _ ("." ++ "parameters." ++ y) Cx). }
        subst s. unfold compatible in C. apply (in_map bs_shape) in Hs. rewrite C in Hs. apply in_map_iff in Hs. destruct Hs as [z [Ez _]].
        assert (V : valid b) by exact (proj1 (proj2 (made_valid _ _ _ _ (M l Hl))) x b Hb).
        destruct (valid_parts b V) as [k' [f' [E'' [_ [B' [_ _]]]]]]. rewrite B'. rewrite <- Ez in E''. clear -E''. destruct k, k'; try reflexivity; exfalso; cbn [prefix app] in E''; destruct fixed; destruct f'; discriminate E''. }
      cbn [layout_struct ls_btype]. rewrite (K l0 x b), (K l0' x' b'); auto.
  Qed.
End NetExist.
