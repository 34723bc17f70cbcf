(** The values of a network for one sequence: the inputs of a layer at a time step are the outputs of other
    layers for the same sequence at the same step. *)
From Coq Require Import String Ascii List ZArith QArith Reals Bool Lia Lra Arith FunctionalExtensionality.
From Verif Require Import HubModel HubProofs LayoutModel LayoutProofs LayoutProps BuffersModel BuffersProofs BuffersProps UtilsProofs ArchProofs NetLayoutExtra.
From Verif Require Import PyBase PyFacts UtilsModel NamesModel ArchModel ShapesModel ShapesProofs SetupModel PassShapesModel SetupProofs PassShapesProofs PassShapesLayers SetupProps InstanceProofs InstanceProps NetLayoutProofs NetLayoutProps CellsProofs.
From Verif Require Import NumBase NumpyModel NetworkModel NetLayersModel ConvModel NetMemoryModel NetSizesProofs NetPartsProofs.
Import ListNotations.
Open Scope string_scope.
Open Scope list_scope.
Open Scope nat_scope.

(** A buffer with time and batch dimension *)
Definition over_time (b : bstruct) : Prop := exists f, bs_shape b = DT :: DB :: map DInt f.
Lemma over_time_tb fs c w : over_time (tb fs c w).
Proof. now exists fs. Qed.

Section Extra.
  Variable name : string.
  Variable kw : kwargs.
  Variable ins : list (string * bstruct).
  Variables inc outg : list connection.
  Hypothesis HI : forall n b, In (n, b) ins -> input_like b.
  Let mk := mk name ins inc outg.

  Definition extra (l : linst) : Prop :=
    let x := nf (li_in l) "default" in
    match li_cls l with
    | CSquaredError | CSigmoidCE => nf (li_in l) "targets" = x /\ nf (li_out l) "predictions" = x
    | CBinomialCE => nf (li_in l) "targets" = x
    | CSoftmaxCE => nf (li_in l) "targets" = 1 /\ nf (li_out l) "predictions" = x
    | CMask => nf (li_in l) "mask" = 1 \/ nf (li_in l) "mask" = x
    | CMerge => forall b b1 b2, dget "default" (li_out l) = Some b -> over_time b -> dget "inputs_1" (li_in l) = Some b1 -> dget "inputs_2" (li_in l) = Some b2 -> over_time b1 /\ over_time b2
    | _ => True
    end.
  Ltac start := unfold extra, mk, PassShapesLayers.mk; cbv zeta; lists.

  Lemma extra_ok c sp : validate_in_shapes c ins = true -> setup c name kw ins = SOk sp -> supported (mk c sp) = true -> extra (mk c sp).
  Proof.
    intros HV HS SU. destruct c; try exact I.
    - (* BinomialCE *)
      destruct (in_tb CBinomialCE ins HV HI "default") as [fs [_ Hd]]; [reflexivity|]. destruct (in_tb CBinomialCE ins HV HI "targets") as [gs [_ He]]; [reflexivity|].
      cbn [setup] in HS. unfold setup_binomial, in_shape in HS. rewrite Hd, He in HS. cbn [sbind] in HS. check HS Eq1. apply bs_eqb_tb in Eq1. subst gs. start. unfold nf. now rewrite Hd, He.
    - (* Mask *)
      destruct (in_tb CMask ins HV HI "default") as [fs [_ Hd]]; [reflexivity|]. destruct (in_tb CMask ins HV HI "mask") as [gs [_ He]]; [reflexivity|].
      cbn [setup] in HS. unfold setup_mask, in_shape in HS. rewrite Hd, He in HS. cbn [sbind] in HS. cbv zeta in HS. rewrite !features_tb in HS.
      unfold supported, mk, PassShapesLayers.mk in SU. start. unfold nf. rewrite Hd, He. rewrite !nfeat_tb.
      destruct (zs_eqb gs [1%Z]) eqn:E; [apply zs_eqb_eq in E; subst gs; now left|].
      destruct (zs_eqb gs (removelast fs ++ [1%Z])) eqn:Eq2; [|destruct (zs_eqb gs fs) eqn:Eq3; [apply zs_eqb_eq in Eq3; subst gs; now right|discriminate HS]].
      cbn [orb] in HS. injection HS as <-. apply zs_eqb_eq in Eq2. cbn [sp_cfg cf_flatten] in SU. apply Nat.eqb_eq in SU. destruct fs as [|z [|]]; cbn in SU; try lia. cbn in Eq2. subst gs. now left.
    - (* Merge *)
      destruct (in_exists CMerge ins HV "inputs_1" any_shape eq_refl) as [a Ha]. destruct (in_exists CMerge ins HV "inputs_2" any_shape eq_refl) as [b Hb].
      cbn [setup] in HS. unfold setup_merge, in_shape in HS. rewrite Ha, Hb in HS. cbn [sbind] in HS. check HS Eq1. apply dims_eqb_eq in Eq1.
      assert (Ia := HI _ _ (dget_In _ _ _ Ha)). assert (Ib := HI _ _ (dget_In _ _ _ Hb)).
      unfold supported, mk, PassShapesLayers.mk, one_dim, dims in SU. lists. rewrite Ha, Hb in SU. apply andb_true_iff in SU. destruct SU as [S1 S2]. apply Nat.eqb_eq in S1. apply Nat.eqb_eq in S2.
      destruct (one_dim_shape a (proj1 Ia) S1) as [k [p Ea]]. destruct (one_dim_shape b (proj1 Ib) S2) as [k' [q Eb]].
      rewrite Ea, Eb, !last_last, !removelast_last in *. 
      step HS outs Eo. injection HS as <-. inv_build Eo. start. cbn [dget String.eqb Ascii.eqb Bool.eqb]. intros b0 b1 b2 E0 [f F] Eb1 Eb2. injection E0 as <-. rewrite Ha in Eb1. rewrite Hb in Eb2. injection Eb1 as <-. injection Eb2 as <-.
      unfold over_time. rewrite Ea, Eb, <- Eq1. cbn [bs_shape] in F. destruct k; cbn in F; try discriminate F. split; [now exists [p]|now exists [q]].
    - (* SigmoidCE *)
      destruct (in_tb CSigmoidCE ins HV HI "default") as [fs [_ Hd]]; [reflexivity|]. destruct (in_tb CSigmoidCE ins HV HI "targets") as [gs [_ He]]; [reflexivity|].
      cbn [setup] in HS. unfold setup_sigmoid_ce, in_shape in HS. rewrite Hd, He in HS. cbn [sbind] in HS. rewrite !features_tb in HS. check HS Eq1. apply zs_eqb_eq in Eq1. subst gs.
      step HS outs Eo. step HS si Ei. injection HS as <-. inv_build Eo. start. unfold nf. rewrite Hd, He. cbn [dget String.eqb Ascii.eqb Bool.eqb]. now rewrite ?nfeat_tb.
    - (* SoftmaxCE *)
      destruct (in_tb CSoftmaxCE ins HV HI "default") as [fs [_ Hd]]; [reflexivity|]. destruct (in_tb CSoftmaxCE ins HV HI "targets") as [gs [_ He]]; [reflexivity|].
      cbn [setup] in HS. unfold setup_softmax_ce, in_shape in HS. rewrite Hd, He in HS. cbn [sbind] in HS. rewrite !features_tb in HS. check HS Eq1. check HS Eq2. check HS Eq3. step HS outs Eo. step HS si Ei. injection HS as <-. inv_build Eo.
      unfold supported, mk, PassShapesLayers.mk, one_dim, dims, nf in SU. lists. rewrite Hd in SU. rewrite fdims_tb, nfeat_tb, map_length in SU.
      apply andb_true_iff in SU. destruct SU as [S1 S2]. apply Nat.eqb_eq in S1. apply Nat.eqb_eq in Eq1. apply Z.eqb_eq in Eq3.
      destruct fs as [|z [|]]; try discriminate. destruct gs as [|y [|]]; try discriminate. cbn [last] in Eq3. subst y.
      start. unfold nf. rewrite Hd, He. cbn [dget String.eqb Ascii.eqb Bool.eqb]. now rewrite ?nfeat_tb.
    - (* SquaredError *)
      destruct (in_tb CSquaredError ins HV HI "default") as [fs [_ Hd]]; [reflexivity|]. destruct (in_tb CSquaredError ins HV HI "targets") as [gs [_ He]]; [reflexivity|].
      cbn [setup] in HS. unfold setup_squared_error, in_shape in HS. rewrite Hd, He in HS. cbn [sbind] in HS. rewrite !features_tb in HS. check HS Eq1. apply zs_eqb_eq in Eq1. subst gs.
      step HS outs Eo. step HS si Ei. injection HS as <-. inv_build Eo. start. unfold nf. rewrite Hd, He. cbn [dget String.eqb Ascii.eqb Bool.eqb]. now rewrite ?nfeat_tb.
  Qed.
  Lemma inputs_timed c n b : validate_in_shapes c ins = true -> NoDup (map fst ins) -> c <> CMerge -> c <> CLoss -> In (n, b) ins -> over_time b.
  Proof.
    intros HV ND H1 H2 Hn.
    assert (Hs : In n (map fst (expected_inputs c))).
    { unfold validate_in_shapes in HV. rewrite !andb_true_iff in HV. destruct HV as [[HV _] _]. rewrite forallb_forall in HV. specialize (HV _ Hn). now apply smem_In in HV. }
    assert (Ht : dget n (expected_inputs c) = Some tb_any).
    { clear -H1 H2 Hs. destruct c; try contradiction; cbn [expected_inputs map fst In] in Hs; repeat (destruct Hs as [<-|Hs]; [reflexivity|]); destruct Hs. }
    destruct (in_tb c ins HV HI n Ht) as [fs [_ Hd]]. rewrite (In_dget _ _ _ ND Hn) in Hd. injection Hd as ->. apply over_time_tb.
  Qed.
End Extra.

(** ** Rows of buffers with time and batch dimension *)
Lemma over_time_valid b T B : over_time b -> data_shape b T B = T :: B :: fdims b /\ leading b = 2.
Proof.
  intros [f E]. unfold data_shape, fdims, leading. rewrite E. cbn [map flat_map filter length app]. rewrite fdims_ints. split.
  - do 2 f_equal. rewrite map_map. reflexivity.
  - cbn. do 2 f_equal. clear. induction f as [|z f IH]; [reflexivity|exact IH].
Qed.
Lemma ravel_row fd T B t i f : ravel (T :: B :: fd) (t :: i :: f) = (t * B + i) * BuffersModel.prod fd + ravel fd f.
Proof. unfold ravel, BuffersModel.prod. simpl. unfold BuffersModel.prod. rewrite Nat.mul_add_distr_r, Nat.mul_assoc. apply Nat.add_assoc. Qed.
Lemma nth_ravel shape idx : Forall2 lt idx shape -> ravel shape idx < length (all_indices shape) /\ nth (ravel shape idx) (all_indices shape) [] = idx.
Proof.
  intros F. destruct (In_nth _ _ [] (proj2 (all_indices_spec shape idx) F)) as [j [Hj Ej]].
  assert (E := ravel_all shape 0). apply (f_equal (fun u => nth j u 0)) in E. rewrite (nth_indep _ 0 (0 + ravel shape [])) in E by now rewrite map_length. rewrite (map_nth (fun idx => 0 + ravel shape idx)) in E.
  rewrite Ej in E. rewrite seq_nth in E by (rewrite <- all_indices_length; exact Hj). cbn in E. rewrite E. now split.
Qed.

Section Net.
  Variables (a : karch) (layers : list linst) (hubs : list hub) (lay : slices).
  Hypothesis HN : named a.
  Hypothesis HI : instantiate a = SOk layers.
  Hypothesis HL : create_layout (map layout_layer layers) = LOk (hubs, lay).
  Hypothesis HZ : nonnegative layers.

  Lemma net_extra l : In l layers -> supported l = true -> extra l /\ (li_cls l <> CMerge -> li_cls l <> CLoss -> forall n b, In (n, b) (li_in l) -> over_time b).
  Proof.
    intros Hl SU. assert (ND := buffers_NoDup a layers HN HI l "inputs" Hl). destruct (instantiate_made _ _ HI) as [cns [order [_ [_ [_ [_ M]]]]]]. assert (Ml := M l Hl).
    destruct (made_input_like _ _ _ _ Ml) as [c [ins [inc [outg [kw [Hm IL]]]]]]. apply make_layer_inv in Hm. destruct Hm as [HV [sp [HS El]]].
    assert (IL' : forall n b, In (n, b) (isort (fun a b : string * bstruct => String.leb (fst a) (fst b)) ins) -> input_like b) by (intros n b Hn; eapply IL; eapply isort_In; exact Hn).
    set (ins' := isort _ ins) in *.
    assert (E : l = PassShapesLayers.mk (li_name l) ins' inc outg c sp) by exact El.
    assert (Ec : li_cls l = c) by (rewrite El; reflexivity). assert (Ei : li_in l = ins') by (rewrite El; reflexivity).
    split.
    - rewrite E in SU |- *. exact (extra_ok _ kw ins' inc outg IL' c sp HV HS SU).
    - rewrite Ec, Ei. intros H1 H2 n b. change (buffers_of l "inputs") with (li_in l) in ND. rewrite Ei in ND. now apply (inputs_timed ins' IL' c n b).
  Qed.

  (** The cell of an element of a row *)
  Lemma row_cell l cat x b T B t i j : In l layers -> In (x, b) (buffers_of l cat) -> over_time b -> t < T -> i < B -> j < nfeatures b ->
    exists v f, view layers hubs lay T B l cat x = Some v /\ Forall2 lt f (fdims b) /\ ravel (fdims b) f = j /\
      (t * B + i) * nfeatures b + j < length (cells layers hubs lay T B l cat x) /\
      nth ((t * B + i) * nfeatures b + j) (cells layers hubs lay T B l cat x) 0 = address v ([t; i] ++ f).
  Proof.
    intros Hl Hb Ot Ht Hi Hj. assert (Vb := buffers_valid a layers HN HI l cat x b Hl Hb).
    destruct (cells_view a layers hubs lay HN HI HL HZ T B l cat x b Hl Hb) as [v [Hv [_ Ev]]]. rewrite (nfeatures_fdims b Vb) in *.
    destruct (unravel (fdims b) j Hj) as [f [Hf Ef]]. exists v, f. split; [exact Hv|]. split; [exact Hf|]. split; [exact Ef|].
    destruct (over_time_valid b T B Ot) as [Sh _]. rewrite Ev, Sh, map_length.
    destruct (nth_ravel (T :: B :: fdims b) (t :: i :: f)) as [N1 N2]; [now repeat constructor|]. rewrite ravel_row, Ef in N1, N2. split; [exact N1|].
    rewrite (nth_indep _ 0 (address v [])) by now rewrite map_length. rewrite map_nth, N2. reflexivity.
  Qed.

  (** A feature of an input is a feature of an output connected to it, in every row. *)
  Lemma input_row l n b j : In l layers -> In (n, b) (li_in l) -> over_time b -> j < nfeatures b ->
    (forall c, In c (conns l n) -> exists l', plain_source layers c l') ->
    exists c l' s o, In c (conns l n) /\ plain_source layers c l' /\ In (c_out c, s) (li_out l') /\ over_time s /\ o < nfeatures s /\
      forall T B t i, t < T -> i < B ->
        nth ((t * B + i) * nfeatures b + j) (cells layers hubs lay T B l "inputs" n) 0 = nth ((t * B + i) * nfeatures s + o) (cells layers hubs lay T B l' "outputs" (c_out c)) 0.
  Proof.
    intros Hl Hb Ot Hj HP.
    destruct (C63_inputs a layers hubs lay HN HI HL HZ l n b Hl Hb) as [start [P1 [P2 [P3 P4]]]].
    change (filter (fun c => String.eqb (c_in c) n) (li_incoming l)) with (conns l n) in *.
    destruct (C62_inputs a layers l n b HN HI Hl Hb) as [sources [k [fixed [lasts [F [NE [C [E Ec]]]]]]]].
    change (filter (fun c => String.eqb (c_in c) n) (li_incoming l)) with (conns l n) in F.
    destruct (P2 j Hj) as [c [l' [cat [x [s [Hc [Hs Hin]]]]]]]. assert (Hs' := Hs). destruct Hs' as [H1 [H2 [H3 H4]]].
    destruct (HP c Hc) as [l1 [Q1 [Q2 Q3]]]. assert (l1 = l') by (apply (net_unique a layers HN HI); auto; congruence). subst l1.
    assert (Co : component (c_out c)). { destruct (sl_out _ (net_sound a layers HN HI l' H1)) as [_ FF]. rewrite Forall_forall in FF. now apply FF. }
    assert (X := out_ref_fun _ _ _ H3 (out_output _ Co)). injection X as -> ->.
    assert (Ho : over_time s).
    { assert (HH : exists s', In s' sources /\ exists l2, In l2 layers /\ li_name l2 = c_start c /\ output_of l2 (c_out c) s').
      { clear -F Hc. induction F as [|c0 s0 cs ss HH FF IH]; [destruct Hc|]. destruct Hc as [<-|Hc]; [exists s0; split; [now left|exact HH]|].
        destruct (IH Hc) as [s' [I1 I2]]. exists s'. split; [now right|exact I2]. }
      destruct HH as [s' [Is [l2 [L1 [L2 L3]]]]]. assert (l2 = l') by (apply (net_unique a layers HN HI); auto; congruence). subst l2.
      assert (s' = s).
      { destruct (output_path a layers HN HI l' c s' H1 H2 L3) as [cat [x [X1 [X2 _]]]].
        assert (Y := out_ref_fun _ _ _ X1 (out_output _ Co)). injection Y as -> ->.
        apply (In_dget _ _ _ (buffers_NoDup a layers HN HI l' "outputs" H1)) in X2. apply (In_dget _ _ _ (buffers_NoDup a layers HN HI l' "outputs" H1)) in H4. congruence. }
      subst s'. unfold compatible in C. apply (in_map bs_shape) in Is. rewrite C in Is. apply in_map_iff in Is. destruct Is as [z [Ez _]].
      destruct Ot as [f0 Eb]. rewrite E in Eb. destruct k; cbn in Eb; try discriminate Eb.
      - destruct fixed; cbn in Eb; discriminate.
      - exists (fixed ++ [z]). rewrite <- Ez. reflexivity. }
    exists c, l', s, (j - start c). split; [exact Hc|]. split; [now split|]. split; [exact H4|]. split; [exact Ho|]. split; [lia|].
    intros T B t i Ht Hi.
    destruct (row_cell l "inputs" n b T B t i j Hl Hb Ot Ht Hi Hj) as [v [f [V1 [V2 [V3 [_ V5]]]]]].
    destruct (row_cell l' "outputs" (c_out c) s T B t i (j - start c) H1 H4 Ho Ht Hi ltac:(lia)) as [w [g [W1 [W2 [W3 [_ W5]]]]]].
    rewrite V5, W5. apply (P4 c l' "outputs" (c_out c) s T B v w Hc Hs); [left; now split|symmetry; apply (over_time_valid b T B Ot)|lia].
  Qed.
End Net.
