(** What a layer computes for one sequence in an evaluation pass depends on its inputs for this sequence. *)
From Coq Require Import String Ascii List ZArith QArith Reals Bool Lia Lra Arith FunctionalExtensionality.
From Verif Require Import NumBase NumpyModel NumpyProps LayersModel LayersProps RecurrentModel ClockLstmModel ConvModel ConvBase PoolModel NetworkModel NetworkProps NetLayersModel NetLayersProps MemoryPassModel MemoryPassProofs.
From Verif Require Import HubModel LayoutModel BuffersModel BuffersProofs.
From Verif Require Import PyBase PyFacts UtilsModel NamesModel ArchModel ShapesModel SetupModel SetupProps InstanceProofs InstanceProps NetLayoutExtra NetLayoutProofs NetLayoutProps CellsProofs NetMemoryModel NetSizesProofs NetPartsProofs NetMemoryProofs NetForwardProofs NetForwardProps SchedulesModel TrainNetModel ModifiersModel ModNetModel EvalNetModel EvalNetProofs EvalNetProps LocalLayersProofs LocalNetProofs.
Import ListNotations.
Open Scope string_scope.
Open Scope list_scope.
Open Scope nat_scope.

Lemma nlead_one b : nlead b 1 1 = 1.
Proof. unfold nlead. induction (bs_shape b) as [|d r IH]; [reflexivity|]. cbn [map fold_right]. rewrite IH. now destruct d. Qed.
Lemma sz_one d n : sz 1 1 d n = nf d n.
Proof. unfold sz, lead, nf. destruct (dget n d) as [b|]; [|reflexivity]. rewrite nlead_one. lia. Qed.
Lemma class_lt n r : (0 <= r < INR n)%R -> class_of (n - 1) r < n.
Proof.
  intros [H0 H1]. unfold class_of. destruct (Rle_dec 0 r); [|contradiction].
  destruct (base_Int_part r) as [B1 _]. assert (Int_part r < Z.of_nat n)%Z by (apply lt_IZR; rewrite <- INR_IZR_INZ; lra). 
  destruct (Z_lt_le_dec (Int_part r) 0) as [N|N]; [|lia].
  assert (0 < n) by (destruct n; [cbn in H1; lra|lia]). lia.
Qed.

Section One.
  Variables (a : karch) (layers : list linst) (l : linst).
  Hypothesis HI : instantiate a = SOk layers.
  Hypothesis HZ : nonnegative layers.
  Hypothesis Hl : In l layers.
  Hypothesis SU : supported l = true.
  Hypothesis EX : extra l.
  Variables (e e' : env) (T B i T' B' i' t : nat) (arr arr' : string -> string -> vec).
  Hypothesis (Ht : t <= T) (Ht' : t <= T') (Hi : i < B) (Hi' : i' < B').
  Hypothesis EQ : eval_equation e T B l arr.
  Hypothesis EQ' : eval_equation e' T' B' l arr'.
  Hypothesis HP : arr "parameters" = arr' "parameters".
  Hypothesis HC : row (nf (li_out l) "default") (e_ctx e (li_name l)) i (e_ctx e' (li_name l)) i'.
  Hypothesis HE : e_precision e = e_precision e' /\ e_min e = e_min e'.
  Definition alike_rows (n : nat) (v v' : vec) : Prop := forall s, s <= t -> row n (mat_of n v) (s * B + i) (mat_of n v') (s * B' + i').
  Hypothesis HX : forall n, In n (in_names (li_cls l) ++ const_names (li_cls l)) -> alike_rows (nf (li_in l) n) (arr "inputs" n) (arr' "inputs" n).
  Hypothesis HM : li_cls l = CMerge -> lead (li_in l) "inputs_1" (S T) B = S T * B /\ lead (li_in l) "inputs_1" (S T') B' = S T' * B'.
  Hypothesis HY : li_cls l = CSoftmaxCE -> forall s, s <= t -> (0 <= arr "inputs" "targets" (s * B + i)%nat < INR (nf (li_in l) "default"))%R.

  Lemma rows_lt s : s <= t -> s * B + i < S T * B /\ s * B' + i' < S T' * B'.
  Proof using Ht Ht' Hi Hi'. clear - Ht Ht' Hi Hi'. intros H. split; nia. Qed.

  (** Sizes *)
  Lemma sizes_here tg tm : let k := kind_of e 0 1 l tg tm in
    total 1 1 (li_in l) (in_names (li_cls l)) = n_in k /\ total 1 1 (li_out l) (out_names (li_cls l)) = n_out k.
  Proof using HI HZ Hl SU. destruct (net_sized a layers l e 0 1 HI HZ Hl SU tg tm) as [S1 [S2 _]]. now split. Qed.
  Lemma fed_here : Forall (fun p => nf (li_in l) (fst p) = snd p) (in_parts 0 1 l).
  Proof using HI HZ Hl SU.
    destruct (net_parts a layers l 0 1 HI HZ Hl SU) as [_ [_ F]]. rewrite Forall_forall in *. intros p Hp. rewrite <- (F p Hp). symmetry. apply sz_one.
  Qed.

  Lemma layer_rows x : In x (out_names (li_cls l) ++ pred_names (li_cls l)) -> alike_rows (nf (li_out l) x) (arr "outputs" x) (arr' "outputs" x).
  Proof.
    destruct (sizes_here none none) as [S1 S2]. assert (FD := fed_here). unfold total in S1, S2.
    unfold eval_equation, equation in EQ, EQ'. rewrite <- HP in EQ'. unfold extra in EX. unfold kind_of in S1, S2. unfold in_parts in FD.
    destruct (li_cls l) eqn:Ec; cbn [in_names out_names pred_names const_names app fold_right n_in n_out] in *; rewrite ?sz_one, ?Nat.add_0_r, ?Nat.mul_1_l in S1, S2;
      intros Hx; repeat (destruct Hx as [<-|Hx]); try contradiction; intros s Hs; destruct (rows_lt s Hs) as [R1 R2].

    all: try (exfalso; unfold supported in SU; rewrite Ec in SU; discriminate SU).
    all: pose (D := HX "default"); pose (Dt := HX "targets").
    - (* BatchNorm *)
      rewrite S2. specialize (D (or_introl eq_refl) s Hs). intros j Hj. rewrite (EQ _ j R1 Hj), (EQ' _ j R2 Hj). cbv beta. now rewrite (D j Hj).
    - (* BinomialCE *)
      specialize (D (or_introl eq_refl) s Hs). specialize (Dt (or_intror (or_introl eq_refl)) s Hs). rewrite EX in Dt. rewrite S2. intros j Hj. assert (j = 0) by lia. subst j.
      unfold mat_of at 1 2. rewrite !Nat.mul_1_r, !Nat.add_0_r. rewrite (EQ _ R1), (EQ' _ R2). unfold binomial_forward. f_equal. apply Rsum_ext. intros k Hk. rewrite (D k Hk). f_equal. exact (Dt k Hk).
    - (* Clockwork *)
      intros j Hj. assert (Q := EQ s ltac:(lia) i j Hi Hj). assert (Q' := EQ' s ltac:(lia) i' j Hi' Hj). unfold cw_forward in Q, Q'. rewrite (proj2 (Nat.ltb_lt s (S T))) in Q by lia. rewrite (proj2 (Nat.ltb_lt s (S T'))) in Q' by lia.
      transitivity (seq_of B (nf (li_out l) "default") (arr "outputs" "default") s i j); [reflexivity|]. rewrite Q. symmetry. 
      transitivity (seq_of B' (nf (li_out l) "default") (arr' "outputs" "default") s i' j); [reflexivity|]. rewrite Q'. symmetry.
      apply (cw_row i i' t); [exact (D (or_introl eq_refl))|exact HC|exact Hs|exact Hj].
    - (* ClockworkLstm *)
      intros j Hj. assert (Q := EQ s ltac:(lia) i j Hi Hj). assert (Q' := EQ' s ltac:(lia) i' j Hi' Hj). unfold cl_y in Q, Q'. rewrite (proj2 (Nat.ltb_lt s (S T))) in Q by lia. rewrite (proj2 (Nat.ltb_lt s (S T'))) in Q' by lia.
      transitivity (seq_of B (nf (li_out l) "default") (arr "outputs" "default") s i j); [reflexivity|]. rewrite Q. symmetry. 
      transitivity (seq_of B' (nf (li_out l) "default") (arr' "outputs" "default") s i' j); [reflexivity|]. rewrite Q'. symmetry.
      refine (proj1 (cl_row i i' t _ _ _ _ _ _ _ _ _ _ _ (D (or_introl eq_refl)) _ _ s Hs) j Hj); intros k Hk; reflexivity.
    - (* Conv *)
      specialize (D (or_introl eq_refl) s Hs). set (f := last (dims (li_out l) "default") 0) in *. set (g := geometry_of l) in *. set (px := g_oh g * g_ow g) in *.
      rewrite S1 in D. intros j Hj. rewrite S2 in Hj |- *.
      assert (Hf : 0 < f) by nia. assert (Hq : j / f < px) by (apply Nat.div_lt_upper_bound; nia). assert (Hr : j mod f < f) by (apply Nat.mod_upper_bound; lia).
      assert (Ej : j = (j / f) * f + j mod f) by (rewrite Nat.mul_comm; apply Nat.div_mod; lia).
      assert (Q := EQ _ R1 _ _ Hq Hr). assert (Q' := EQ' _ R2 _ _ Hq Hr). rewrite seq_at in Q, Q'. unfold mat_of at 1 2.
      replace ((s * B + i) * (px * f) + j) with (((s * B + i) * px + j / f) * f + j mod f) by nia. replace ((s * B' + i') * (px * f) + j) with (((s * B' + i') * px + j / f) * f + j mod f) by nia.
      rewrite Q, Q'. now rewrite (conv_image _ _ _ _ _ _ _ _ _ _ _ (mat_of (g_cells g) (arr "inputs" "default") (s * B + i)) (mat_of (g_cells g) (arr' "inputs" "default") (s * B' + i'))).
    - (* Dropout *)
      rewrite S2. specialize (D (or_introl eq_refl) s Hs). intros j Hj. rewrite (EQ _ j R1 Hj), (EQ' _ j R2 Hj). exact (D j Hj).
    - (* Elementwise *)
      rewrite S2. specialize (D (or_introl eq_refl) s Hs). intros j Hj. rewrite (EQ _ j R1 Hj), (EQ' _ j R2 Hj). unfold elementwise_forward. now rewrite (D j Hj).
    - (* FullyConnected *)
      specialize (D (or_introl eq_refl) s Hs). intros j Hj. rewrite (EQ _ j R1 Hj), (EQ' _ j R2 Hj). exact (fc_row _ _ _ _ _ _ _ _ _ D j Hj).
    - (* Highway *)
      clear D Dt. inversion FD as [|? ? F1 FD1]. inversion FD1 as [|? ? F2 FD2]. subst. cbn [fst snd] in F1, F2. rewrite Nat.add_0_r in F1, F2.
      pose (D1 := HX "H" (or_introl eq_refl) s Hs). pose (D2 := HX "T" (or_intror (or_introl eq_refl)) s Hs). pose (D3 := HX "x" (or_intror (or_intror (or_introl eq_refl))) s Hs). rewrite F1 in D1. rewrite F2 in D2.
      rewrite S2. intros j Hj. rewrite (EQ _ j R1 Hj), (EQ' _ j R2 Hj). unfold highway_forward. now rewrite (D1 j Hj), (D2 j Hj), (D3 j Hj).
    - (* L1Decay *)
      specialize (D (or_introl eq_refl) s Hs). rewrite S2. intros j Hj. assert (j = 0) by lia. subst j.
      unfold mat_of at 1 2. rewrite !Nat.mul_1_r, !Nat.add_0_r. rewrite (EQ _ R1), (EQ' _ R2). unfold l1_forward. apply Rsum_ext. intros k Hk. now rewrite (D k Hk).
    - (* L2Decay *)
      specialize (D (or_introl eq_refl) s Hs). rewrite S2. intros j Hj. assert (j = 0) by lia. subst j.
      unfold mat_of at 1 2. rewrite !Nat.mul_1_r, !Nat.add_0_r. rewrite (EQ _ R1), (EQ' _ R2). unfold l2_forward. apply Rsum_ext. intros k Hk. now rewrite (D k Hk).
    - (* Lstm *)
      intros j Hj. assert (Q := EQ s ltac:(lia) i j Hi Hj). assert (Q' := EQ' s ltac:(lia) i' j Hi' Hj). unfold lstm_y in Q, Q'. rewrite (proj2 (Nat.ltb_lt s (S T))) in Q by lia. rewrite (proj2 (Nat.ltb_lt s (S T'))) in Q' by lia.
      transitivity (seq_of B (nf (li_out l) "default") (arr "outputs" "default") s i j); [reflexivity|]. rewrite Q. symmetry. 
      transitivity (seq_of B' (nf (li_out l) "default") (arr' "outputs" "default") s i' j); [reflexivity|]. rewrite Q'. symmetry.
      refine (proj1 (lstm_row i i' t _ _ _ _ _ _ _ _ _ _ (D (or_introl eq_refl)) _ _ s Hs) j Hj); intros k Hk; reflexivity.
    - (* Mask *)
      specialize (D (or_introl eq_refl) s Hs). pose (Dm := HX "mask" (or_intror (or_introl eq_refl)) s Hs). rewrite S2. intros j Hj. rewrite (EQ _ j R1 Hj), (EQ' _ j R2 Hj). unfold mask_forward. rewrite (D j Hj). f_equal. unfold mask_at.
      destruct (Nat.eqb_spec (nf (li_in l) "mask") 1) as [E1|E1]; [apply Dm; lia|]. destruct EX as [E2|E2]; [contradiction|]. apply Dm. lia.
    - (* Merge *)
      clear D Dt. destruct (HM eq_refl) as [M1 M2]. rewrite M1 in EQ. rewrite M2 in EQ'. pose (D1 := HX "inputs_1" (or_introl eq_refl) s Hs). pose (D2 := HX "inputs_2" (or_intror (or_introl eq_refl)) s Hs).
      assert (L1 : lead (li_in l) "inputs_1" 1 1 = 1).
      { unfold lead. destruct (dget "inputs_1" (li_in l)) as [b|] eqn:Db; [apply nlead_one|]. exfalso. unfold lead in M1. rewrite Db in M1. nia. }
      rewrite L1, Nat.mul_1_l in S2. rewrite S2. intros j Hj. rewrite (EQ _ j R1 Hj), (EQ' _ j R2 Hj). unfold merge_forward. destruct (Nat.ltb_spec j (nf (li_in l) "inputs_1")); [now apply D1|apply D2; lia].
    - (* NoOp *)
      rewrite S2. specialize (D (or_introl eq_refl) s Hs). intros j Hj. rewrite (EQ _ j R1 Hj), (EQ' _ j R2 Hj). exact (D j Hj).
    - (* Pool *)
      specialize (D (or_introl eq_refl) s Hs). set (g := geometry_of l) in *. assert (S1' : nf (li_in l) "default" = g_cells g) by (destruct (cf_max (li_cfg l)); cbn [n_in] in S1; lia).
      assert (S2' : nf (li_out l) "default" = g_oh g * g_ow g * g_c g) by (destruct (cf_max (li_cfg l)); cbn [n_out] in S2; lia). rewrite S1' in D. rewrite S2'.
      intros j Hj. rewrite (EQ _ j R1 Hj), (EQ' _ j R2 Hj). apply of_out_ext; [|exact Hj]. intros p q c Hc. destruct HE as [<- <-].
      destruct (cf_max (li_cfg l)); [now rewrite (max_image _ _ g _ (mat_of (g_cells g) (arr' "inputs" "default") (s * B' + i')) p q c D Hc)|now apply avg_image].
    - (* Recurrent *)
      intros j Hj. assert (Q := EQ s ltac:(lia) i j Hi Hj). assert (Q' := EQ' s ltac:(lia) i' j Hi' Hj). unfold rec_forward in Q, Q'. rewrite (proj2 (Nat.ltb_lt s (S T))) in Q by lia. rewrite (proj2 (Nat.ltb_lt s (S T'))) in Q' by lia.
      transitivity (seq_of B (nf (li_out l) "default") (arr "outputs" "default") s i j); [reflexivity|]. rewrite Q. symmetry. 
      transitivity (seq_of B' (nf (li_out l) "default") (arr' "outputs" "default") s i' j); [reflexivity|]. rewrite Q'. symmetry.
      apply (rec_row i i' t); [exact (D (or_introl eq_refl))|exact HC|exact Hs|exact Hj].
    - (* SigmoidCE, loss *)
      destruct EQ as [Q1 _]. destruct EQ' as [Q1' _]. destruct EX as [X1 _]. specialize (D (or_introl eq_refl) s Hs). specialize (Dt (or_intror (or_introl eq_refl)) s Hs). rewrite X1 in Dt. rewrite S2. intros j Hj.
      rewrite (Q1 _ j R1 Hj), (Q1' _ j R2 Hj). unfold sigmoid_ce_forward. cbn [snd]. rewrite (D j Hj). now rewrite <- (Dt j Hj).
    - (* SigmoidCE, predictions *)
      destruct EQ as [_ Q1]. destruct EQ' as [_ Q1']. destruct EX as [_ X1]. specialize (D (or_introl eq_refl) s Hs). rewrite X1. intros j Hj. rewrite (Q1 _ j R1 Hj), (Q1' _ j R2 Hj). cbv beta. now rewrite (D j Hj).
    - (* SoftmaxCE, loss *)
      destruct EQ as [Q1 _]. destruct EQ' as [Q1' _]. destruct EX as [X1 _]. specialize (D (or_introl eq_refl) s Hs). specialize (Dt (or_intror (or_introl eq_refl)) s Hs). rewrite X1 in Dt. rewrite S2. intros j Hj. assert (j = 0) by lia. subst j.
      unfold mat_of at 1 2. rewrite !Nat.mul_1_r, !Nat.add_0_r. rewrite (Q1 _ R1), (Q1' _ R2). unfold softmax_ce_forward. cbn [snd].
      assert (Et : arr "inputs" "targets" (s * B + i) = arr' "inputs" "targets" (s * B' + i')) by (specialize (Dt 0 ltac:(lia)); unfold mat_of in Dt; now rewrite !Nat.mul_1_r, !Nat.add_0_r in Dt).
      rewrite <- Et. assert (Lt := class_lt _ _ (HY eq_refl s Hs)). set (n := nf (li_in l) "default") in *.
      do 3 f_equal. rewrite !softmax_plain. replace (Datatypes.S (n - 1)) with n by lia. rewrite (D _ Lt). f_equal. apply Rsum_ext. intros k Hk. now rewrite (D k Hk).
    - (* SoftmaxCE, predictions *)
      destruct EQ as [_ Q1]. destruct EQ' as [_ Q1']. destruct EX as [_ X1]. specialize (D (or_introl eq_refl) s Hs). rewrite X1. intros j Hj. rewrite (Q1 _ j R1 Hj), (Q1' _ j R2 Hj). cbv beta. rewrite (D j Hj). f_equal. apply Rsum_ext. intros k Hk. now rewrite (D k Hk).
    - (* SquaredDifference *)
      clear D Dt. inversion FD as [|? ? F1 FD1]. inversion FD1 as [|? ? F2 FD2]. subst. cbn [fst snd] in F1, F2. rewrite Nat.add_0_r in F2.
      pose (D1 := HX "inputs_1" (or_introl eq_refl) s Hs). pose (D2 := HX "inputs_2" (or_intror (or_introl eq_refl)) s Hs). rewrite F2 in D2.
      rewrite S2. intros j Hj. rewrite (EQ _ j R1 Hj), (EQ' _ j R2 Hj). unfold sqdiff_forward. now rewrite (D1 j Hj), (D2 j Hj).
    - (* SquaredError, loss *)
      destruct EQ as [Q1 _]. destruct EQ' as [Q1' _]. destruct EX as [X1 _]. specialize (D (or_introl eq_refl) s Hs). specialize (Dt (or_intror (or_introl eq_refl)) s Hs). rewrite X1 in Dt. rewrite S2. intros j Hj.
      rewrite (Q1 _ j R1 Hj), (Q1' _ j R2 Hj). unfold sqerr_forward. cbn [snd]. rewrite (D j Hj). now rewrite (Dt j Hj).
    - (* SquaredError, predictions *)
      destruct EQ as [_ Q1]. destruct EQ' as [_ Q1']. destruct EX as [_ X1]. specialize (D (or_introl eq_refl) s Hs). rewrite X1. intros j Hj. rewrite (Q1 _ j R1 Hj), (Q1' _ j R2 Hj). exact (D j Hj).
  Qed.
End One.
