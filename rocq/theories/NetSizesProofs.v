(** The sizes of the buffers of a layer are those of its kind. *)
From Coq Require Import String Ascii List ZArith QArith Bool Lia.
From Verif Require Import HubModel LayoutModel BuffersModel BuffersProofs.
From Verif Require Import PyBase PyFacts UtilsModel NamesModel ArchModel ShapesModel ShapesProofs SetupModel PassShapesModel SetupProofs PassShapesProofs PassShapesLayers SetupProps InstanceProofs InstanceProps NetLayoutProofs NetLayoutProps CellsProofs.
From Verif Require Import NumBase NetworkModel NetLayersModel ConvModel NetMemoryModel.
Import ListNotations.
Open Scope string_scope.
Open Scope list_scope.
Open Scope nat_scope.

Definition np (fs : list Z) : nat := fold_right Nat.mul 1 (map Z.to_nat fs).
Definition sz (T B : nat) (d : list (string * bstruct)) (n : string) : nat := lead d n T B * nf d n.
Definition total (T B : nat) (d : list (string * bstruct)) (names : list string) : nat := fold_right (fun n a => sz T B d n + a) 0 names.
Definition nonneg (d : list (string * bstruct)) : Prop := forall x b z, In (x, b) d -> In (DInt z) (bs_shape b) -> (0 <= z)%Z.

Lemma nlead_ints fs T B : fold_right Nat.mul 1 (map (fun d => match d with DT => T | DB => B | _ => 1 end) (map DInt fs)) = 1.
Proof. induction fs as [|z fs IH]; [reflexivity|]. cbn [map fold_right]. rewrite IH. reflexivity. Qed.
Lemma nfeat_ints fs : fold_right Nat.mul 1 (map (fun d => match d with DInt z => Z.to_nat z | _ => 1 end) (map DInt fs)) = np fs.
Proof. unfold np. induction fs as [|z fs IH]; [reflexivity|]. cbn [map fold_right]. now rewrite IH. Qed.
Lemma fdims_ints fs : flat_map (fun d => match d with DInt z => [Z.to_nat z] | _ => [] end) (map DInt fs) = map Z.to_nat fs.
Proof. induction fs as [|z fs IH]; [reflexivity|]. cbn [map flat_map app]. now rewrite IH. Qed.
Lemma nlead_tb fs c w T B : nlead (tb fs c w) T B = T * B.
Proof. unfold nlead, tb. cbn [bs_shape map fold_right]. rewrite nlead_ints. lia. Qed.
Lemma nlead_pl fs T B : nlead (pl fs) T B = 1.
Proof. unfold nlead, pl. cbn [bs_shape]. apply nlead_ints. Qed.
Lemma nfeat_tb fs c w : nfeatures (tb fs c w) = np fs.
Proof. unfold nfeatures, tb. cbn [bs_shape map fold_right]. rewrite nfeat_ints. lia. Qed.
Lemma nfeat_pl fs : nfeatures (pl fs) = np fs.
Proof. unfold nfeatures, pl. cbn [bs_shape]. apply nfeat_ints. Qed.
Lemma fdims_tb fs c w : fdims (tb fs c w) = map Z.to_nat fs.
Proof. unfold fdims, tb. cbn [bs_shape flat_map app]. apply fdims_ints. Qed.
Lemma np1 z : np [z] = Z.to_nat z.
Proof. unfold np. cbn. lia. Qed.
Lemma np2 y z : np [y; z] = Z.to_nat y * Z.to_nat z.
Proof. unfold np. cbn. lia. Qed.
Lemma fsize_np fs c w : Forall (fun z => 0 <= z)%Z fs -> Z.to_nat (fsize (tb fs c w)) = np fs.
Proof.
  unfold fsize. rewrite features_tb. intros H.
  assert (X : (0 <= fold_right Z.mul 1 fs)%Z /\ Z.to_nat (fold_right Z.mul 1%Z fs) = np fs); [|apply X].
  induction H as [|z fs Hz H [IH1 IH2]]; [split; [cbn; lia|reflexivity]|]. cbn [fold_right]. split; [nia|].
  rewrite Z2Nat.inj_mul by lia. unfold np in *. cbn [map fold_right]. now rewrite IH2.
Qed.
Lemma nonneg_tb d n fs c w : nonneg d -> dget n d = Some (tb fs c w) -> Forall (fun z => 0 <= z)%Z fs.
Proof.
  intros H E. apply dget_In in E. apply Forall_forall. intros z Hz. apply (H n _ z E). cbn [tb bs_shape]. right. right. now apply in_map.
Qed.
Lemma size_shape b T B : BuffersModel.prod (data_shape b T B) = nlead b T B * nfeatures b \/ ~ valid b.
Proof.
  destruct (structure_valid (bs_shape b) (Some (bs_ctx b))) eqn:V; [left|right; unfold valid; rewrite V; discriminate].
  destruct (valid_parts b V) as [k [f [E _]]]. unfold data_shape, nlead, nfeatures, BuffersModel.prod. rewrite E, !map_app. clear.
  rewrite !fold_right_app. unfold ints. rewrite nlead_ints, nfeat_ints.
  assert (X : fold_right Nat.mul 1 (map (fun d => match d with DT => T | DB => B | DInt z => Z.to_nat z | _ => 0 end) (map DInt f)) = np f)
    by (unfold np; induction f as [|z f IH]; [reflexivity|]; cbn [map fold_right]; now rewrite IH).
  rewrite X. destruct k; cbn; lia.
Qed.

(** Simplification of goals about the sizes of given structures *)
Ltac sizes_simpl :=
  unfold total, sz, lead, nf, dims; cbn [fold_right]; lists; cbn [dget String.eqb Ascii.eqb Bool.eqb app same_for map];
  repeat match goal with H : dget ?n ?d = Some _ |- context [dget ?n ?d] => rewrite H end;
  rewrite ?nlead_tb, ?nlead_pl, ?nfeat_tb, ?nfeat_pl, ?fdims_tb, ?np1, ?np2.

Section Sizes.
  Variable name : string.
  Variable kw : kwargs.
  Variable ins : list (string * bstruct).
  Variables inc outg : list connection.
  Hypothesis HI : forall n b, In (n, b) ins -> input_like b.
  Hypothesis NI : nonneg ins.
  Variables (e : env) (T B : nat).
  Let mk := mk name ins inc outg.

  Definition sized (c : cls) (sp : spec) : Prop :=
    let l := mk c sp in
    forall tg tm, let k := kind_of e T B l tg tm in
    total (S T) B (li_in l) (in_names c) = n_in k /\ total (S T) B (li_out l) (out_names c) = n_out k /\
    total (S T) B (li_params l) (par_names l) = n_par k /\ total (S T) B (li_out l) (loss_names c) = length (loss_names c) /\
    (forall n, In n (out_names c ++ loss_names c) -> In n (map fst (li_out l))) /\
    (forall n b, In (n, b) (li_out l) -> bs_bwd b = false) /\ (forall n b, In (n, b) (li_params l) -> bs_bwd b = false).

  Ltac start := unfold sized, mk, PassShapesLayers.mk, kind_of; cbv zeta; intros tg tm; lists;
    cbn [in_names out_names loss_names par_names const_names n_in n_out n_par].
  Ltac names := unfold par_names; lists; cbn [map fst filter negb smem existsb orb String.eqb Ascii.eqb Bool.eqb].
  Ltac fin := split; [cbn; intuition|]; split; intros ? ? ?; cbn in *; intuition (try discriminate; try congruence);
     repeat match goal with H : (_, _) = (_, _) |- _ => injection H as <- <- end; try reflexivity.
  Lemma in_bwd n b : dget n ins = Some b -> bs_bwd b = false.
  Proof. intros H. apply dget_In, HI in H. apply H. Qed.

  Lemma fc_sized sp : validate_in_shapes CFullyConnected ins = true -> setup_fully_connected kw ins = SOk sp -> nonneg (sp_out sp) -> sized CFullyConnected sp.
  Proof.
    intros HV HS NO.
    destruct (in_tb CFullyConnected ins HV HI "default") as [fs [Hne Hd]]; [reflexivity|].
    unfold setup_fully_connected, in_shape in HS. rewrite Hd in HS. cbn [sbind] in HS.
    match type of HS with (match ?x with _ => _ end) = _ => destruct x as [ds|]; [|discriminate] end.
    destruct (timed ds 0 false) as [out|] eqn:Eout; cbn [sbind] in HS; [|discriminate].
    apply timed_ok in Eout. subst out. step HS params Ep. injection HS as <-. inv_build Ep.
    assert (N1 := nonneg_tb _ _ _ _ _ NI Hd). assert (N2 := nonneg_tb _ "default" _ _ _ NO eq_refl).
    start. names. sizes_simpl. rewrite !fsize_np by assumption.
    split; [lia|]. split; [lia|]. split; [lia|]. split; [reflexivity|]. fin.
  Qed.
  Lemma recurrent_sized timing sp : let c := if timing : bool then CClockwork else CRecurrent in
    validate_in_shapes c ins = true -> setup_recurrent timing kw ins = SOk sp -> sized c sp.
  Proof.
    intros c HV HS.
    destruct (in_tb c ins HV HI "default") as [fs [Hne Hd]]; [destruct timing; reflexivity|].
    assert (N1 := nonneg_tb _ _ _ _ _ NI Hd).
    unfold setup_recurrent, in_shape in HS. rewrite Hd in HS. cbn [sbind] in HS.
    match type of HS with (match ?x with _ => _ end) = _ => destruct x as [size|]; [|discriminate] end.
    step HS outs Eo. step HS params Ep. step HS si Ei. injection HS as <-. inv_build Eo.
    destruct timing; subst c; cbv iota in *; cbn [app] in Ep; inv_build Ep; start; names; sizes_simpl; rewrite !fsize_np by assumption;
      (split; [lia|]; split; [lia|]; split; [lia|]; split; [reflexivity|]; fin).
  Qed.
  Lemma lstm_sized timing sp : let c := if timing : bool then CClockworkLstm else CLstm in
    validate_in_shapes c ins = true -> setup_lstm timing kw ins = SOk sp -> sized c sp.
  Proof.
    intros c HV HS.
    destruct (in_tb c ins HV HI "default") as [fs [Hne Hd]]; [destruct timing; reflexivity|].
    assert (N1 := nonneg_tb _ _ _ _ _ NI Hd).
    unfold setup_lstm, in_shape in HS. rewrite Hd in HS. cbn [sbind] in HS.
    match type of HS with (match ?x with _ => _ end) = _ => destruct x as [size|]; [|discriminate] end.
    step HS outs Eo. step HS params Ep. step HS si Ei. injection HS as <-. inv_build Eo.
    destruct timing; subst c; cbv iota in *; cbn [app same_for map] in Ep; inv_build Ep; start; names; sizes_simpl; rewrite !fsize_np by assumption; unfold lstm_np;
      change (Z.to_nat 1) with 1; rewrite ?Nat.mul_1_l, ?Nat.add_0_r; (split; [lia|]; split; [lia|]; split; [cbv zeta; reflexivity|]; split; [reflexivity|]; fin).
  Qed.
  Lemma copying_sized c sp : c = CNoOp \/ c = CElementwise -> validate_in_shapes c ins = true -> setup c name kw ins = SOk sp -> sized c sp.
  Proof.
    intros Hc HV HS.
    destruct (in_tb c ins HV HI "default") as [fs [Hne Hd]]; [destruct Hc as [-> | ->]; reflexivity|].
    assert (E : sp_out sp = ins /\ sp_params sp = []) by (destruct Hc as [-> | ->]; cbn in HS; injection HS as <-; auto).
    destruct E as [E1 E2]. unfold sized, mk, PassShapesLayers.mk, kind_of; cbv zeta; intros tg tm. lists. rewrite E1, E2.
    destruct Hc as [-> | ->]; cbn [in_names out_names loss_names par_names n_in n_out n_par]; names; sizes_simpl;
      (split; [lia|]; split; [lia|]; split; [lia|]; split; [reflexivity|]; split; [|split; [intros n b Hb; apply HI in Hb; apply Hb|intros n b []]];
       cbn; intros n [<-|[]]; apply (in_map fst _ _ (dget_In _ _ _ Hd))).
  Qed.
  Lemma dropout_sized sp : validate_in_shapes CDropout ins = true -> setup_dropout kw ins = SOk sp -> sized CDropout sp.
  Proof.
    intros HV HS. destruct (in_tb CDropout ins HV HI "default") as [fs [Hne Hd]]; [reflexivity|].
    unfold setup_dropout, in_shape in HS. rewrite Hd in HS. cbn [sbind] in HS. injection HS as <-.
    start. names. sizes_simpl. split; [lia|]; split; [lia|]; split; [lia|]; split; [reflexivity|]. fin.
  Qed.
  Lemma bs_eqb_tb fs gs c w c' w' : bs_eqb (tb fs c w) (tb gs c' w') = true -> fs = gs.
  Proof.
    unfold bs_eqb. intros H. apply dims_eqb_eq in H. cbn [tb bs_shape] in H. injection H as H. clear -H. revert gs H. induction fs as [|z fs IH]; intros [|y gs] H; try discriminate; [reflexivity|]. cbn in H. injection H as -> H. f_equal. now apply IH.
  Qed.
  Lemma highway_sized sp : validate_in_shapes CHighway ins = true -> setup_highway kw ins = SOk sp -> sized CHighway sp.
  Proof.
    intros HV HS. destruct (in_tb CHighway ins HV HI "H") as [fs [_ Hd]]; [reflexivity|]. destruct (in_tb CHighway ins HV HI "T") as [gs [_ He]]; [reflexivity|]. destruct (in_tb CHighway ins HV HI "x") as [hs [_ Hf]]; [reflexivity|].
    unfold setup_highway, in_shape in HS. rewrite Hd, He, Hf in HS. cbn [sbind] in HS. check HS E1. check HS E2. apply bs_eqb_tb in E1. apply bs_eqb_tb in E2. subst gs hs.
    step HS outs Eo. injection HS as <-. inv_build Eo. rewrite features_tb in *.
    start. names. sizes_simpl. split; [lia|]; split; [lia|]; split; [lia|]; split; [reflexivity|]. fin.
  Qed.
  Lemma decay_sized l2 sp : let c := if l2 : bool then CL2Decay else CL1Decay in
    validate_in_shapes c ins = true -> setup c name kw ins = SOk sp -> sized c sp.
  Proof.
    intros c HV HS. destruct (in_tb c ins HV HI "default") as [fs [Hne Hd]]; [destruct l2; reflexivity|].
    destruct l2; subst c; cbv iota in *; cbn [setup] in HS; [unfold setup_l2_decay in HS|unfold setup_l1_decay in HS]; step HS outs Eo;
      unfold in_shape in HS; rewrite Hd in HS; cbn [sbind] in HS; [step HS si Ei|]; injection HS as <-; inv_build Eo;
      (start; names; sizes_simpl; split; [lia|]; split; [lia|]; split; [lia|]; split; [reflexivity|]; fin).
  Qed.
  Lemma loss_sized sp : validate_in_shapes CLoss ins = true -> setup_loss name kw ins = SOk sp -> sized CLoss sp.
  Proof.
    intros HV HS. destruct (in_exists CLoss ins HV "default" any_shape eq_refl) as [b Hd].
    unfold setup_loss in HS. check HS E1. unfold in_shape in HS. rewrite Hd in HS. cbn [sbind] in HS. step HS outs Eo. injection HS as <-. inv_build Eo.
    start. names. sizes_simpl. split; [lia|]; split; [lia|]; split; [lia|]; split; [reflexivity|]. fin.
  Qed.
  Lemma sqdiff_sized sp : validate_in_shapes CSquaredDifference ins = true -> setup_squared_difference kw ins = SOk sp -> sized CSquaredDifference sp.
  Proof.
    intros HV HS. destruct (in_tb CSquaredDifference ins HV HI "inputs_1") as [fs [_ Hd]]; [reflexivity|]. destruct (in_tb CSquaredDifference ins HV HI "inputs_2") as [gs [_ He]]; [reflexivity|].
    unfold setup_squared_difference, in_shape in HS. rewrite Hd, He in HS. cbn [sbind] in HS. rewrite !features_tb in HS. check HS E1. apply zs_eqb_eq in E1. subst gs.
    step HS outs Eo. step HS si Ei. injection HS as <-. inv_build Eo.
    start. names. sizes_simpl. split; [lia|]; split; [lia|]; split; [lia|]; split; [reflexivity|]. fin.
  Qed.
  Lemma target_sized c sp : c = CSquaredError \/ c = CSigmoidCE -> validate_in_shapes c ins = true -> setup c name kw ins = SOk sp -> sized c sp.
  Proof.
    intros Hc HV HS. destruct (in_tb c ins HV HI "default") as [fs [_ Hd]]; [destruct Hc as [-> | ->]; reflexivity|]. destruct (in_tb c ins HV HI "targets") as [gs [_ He]]; [destruct Hc as [-> | ->]; reflexivity|].
    destruct Hc as [-> | ->]; cbn [setup] in HS; [unfold setup_squared_error, in_shape in HS|unfold setup_sigmoid_ce, in_shape in HS]; rewrite Hd, He in HS; cbn [sbind] in HS; rewrite !features_tb in HS; check HS E1; apply zs_eqb_eq in E1; subst gs;
      step HS outs Eo; step HS si Ei; injection HS as <-; inv_build Eo;
      (start; names; sizes_simpl; split; [lia|]; split; [lia|]; split; [lia|]; split; [reflexivity|]; fin).
  Qed.
  Lemma binomial_sized sp : validate_in_shapes CBinomialCE ins = true -> setup_binomial kw ins = SOk sp -> sized CBinomialCE sp.
  Proof.
    intros HV HS. destruct (in_tb CBinomialCE ins HV HI "default") as [fs [_ Hd]]; [reflexivity|]. destruct (in_tb CBinomialCE ins HV HI "targets") as [gs [_ He]]; [reflexivity|].
    unfold setup_binomial, in_shape in HS. rewrite Hd, He in HS. cbn [sbind] in HS. check HS E1. step HS outs Eo. step HS si Ei. injection HS as <-. inv_build Eo.
    start. names. sizes_simpl. split; [lia|]; split; [lia|]; split; [lia|]; split; [reflexivity|]. fin.
  Qed.
  Lemma softmax_sized sp : validate_in_shapes CSoftmaxCE ins = true -> setup_softmax_ce kw ins = SOk sp -> supported (mk CSoftmaxCE sp) = true -> sized CSoftmaxCE sp.
  Proof.
    intros HV HS SU. destruct (in_tb CSoftmaxCE ins HV HI "default") as [fs [_ Hd]]; [reflexivity|]. destruct (in_tb CSoftmaxCE ins HV HI "targets") as [gs [_ He]]; [reflexivity|].
    unfold setup_softmax_ce, in_shape in HS. rewrite Hd, He in HS. cbn [sbind] in HS. rewrite !features_tb in HS. check HS E1. check HS E2. check HS E3. step HS outs Eo. step HS si Ei. injection HS as <-. inv_build Eo.
    unfold supported, mk, PassShapesLayers.mk, one_dim, dims, nf in SU. lists. rewrite Hd in SU. rewrite fdims_tb, nfeat_tb, map_length in SU.
    apply andb_true_iff in SU. destruct SU as [S1 S2]. apply Nat.eqb_eq in S1. apply negb_true_iff, Nat.eqb_neq in S2. apply Nat.eqb_eq in E1. apply Z.eqb_eq in E3.
    destruct fs as [|z [|]]; try discriminate. destruct gs as [|y [|]]; try discriminate. cbn [last] in E3. subst y.
    start. names. sizes_simpl. rewrite np1 in S2. change (Z.to_nat 1) with 1. split; [replace (S (Z.to_nat z - 1)) with (Z.to_nat z) by lia; lia|]. split; [lia|]. split; [lia|]; split; [reflexivity|]. fin.
  Qed.
  Lemma mask_sized sp : validate_in_shapes CMask ins = true -> setup_mask kw ins = SOk sp -> sized CMask sp.
  Proof.
    intros HV HS. destruct (in_tb CMask ins HV HI "default") as [fs [_ Hd]]; [reflexivity|]. destruct (in_tb CMask ins HV HI "mask") as [gs [_ He]]; [reflexivity|].
    unfold setup_mask, in_shape in HS. rewrite Hd, He in HS. cbn [sbind] in HS. cbv zeta in HS.
    assert (E : sp_out sp = [("default", tb fs 0 false)] /\ sp_params sp = []).
    { destruct (zs_eqb _ [1%Z]); [injection HS as <-; auto|]. destruct (_ || _)%bool; [injection HS as <-; auto|discriminate]. }
    destruct E as [E1 E2]. unfold sized, mk, PassShapesLayers.mk, kind_of; cbv zeta; intros tg tm. lists. rewrite E1, E2.
    cbn [in_names out_names loss_names par_names n_in n_out n_par]. names. sizes_simpl. split; [lia|]; split; [lia|]; split; [lia|]; split; [reflexivity|]. fin.
  Qed.
  Lemma batch_norm_sized sp : validate_in_shapes CBatchNorm ins = true -> setup_batch_norm kw ins = SOk sp -> supported (mk CBatchNorm sp) = true -> sized CBatchNorm sp.
  Proof.
    intros HV HS SU. destruct (in_tb CBatchNorm ins HV HI "default") as [fs [_ Hd]]; [reflexivity|].
    unfold setup_batch_norm in HS. cbv zeta in HS. destruct (as_number (kget "decay" (KNum (9 # 10)) kw)) as [d|] eqn:Edecay; [|discriminate].
    check HS E1. unfold in_shape in HS. rewrite Hd in HS. cbn [sbind] in HS. rewrite features_tb in HS.
    destruct (plain [last fs 0%Z]) as [buf|] eqn:Eb; cbn [sbind] in HS; [|discriminate]. apply plain_ok in Eb. subst buf. injection HS as <-.
    unfold supported, mk, PassShapesLayers.mk, one_dim, dims, nf in SU. lists. rewrite Hd in SU. rewrite fdims_tb, map_length in SU.
    apply andb_true_iff in SU. destruct SU as [SU _]. apply andb_true_iff in SU. destruct SU as [S1 _]. apply Nat.eqb_eq in S1. destruct fs as [|z [|]]; try discriminate. cbn [last] in *.
    start. names. sizes_simpl. split; [lia|]; split; [lia|]; split; [lia|]; split; [reflexivity|]. fin.
  Qed.
  Lemma extent_dim n p k s o : (0 <= n)%Z -> (0 <= p)%Z -> (0 <= k)%Z -> (0 <= s)%Z -> out_extent n p k s = SOk o ->
    Z.to_nat (out_dim (Z.to_nat n) (Z.to_nat p) (Z.to_nat k) (Z.to_nat s)) = Z.to_nat o.
  Proof.
    intros Hn Hp Hk Hs. unfold out_extent. destruct (s =? 0)%Z; [discriminate|]. intros E. assert (o = ((n + 2 * p - k) / s + 1)%Z) by congruence. subst o. unfold out_dim. rewrite !Z2Nat.id by assumption. reflexivity.
  Qed.
  Lemma conv_sized sp : validate_in_shapes CConv ins = true -> setup_conv kw ins = SOk sp -> nonneg (sp_params sp) -> sized CConv sp.
  Proof.
    intros HV HS NP. destruct (in_tb CConv ins HV HI "default") as [fs [_ Hd]]; [reflexivity|]. assert (N1 := nonneg_tb _ _ _ _ _ NI Hd).
    unfold setup_conv in HS. destruct (dget "num_filters" kw) as [nfi|]; [|discriminate]. destruct (dget "kernel_size" kw) as [ks|]; [|discriminate].
    destruct (as_int (kget "padding" (KInt 0) kw)) as [padding|]; [|discriminate].
    check HS E1. apply Z.leb_le in E1. step HS kernel Ek. step HS stride Es. check HS E2. apply andb_true_iff in E2. destruct E2 as [E2 E3]. apply Z.leb_le in E2. apply Z.leb_le in E3.
    unfold in_shape in HS. rewrite Hd in HS. cbn [sbind] in HS. rewrite features_tb in HS.
    destruct fs as [|rows [|cols [|maps [|]]]]; try discriminate HS. step HS oh Eh. step HS ow Ew. step HS outs Eo. step HS params Ep. injection HS as <-.
    destruct (build_cons _ _ _ _ Eo) as [bo [r [Ebo [Er ->]]]]. injection Er as <-. apply new_structure_ok in Ebo. destruct Ebo as [-> Vo].
    assert (Hnf : exists f, kdim nfi = DInt f) by (destruct (kdim nfi) as [| | | |f|]; try (cbv in Vo; discriminate); now exists f).
    destruct Hnf as [f Hf]. rewrite Hf in *. inv_build Ep.
    change (SetupModel.mkB [DT; DB; DInt oh; DInt ow; DInt f] 0 false) with (tb [oh; ow; f] 0 false) in *.
    change (SetupModel.mkB [DInt f; DInt (fst kernel); DInt (snd kernel); DInt maps] 0 false) with (pl [f; fst kernel; snd kernel; maps]) in *.
    change (SetupModel.mkB [DInt f] 0 false) with (pl [f]) in *.
    assert (K1 : (0 <= fst kernel)%Z) by (apply (NP "W" (pl [f; fst kernel; snd kernel; maps])); cbn; tauto).
    assert (K2 : (0 <= snd kernel)%Z) by (apply (NP "W" (pl [f; fst kernel; snd kernel; maps])); cbn; tauto).
    inversion N1 as [|? ? Q1 N2]. inversion N2 as [|? ? Q2 N3]. subst. clear N1 N2 N3.
    start. unfold g_oh, g_ow, g_cells, g_kernel, geometry_of, height_col, width_col, num_kernel_params. lists. names. sizes_simpl. cbn [map nth g_h g_w g_c g_kh g_kw g_pad g_sh g_sw last].
    rewrite (extent_dim _ _ _ _ _ Q1 E1 K1 E2 Eh), (extent_dim _ _ _ _ _ Q2 E1 K2 E3 Ew). unfold np. cbn [map fold_right].
    split; [lia|]. split; [lia|]. split; [lia|]. split; [reflexivity|]. fin.
  Qed.
  Lemma pool_sized sp : validate_in_shapes CPool ins = true -> setup_pool kw ins = SOk sp -> supported (mk CPool sp) = true -> sized CPool sp.
  Proof.
    intros HV HS SU. destruct (in_tb CPool ins HV HI "default") as [fs [_ Hd]]; [reflexivity|]. assert (N1 := nonneg_tb _ _ _ _ _ NI Hd).
    unfold setup_pool in HS. destruct (dget "kernel_size" kw) as [ks|]; [|discriminate]. destruct (dget "type" kw) as [ty|]; [|discriminate]. step HS ismax Et.
    destruct (as_int (kget "padding" (KInt 0) kw)) as [padding|]; [|discriminate].
    check HS E1. apply Z.leb_le in E1. step HS kernel Ek. step HS stride Es. check HS E2. apply andb_true_iff in E2. destruct E2 as [E2 E3]. apply Z.leb_le in E2. apply Z.leb_le in E3.
    unfold in_shape in HS. rewrite Hd in HS. cbn [sbind] in HS. rewrite features_tb in HS.
    destruct fs as [|rows [|cols [|maps [|]]]]; try discriminate HS. step HS oh Eh. step HS ow Ew. check HS E4. step HS outs Eo. step HS si Ei. injection HS as <-. inv_build Eo.
    unfold supported, mk, PassShapesLayers.mk in SU. lists. apply andb_true_iff in SU. destruct SU as [K1 K2]. apply Z.leb_le in K1. apply Z.leb_le in K2.
    inversion N1 as [|? ? Q1 N2]. inversion N2 as [|? ? Q2 N3]. subst. clear N1 N2 N3.
    start. destruct ismax; cbn [n_in n_out n_par]; unfold g_oh, g_ow, g_cells, geometry_of, height_col, width_col; lists; names; sizes_simpl; cbn [map nth g_h g_w g_c g_kh g_kw g_pad g_sh g_sw];
      rewrite (extent_dim _ _ _ _ _ Q1 E1 K1 E2 Eh), (extent_dim _ _ _ _ _ Q2 E1 K2 E3 Ew); unfold np; cbn [map fold_right];
      (split; [lia|]; split; [lia|]; split; [lia|]; split; [reflexivity|]; fin).
  Qed.
  Lemma one_dim_shape b : valid b -> length (fdims b) = 1 -> exists k z, bs_shape b = prefix k ++ [DInt z].
  Proof.
    intros V L. destruct (valid_parts b V) as [k [f [E _]]]. exists k. unfold fdims in L. rewrite E, flat_map_app, app_length in L.
    unfold ints in *. rewrite fdims_ints, map_length in L. replace (length (flat_map _ (prefix k))) with 0 in L by (destruct k; reflexivity).
    destruct f as [|z [|]]; try discriminate. now exists z.
  Qed.
  Lemma prefix_size k z T0 B0 : let b c w := SetupModel.mkB (prefix k ++ [DInt z]) c w in forall c w,
    nlead (b c w) T0 B0 = fold_right Nat.mul 1 (map (fun d => match d with DT => T0 | DB => B0 | _ => 1 end) (prefix k)) /\ nfeatures (b c w) = Z.to_nat z.
  Proof. intros b c w. unfold b, nlead, nfeatures. cbn [bs_shape]. destruct k; cbn; lia. Qed.
  Lemma merge_sized sp : validate_in_shapes CMerge ins = true -> setup_merge kw ins = SOk sp -> supported (mk CMerge sp) = true -> sized CMerge sp.
  Proof.
    intros HV HS SU.
    destruct (in_exists CMerge ins HV "inputs_1" any_shape eq_refl) as [a Ha]. destruct (in_exists CMerge ins HV "inputs_2" any_shape eq_refl) as [b Hb].
    unfold setup_merge, in_shape in HS. rewrite Ha, Hb in HS. cbn [sbind] in HS. check HS E1. apply dims_eqb_eq in E1.
    assert (Ia := HI _ _ (dget_In _ _ _ Ha)). assert (Ib := HI _ _ (dget_In _ _ _ Hb)).
    unfold supported, mk, PassShapesLayers.mk, one_dim, dims in SU. lists. rewrite Ha, Hb in SU. apply andb_true_iff in SU. destruct SU as [S1 S2]. apply Nat.eqb_eq in S1. apply Nat.eqb_eq in S2.
    destruct (one_dim_shape a (proj1 Ia) S1) as [k [p Ea]]. destruct (one_dim_shape b (proj1 Ib) S2) as [k' [q Eb]].
    assert (Pp : (0 <= p)%Z) by (apply (NI _ _ p (dget_In _ _ _ Ha)); rewrite Ea; apply in_or_app; right; now left).
    assert (Pq : (0 <= q)%Z) by (apply (NI _ _ q (dget_In _ _ _ Hb)); rewrite Eb; apply in_or_app; right; now left).
    rewrite Ea, Eb, !last_last, !removelast_last in *. cbn [dim_value] in HS.
    destruct a as [sa ca wa]. destruct b as [sb cb wb]. cbn [bs_shape] in Ea, Eb. subst sa sb.
    destruct (prefix_size k p (S T) B ca wa) as [A1 A2]. destruct (prefix_size k' q (S T) B cb wb) as [B1 B2]. rewrite <- E1 in B1, B2, Hb.
    step HS outs Eo. injection HS as <-. inv_build Eo.
    destruct (prefix_size k (p + q) (S T) B 0%Z false) as [C1 C2].
    start. names. sizes_simpl. rewrite A1, A2, B1, B2, C1, C2. rewrite Z2Nat.inj_add by assumption.
    split; [lia|]. split; [lia|]. split; [lia|]. split; [reflexivity|]. fin.
  Qed.
  Lemma all_sized c sp : validate_in_shapes c ins = true -> setup c name kw ins = SOk sp -> nonneg (sp_out sp) -> nonneg (sp_params sp) ->
    supported (mk c sp) = true -> sized c sp.
  Proof.
    intros HV HS NO NP SU. destruct c; cbn [setup] in HS; try discriminate SU.
    - now apply batch_norm_sized.
    - now apply binomial_sized.
    - now apply (recurrent_sized true).
    - now apply (lstm_sized true).
    - now apply conv_sized.
    - now apply dropout_sized.
    - apply copying_sized; auto.
    - now apply fc_sized.
    - now apply highway_sized.
    - now apply (decay_sized false).
    - now apply (decay_sized true).
    - now apply loss_sized.
    - now apply (lstm_sized false).
    - now apply mask_sized.
    - now apply merge_sized.
    - apply copying_sized; auto.
    - now apply pool_sized.
    - now apply (recurrent_sized false).
    - apply target_sized; auto.
    - now apply softmax_sized.
    - now apply sqdiff_sized.
    - apply target_sized; auto.
  Qed.
  Lemma input_bwd sp : setup_input kw ins = SOk sp -> forall n b, In (n, b) (sp_out sp) -> bs_bwd b = false.
  Proof.
    unfold setup_input. destruct (dget "out_shapes" kw) as [v|]; [|discriminate]. intros HS. check HS E. destruct v as [| | | |d|]; try discriminate HS.
    step HS outs Eo. injection HS as <-. cbn [sp_out]. revert outs Eo. induction d as [|[n v] d IH]; intros outs Eo m b Hb; cbn [map build fst snd] in Eo.
    - injection Eo as <-. destruct Hb.
    - destruct (structure_of_kval v) as [x|] eqn:Ex; cbn [sbind] in Eo; [|discriminate]. destruct (build _) as [bs|] eqn:Eb; cbn [sbind] in Eo; [|discriminate]. injection Eo as <-.
      destruct Hb as [Hb|Hb]; [|now apply (IH bs eq_refl m b)]. injection Hb as <- <-. destruct v; cbn in Ex; try discriminate. apply new_structure_ok in Ex. destruct Ex as [-> _]. reflexivity.
  Qed.
End Sizes.

(** The layers of a network *)
Lemma net_sized a layers l e T B : instantiate a = SOk layers -> nonnegative layers -> In l layers -> supported l = true ->
  forall tg tm, let k := kind_of e T B l tg tm in let c := li_cls l in
  total (S T) B (li_in l) (in_names c) = n_in k /\ total (S T) B (li_out l) (out_names c) = n_out k /\
  total (S T) B (li_params l) (par_names l) = n_par k /\ total (S T) B (li_out l) (loss_names c) = length (loss_names c) /\
  (forall n, In n (out_names c ++ loss_names c) -> In n (map fst (li_out l))) /\
  (forall n b, In (n, b) (li_out l) -> bs_bwd b = false) /\ (forall n b, In (n, b) (li_params l) -> bs_bwd b = false).
Proof.
  intros HI HZ Hl SU. apply instantiate_made in HI. destruct HI as [cns [order [_ [_ [_ [_ M]]]]]]. assert (Ml := M l Hl).
  destruct (made_input_like _ _ _ _ Ml) as [c [ins [inc [outg [kw [Hm IL]]]]]]. apply make_layer_inv in Hm. destruct Hm as [HV [sp [HS El]]].
  assert (IL' : forall n b, In (n, b) (isort (fun a b : string * bstruct => String.leb (fst a) (fst b)) ins) -> input_like b) by (intros n b Hn; eapply IL; eapply isort_In; exact Hn).
  set (ins' := isort _ ins) in *. intros tg tm k c'.
  assert (Z1 : nonneg ins') by (intros x b z Hx Hz; apply (HZ l "inputs" x b z Hl); [rewrite El; exact Hx|exact Hz]).
  assert (Z2 : nonneg (sp_out sp)) by (intros x b z Hx Hz; apply (HZ l "outputs" x b z Hl); [rewrite El; exact Hx|exact Hz]).
  assert (Z3 : nonneg (sp_params sp)) by (intros x b z Hx Hz; apply (HZ l "parameters" x b z Hl); [rewrite El; exact Hx|exact Hz]).
  assert (E : l = PassShapesLayers.mk (li_name l) ins' inc outg c sp) by exact El.
  assert (X := all_sized (li_name l) kw ins' inc outg IL' Z1 e T B c sp HV HS Z2 Z3).
  subst k c'. rewrite E in SU. specialize (X SU tg tm). cbv zeta in X. rewrite <- E in X.
  assert (Ec : li_cls l = c) by (rewrite El; reflexivity). rewrite Ec. exact X.
Qed.
Lemma net_bwd a layers l : instantiate a = SOk layers -> nonnegative layers -> In l layers -> supported l = true \/ li_cls l = CInput ->
  forall n b, In (n, b) (li_out l) -> bs_bwd b = false.
Proof.
  intros HI HZ Hl [SU|Ci]; [apply (net_sized a layers l (mkEnv (fun _ => zeros) (fun _ => zeros) 0%Z (none 0)) 0 0 HI HZ Hl SU none none)|].
  apply instantiate_made in HI. destruct HI as [cns [order [_ [_ [_ [_ M]]]]]].
  destruct (made_input_like _ _ _ _ (M l Hl)) as [c [ins [inc [outg [kw [Hm IL]]]]]]. apply make_layer_inv in Hm. destruct Hm as [HV [sp [HS El]]].
  assert (Ec : li_cls l = c) by (rewrite El; reflexivity). rewrite Ci in Ec. subst c. rewrite El. cbn [li_out]. exact (input_bwd kw _ sp HS).
Qed.
