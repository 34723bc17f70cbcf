(** The parameters and inputs of the layers by name, with their sizes. *)
From Coq Require Import String Ascii List ZArith QArith Bool Lia.
From Verif Require Import HubModel LayoutModel BuffersModel BuffersProofs.
From Verif Require Import PyBase PyFacts UtilsModel NamesModel ArchModel ShapesModel ShapesProofs SetupModel PassShapesModel SetupProofs PassShapesProofs PassShapesLayers SetupProps InstanceProofs InstanceProps NetLayoutProofs NetLayoutProps CellsProofs.
From Verif Require Import NumBase NetworkModel NetLayersModel ConvModel NetMemoryModel NetSizesProofs.
Import ListNotations.
Open Scope string_scope.
Open Scope list_scope.
Open Scope nat_scope.

(** Parameters with gradients in the order of the setup functions *)
Definition par_parts (l : linst) : list (string * nat) :=
  let x := nf (li_in l) "default" in
  let y := nf (li_out l) "default" in
  let f := last (dims (li_out l) "default") 0 in
  match li_cls l with
  | CFullyConnected => [("W", y * x); ("bias", y)]
  | CRecurrent | CClockwork => [("W", y * x); ("R", y * y); ("bias", y)]
  | CLstm | CClockworkLstm =>
      [("Wz", y * x); ("Wi", y * x); ("Wf", y * x); ("Wo", y * x); ("pi", y); ("pf", y); ("po", y);
       ("Rz", y * y); ("Ri", y * y); ("Rf", y * y); ("Ro", y * y); ("bz", y); ("bi", y); ("bf", y); ("bo", y)]
  | CBatchNorm => [("gamma", x); ("beta", x)]
  | CConv => [("W", f * g_kernel (geometry_of l)); ("bias", f)]
  | _ => []
  end.
Definition in_parts (T B : nat) (l : linst) : list (string * nat) :=
  match li_cls l with
  | CHighway => let n := S T * B * nf (li_in l) "x" in [("H", n); ("T", n); ("x", n)]
  | CMerge => let r := lead (li_in l) "inputs_1" (S T) B in [("inputs_1", r * nf (li_in l) "inputs_1"); ("inputs_2", r * nf (li_in l) "inputs_2")]
  | CSquaredDifference => let n := S T * B * nf (li_in l) "inputs_1" in [("inputs_1", n); ("inputs_2", n)]
  | _ => []
  end.

Section Parts.
  Variable name : string.
  Variable kw : kwargs.
  Variable ins : list (string * bstruct).
  Variables inc outg : list connection.
  Hypothesis HI : forall n b, In (n, b) ins -> input_like b.
  Hypothesis NI : nonneg ins.
  Variables (T B : nat).
  Let mk := mk name ins inc outg.

  Definition parted (c : cls) (sp : spec) : Prop :=
    let l := mk c sp in
    par_names l = map fst (par_parts l) /\ Forall (fun e => sz (S T) B (li_params l) (fst e) = snd e) (par_parts l).
  Definition fed (c : cls) (sp : spec) : Prop := let l := mk c sp in Forall (fun e => sz (S T) B (li_in l) (fst e) = snd e) (in_parts T B l).

  Ltac names := unfold par_names; lists; cbn [map fst filter negb smem existsb orb String.eqb Ascii.eqb Bool.eqb].
  Ltac parts := unfold parted, mk, PassShapesLayers.mk, par_parts; cbv zeta; lists; (split; [names; reflexivity|]);
    repeat apply Forall_cons; try apply Forall_nil; cbn [fst snd]; sizes_simpl.

  Lemma fc_parted sp : validate_in_shapes CFullyConnected ins = true -> setup_fully_connected kw ins = SOk sp -> nonneg (sp_out sp) -> parted CFullyConnected sp.
  Proof.
    intros HV HS NO.
    destruct (in_tb CFullyConnected ins HV HI "default") as [fs [Hne Hd]]; [reflexivity|].
    unfold setup_fully_connected, in_shape in HS. rewrite Hd in HS. cbn [sbind] in HS.
    match type of HS with (match ?x with _ => _ end) = _ => destruct x as [ds|]; [|discriminate] end.
    destruct (timed ds 0 false) as [out|] eqn:Eout; cbn [sbind] in HS; [|discriminate].
    apply timed_ok in Eout. subst out. step HS params Ep. injection HS as <-. inv_build Ep.
    assert (N1 := nonneg_tb _ _ _ _ _ NI Hd). assert (N2 := nonneg_tb _ "default" _ _ _ NO eq_refl).
    parts; rewrite !fsize_np by assumption; lia.
  Qed.
  Lemma recurrent_parted timing sp : let c := if timing : bool then CClockwork else CRecurrent in
    validate_in_shapes c ins = true -> setup_recurrent timing kw ins = SOk sp -> parted c sp.
  Proof.
    intros c HV HS.
    destruct (in_tb c ins HV HI "default") as [fs [Hne Hd]]; [destruct timing; reflexivity|].
    assert (N1 := nonneg_tb _ _ _ _ _ NI Hd).
    unfold setup_recurrent, in_shape in HS. rewrite Hd in HS. cbn [sbind] in HS.
    match type of HS with (match ?x with _ => _ end) = _ => destruct x as [size|]; [|discriminate] end.
    step HS outs Eo. step HS params Ep. step HS si Ei. injection HS as <-. inv_build Eo.
    destruct timing; subst c; cbv iota in *; cbn [app] in Ep; inv_build Ep; parts; rewrite ?fsize_np by assumption; lia.
  Qed.
  Lemma lstm_parted timing sp : let c := if timing : bool then CClockworkLstm else CLstm in
    validate_in_shapes c ins = true -> setup_lstm timing kw ins = SOk sp -> parted c sp.
  Proof.
    intros c HV HS.
    destruct (in_tb c ins HV HI "default") as [fs [Hne Hd]]; [destruct timing; reflexivity|].
    assert (N1 := nonneg_tb _ _ _ _ _ NI Hd).
    unfold setup_lstm, in_shape in HS. rewrite Hd in HS. cbn [sbind] in HS.
    match type of HS with (match ?x with _ => _ end) = _ => destruct x as [size|]; [|discriminate] end.
    step HS outs Eo. step HS params Ep. step HS si Ei. injection HS as <-. inv_build Eo.
    destruct timing; subst c; cbv iota in *; cbn [app same_for map] in Ep; inv_build Ep; parts; rewrite ?fsize_np by assumption; change (Z.to_nat 1) with 1; lia.
  Qed.
  Lemma batch_norm_parted sp : validate_in_shapes CBatchNorm ins = true -> setup_batch_norm kw ins = SOk sp -> supported (mk CBatchNorm sp) = true -> parted CBatchNorm sp.
  Proof.
    intros HV HS SU. destruct (in_tb CBatchNorm ins HV HI "default") as [fs [_ Hd]]; [reflexivity|].
    unfold setup_batch_norm in HS. cbv zeta in HS. destruct (as_number (kget "decay" (KNum (9 # 10)) kw)) as [d|] eqn:Edecay; [|discriminate].
    check HS E1. unfold in_shape in HS. rewrite Hd in HS. cbn [sbind] in HS. rewrite features_tb in HS.
    destruct (plain [last fs 0%Z]) as [buf|] eqn:Eb; cbn [sbind] in HS; [|discriminate]. apply plain_ok in Eb. subst buf. injection HS as <-.
    unfold supported, mk, PassShapesLayers.mk, one_dim, dims, nf in SU. lists. rewrite Hd in SU. rewrite fdims_tb, map_length in SU.
    apply andb_true_iff in SU. destruct SU as [SU _]. apply andb_true_iff in SU. destruct SU as [S1 _]. apply Nat.eqb_eq in S1. destruct fs as [|z [|]]; try discriminate. cbn [last] in *.
    parts; lia.
  Qed.
  Lemma conv_parted sp : validate_in_shapes CConv ins = true -> setup_conv kw ins = SOk sp -> parted CConv sp.
  Proof.
    intros HV HS. destruct (in_tb CConv ins HV HI "default") as [fs [_ Hd]]; [reflexivity|].
    unfold setup_conv in HS. destruct (dget "num_filters" kw) as [nfi|]; [|discriminate]. destruct (dget "kernel_size" kw) as [ks|]; [|discriminate].
    destruct (as_int (kget "padding" (KInt 0) kw)) as [padding|]; [|discriminate].
    check HS E1. step HS kernel Ek. step HS stride Es. check HS E2.
    unfold in_shape in HS. rewrite Hd in HS. cbn [sbind] in HS. rewrite features_tb in HS.
    destruct fs as [|rows [|cols [|maps [|]]]]; try discriminate HS. step HS oh Eh. step HS ow Ew. step HS outs Eo. step HS params Ep. injection HS as <-.
    destruct (build_cons _ _ _ _ Eo) as [bo [r [Ebo [Er ->]]]]. injection Er as <-. apply new_structure_ok in Ebo. destruct Ebo as [-> Vo].
    assert (Hnf : exists f, kdim nfi = DInt f) by (destruct (kdim nfi) as [| | | |f|]; try (cbv in Vo; discriminate); now exists f).
    destruct Hnf as [f Hf]. rewrite Hf in *. inv_build Ep.
    change (SetupModel.mkB [DT; DB; DInt oh; DInt ow; DInt f] 0 false) with (tb [oh; ow; f] 0 false) in *.
    change (SetupModel.mkB [DInt f; DInt (fst kernel); DInt (snd kernel); DInt maps] 0 false) with (pl [f; fst kernel; snd kernel; maps]) in *.
    change (SetupModel.mkB [DInt f] 0 false) with (pl [f]) in *.
    parts; unfold g_kernel, geometry_of, num_kernel_params; lists; sizes_simpl; cbn [map nth g_h g_w g_c g_kh g_kw g_pad g_sh g_sw last]; unfold np; cbn [map fold_right]; lia.
  Qed.
  Lemma highway_fed sp : validate_in_shapes CHighway ins = true -> setup_highway kw ins = SOk sp -> fed CHighway sp.
  Proof.
    intros HV HS. destruct (in_tb CHighway ins HV HI "H") as [fs [_ Hd]]; [reflexivity|]. destruct (in_tb CHighway ins HV HI "T") as [gs [_ He]]; [reflexivity|]. destruct (in_tb CHighway ins HV HI "x") as [hs [_ Hf]]; [reflexivity|].
    unfold setup_highway, in_shape in HS. rewrite Hd, He, Hf in HS. cbn [sbind] in HS. check HS E1. check HS E2. apply bs_eqb_tb in E1. apply bs_eqb_tb in E2. subst gs hs.
    unfold fed, mk, PassShapesLayers.mk, in_parts. cbv zeta. lists. repeat apply Forall_cons; try apply Forall_nil; cbn [fst snd]; sizes_simpl; lia.
  Qed.
  Lemma sqdiff_fed sp : validate_in_shapes CSquaredDifference ins = true -> setup_squared_difference kw ins = SOk sp -> fed CSquaredDifference sp.
  Proof.
    intros HV HS. destruct (in_tb CSquaredDifference ins HV HI "inputs_1") as [fs [_ Hd]]; [reflexivity|]. destruct (in_tb CSquaredDifference ins HV HI "inputs_2") as [gs [_ He]]; [reflexivity|].
    unfold setup_squared_difference, in_shape in HS. rewrite Hd, He in HS. cbn [sbind] in HS. rewrite !features_tb in HS. check HS E1. apply zs_eqb_eq in E1. subst gs.
    unfold fed, mk, PassShapesLayers.mk, in_parts. cbv zeta. lists. repeat apply Forall_cons; try apply Forall_nil; cbn [fst snd]; sizes_simpl; lia.
  Qed.
  Lemma merge_fed sp : validate_in_shapes CMerge ins = true -> setup_merge kw ins = SOk sp -> supported (mk CMerge sp) = true -> fed CMerge sp.
  Proof.
    intros HV HS SU.
    destruct (in_exists CMerge ins HV "inputs_1" any_shape eq_refl) as [a Ha]. destruct (in_exists CMerge ins HV "inputs_2" any_shape eq_refl) as [b Hb].
    unfold setup_merge, in_shape in HS. rewrite Ha, Hb in HS. cbn [sbind] in HS. check HS E1. apply dims_eqb_eq in E1.
    assert (Ia := HI _ _ (dget_In _ _ _ Ha)). assert (Ib := HI _ _ (dget_In _ _ _ Hb)).
    unfold supported, mk, PassShapesLayers.mk, one_dim, dims in SU. lists. rewrite Ha, Hb in SU. apply andb_true_iff in SU. destruct SU as [S1 S2]. apply Nat.eqb_eq in S1. apply Nat.eqb_eq in S2.
    destruct (one_dim_shape a (proj1 Ia) S1) as [k [p Ea]]. destruct (one_dim_shape b (proj1 Ib) S2) as [k' [q Eb]].
    rewrite Ea, Eb, !removelast_last in E1.
    destruct a as [sa ca wa]. destruct b as [sb cb wb]. cbn [bs_shape] in Ea, Eb. subst sa sb.
    destruct (prefix_size k p (S T) B ca wa) as [A1 A2]. destruct (prefix_size k' q (S T) B cb wb) as [B1 B2]. rewrite <- E1 in B1, B2, Hb.
    unfold fed, mk, PassShapesLayers.mk, in_parts. cbv zeta. lists. repeat apply Forall_cons; try apply Forall_nil; cbn [fst snd]; sizes_simpl; rewrite ?A1, ?A2, ?B1, ?B2; lia.
  Qed.
End Parts.

(** The layers of a network *)
Lemma net_parts a layers l T B : instantiate a = SOk layers -> nonnegative layers -> In l layers -> supported l = true ->
  (par_parts l <> [] -> par_names l = map fst (par_parts l)) /\ Forall (fun e => sz (S T) B (li_params l) (fst e) = snd e) (par_parts l) /\
  Forall (fun e => sz (S T) B (li_in l) (fst e) = snd e) (in_parts T B l).
Proof.
  intros HI HZ Hl SU. apply instantiate_made in HI. destruct HI as [cns [order [_ [_ [_ [_ M]]]]]]. assert (Ml := M l Hl).
  destruct (made_input_like _ _ _ _ Ml) as [c [ins [inc [outg [kw [Hm IL]]]]]]. apply make_layer_inv in Hm. destruct Hm as [HV [sp [HS El]]].
  assert (IL' : forall n b, In (n, b) (isort (fun a b : string * bstruct => String.leb (fst a) (fst b)) ins) -> input_like b) by (intros n b Hn; eapply IL; eapply isort_In; exact Hn).
  set (ins' := isort _ ins) in *.
  assert (Z1 : nonneg ins') by (intros x b z Hx Hz; apply (HZ l "inputs" x b z Hl); [rewrite El; exact Hx|exact Hz]).
  assert (Z2 : nonneg (sp_out sp)) by (intros x b z Hx Hz; apply (HZ l "outputs" x b z Hl); [rewrite El; exact Hx|exact Hz]).
  assert (E : l = PassShapesLayers.mk (li_name l) ins' inc outg c sp) by exact El.
  set (nm := li_name l) in *. clearbody nm. clear El Hl Ml M HZ. subst l.
  assert (P : match c with CFullyConnected | CRecurrent | CClockwork | CLstm | CClockworkLstm | CBatchNorm | CConv => parted nm ins' inc outg T B c sp | _ => True end).
  { destruct c; try exact I; cbn [setup] in HS.
    - apply (batch_norm_parted nm kw); assumption.
    - apply (recurrent_parted nm kw ins' inc outg IL' Z1 T B true sp); assumption.
    - apply (lstm_parted nm kw ins' inc outg IL' Z1 T B true sp); assumption.
    - apply (conv_parted nm kw); assumption.
    - apply (fc_parted nm kw); assumption.
    - apply (lstm_parted nm kw ins' inc outg IL' Z1 T B false sp); assumption.
    - apply (recurrent_parted nm kw ins' inc outg IL' Z1 T B false sp); assumption. }
  assert (F : match c with CHighway | CMerge | CSquaredDifference => fed nm ins' inc outg T B c sp | _ => True end).
  { destruct c; try exact I; cbn [setup] in HS.
    - apply (highway_fed nm kw); assumption.
    - apply (merge_fed nm kw); assumption.
    - apply (sqdiff_fed nm kw); assumption. }
  split; [|split].
  - intros Hne. destruct c; try (elim Hne; reflexivity); apply P.
  - destruct c; try (apply Forall_nil); apply P.
  - destruct c; try (apply Forall_nil); apply F.
Qed.
