(** The passes of every layer class only use arrays of fitting shapes. *)
From Coq Require Import String List ZArith QArith Bool Lia Lqa Permutation.
From Verif Require Import PyBase PyFacts UtilsModel NamesModel ArchModel ShapesModel SetupModel PassShapesModel SetupProofs PassShapesProofs.
Import ListNotations.
Open Scope string_scope.
Open Scope list_scope.
Open Scope nat_scope.

Ltac lists := cbn [li_cls li_name li_in li_out li_params li_int li_cfg li_incoming li_outgoing sp_out sp_params sp_int sp_cfg
                   cf_act cf_scalar cf_epsilon cf_kernel cf_padding cf_stride cf_max cf_flatten act_cfg scalar_cfg no_cfg] in *.
(** the shape of a buffer of a given layer, by computation *)
Ltac buffers :=
  unfold access, find_shape, inp, outp, par, int, sh, find_shape, lstm_forward_names, lstm_backward_names; lists;
  cbn [dget String.eqb Ascii.eqb Bool.eqb app same_for map];
  repeat match goal with H : dget ?n ?d = Some _ |- context [dget ?n ?d] => rewrite H end;
  cbn [option_map]; rewrite ?bshape_tb, ?bshape_pl; rewrite ?Nat.add_0_r; unfold nats; cbn [map].
Ltac ctx0 := change (Z.to_nat 0) with 0; change (Z.to_nat 1) with 1; rewrite ?Nat.add_0_r, ?Nat.add_1_r.

(** the next step of a setup function: [x] is its result *)
Ltac step H x E :=
  match type of H with
  | sbind ?r _ = SOk _ => destruct r as [x|] eqn:E; cbn [sbind] in H; [|discriminate H]
  end.
(** a guard: the condition holds *)
Ltac check H E :=
  unfold guard in H;
  match type of H with
  | sbind (if ?b then _ else _) _ = SOk _ => destruct b eqn:E; cbn [sbind] in H; [|discriminate H]
  end.

(** No operation of the passes raises. *)
Definition good (l : linst) (T B : nat) (training : bool) : Prop :=
  Forall call_ok (forward_calls l T B training) /\ Forall call_ok (backward_calls l T B).

Lemma length_fs (fs : list Z) : fs <> [] -> 1 <= length (nats fs).
Proof. destruct fs; [congruence|]. cbn. lia. Qed.

Lemma size_one z c w : Z.to_nat (fsize (tb [z] c w)) = Z.to_nat z.
Proof. unfold fsize. rewrite features_tb. cbn [fold_right]. now rewrite Z.mul_1_r. Qed.

Section Layer.
  Variable name : string.
  Variable kw : kwargs.
  Variable ins : list (string * bstruct).
  Variables inc outg : list connection.
  Hypothesis HI : forall n b, In (n, b) ins -> input_like b.
  Variables T B : nat.
  Variable training : bool.

  Definition mk (c : cls) (sp : spec) : linst :=
    mkInst c name ins (sp_out sp) (sp_params sp) (sp_int sp) (sp_cfg sp) inc outg.

  Lemma pos_in c sp n fs : positive (mk c sp) -> dget n ins = Some (tb fs 0 false) -> Forall (fun z => 0 < z)%Z fs.
  Proof.
    intros [H1 _] H. rewrite <- (features_tb fs 0 false). eapply H1. eapply dget_In. exact H.
  Qed.

  Lemma fsize_prod fs : Forall (fun z => 0 < z)%Z fs -> Z.to_nat (fsize (tb fs 0 false)) = prod (nats fs).
  Proof. intros H. unfold fsize. rewrite features_tb. now apply nats_prod. Qed.

  Lemma recurrent_good timing sp : let c := if timing : bool then CClockwork else CRecurrent in
    validate_in_shapes c ins = true -> setup_recurrent timing kw ins = SOk sp ->
    positive (mk c sp) -> usable (mk c sp) -> good (mk c sp) (S T) (S B) training.
  Proof.
    intros c HV HS HP HU. unfold setup_recurrent in HS.
    destruct (in_tb c ins HV HI "default") as [fs [Hne Hd]]; [destruct timing; reflexivity|].
    assert (Hprod := fsize_prod fs (pos_in _ _ _ _ HP Hd)).
    unfold in_shape in HS. rewrite Hd in HS. cbn [sbind] in HS.
    destruct (as_int _) as [size|] eqn:Esize; [|discriminate].
    step HS outs Eo. step HS params Ep. step HS ints Ei. injection HS as HS.
    inv_build Eo. inv_build Ei.
    assert (Epar : params = [("W", pl [size; fsize (tb fs 0 false)]); ("R", pl [size; size]); ("bias", pl [size])]
                        ++ if timing then [("timing", pl [size])] else []).
    { destruct timing; cbn [app] in Ep; inv_build Ep; reflexivity. }
    clear Ep. subst params.
    assert (Hact : known_activation (activation (mk c sp))).
    { unfold usable in HU. unfold activation, mk in *. unfold c in *. destruct timing; lists; exact HU. }
    subst sp.
    set (l := mk c _) in *.
    assert (G : forall t, timing = t -> Forall call_ok (fwd_recurrent l (S T) (S B) t) /\ Forall call_ok (bwd_recurrent l (S T) (S B) t)).
    { intros t <-. split;
      [apply (fwd_recurrent_ok l T (S B) (Z.to_nat size) (nats fs)) | apply (bwd_recurrent_ok l T (S B) (Z.to_nat size) (nats fs))];
      try exact Hact; try (now apply length_fs); unfold l, mk, PassShapesModel.size; buffers; ctx0; try reflexivity;
      try (rewrite Hprod; reflexivity); try (destruct timing; reflexivity); try apply size_one.
      all: intros ->; buffers; reflexivity. }
    unfold good, forward_calls, backward_calls. unfold l at 1 3. unfold mk, c. lists.
    destruct timing; apply G; reflexivity.
  Qed.

  Lemma lstm_good timing sp : let c := if timing : bool then CClockworkLstm else CLstm in
    validate_in_shapes c ins = true -> setup_lstm timing kw ins = SOk sp ->
    positive (mk c sp) -> usable (mk c sp) -> good (mk c sp) (S T) (S B) training.
  Proof.
    intros c HV HS HP HU. unfold setup_lstm in HS.
    destruct (in_tb c ins HV HI "default") as [fs [Hne Hd]]; [destruct timing; reflexivity|].
    assert (Hprod := fsize_prod fs (pos_in _ _ _ _ HP Hd)).
    unfold in_shape in HS. rewrite Hd in HS. cbn [sbind] in HS.
    destruct (as_int _) as [size|] eqn:Esize; [|discriminate].
    step HS outs Eo. step HS params Ep. step HS ints Ei. injection HS as HS.
    inv_build Eo. 
    assert (Eint : ints = map (fun n => (n, tb [size] 1 false)) lstm_forward_names
                          ++ map (fun n => (n, tb [size] 1 true)) lstm_backward_names).
    { unfold same_for, lstm_forward_names, lstm_backward_names in Ei. cbn [map app] in Ei. inv_build Ei. reflexivity. }
    clear Ei. subst ints.
    assert (Epar : params = map (fun n => (n, pl [size; fsize (tb fs 0 false)])) ["Wz"; "Wi"; "Wf"; "Wo"] ++
                            map (fun n => (n, pl [1; size]%Z)) ["pi"; "pf"; "po"] ++
                            map (fun n => (n, pl [size; size])) ["Rz"; "Ri"; "Rf"; "Ro"] ++
                            map (fun n => (n, pl [size])) ["bz"; "bi"; "bf"; "bo"]
                            ++ if timing then [("timing", pl [size])] else []).
    { unfold same_for in Ep. destruct timing; cbn [app map] in Ep; inv_build Ep; reflexivity. }
    clear Ep. subst params.
    assert (Hact : known_activation (activation (mk c sp))).
    { unfold usable in HU. unfold activation, mk in *. unfold c in *. destruct timing; lists; exact HU. }
    subst sp.
    set (l := mk c _) in *.
    assert (G : forall t, timing = t -> Forall call_ok (fwd_lstm l (S T) (S B) t) /\ Forall call_ok (bwd_lstm l (S T) (S B) t)).
    { intros t <-. split;
      [apply (fwd_lstm_ok l T (S B) (Z.to_nat size) (nats fs)) | apply (bwd_lstm_ok l T (S B) (Z.to_nat size) (nats fs))];
      try exact Hact; try (now apply length_fs);
      try (intros x Hx; unfold lstm_int_names in Hx; cbn [In] in Hx;
           repeat (destruct Hx as [<-|Hx]; [unfold l, mk; buffers; ctx0; rewrite ?Hprod; reflexivity|]); contradiction);
      unfold l, mk, PassShapesModel.size; buffers; ctx0; try reflexivity;
      try (destruct timing; reflexivity); try apply size_one.
      all: intros ->; buffers; reflexivity. }
    unfold good, forward_calls, backward_calls. unfold l at 1 3. unfold mk, c. lists.
    destruct timing; apply G; reflexivity.
  Qed.

  Ltac start := unfold good, forward_calls, backward_calls, mk; lists.

  Lemma copying_good c sp : c = CDeltasScaling \/ c = CNoOp \/ c = CElementwise ->
    validate_in_shapes c ins = true -> setup c name kw ins = SOk sp ->
    usable (mk c sp) -> good (mk c sp) (S T) (S B) training.
  Proof.
    intros Hc HV HS HU.
    destruct (in_tb c ins HV HI "default") as [fs [Hne Hd]]; [destruct Hc as [->|[->| ->]]; reflexivity|].
    assert (Eo : sp_out sp = ins).
    { destruct Hc as [->|[->| ->]]; cbn in HS.
      - unfold setup_deltas_scaling in HS. destruct (dget "factor" kw); [|discriminate]. now injection HS as <-.
      - now injection HS as <-.
      - now injection HS as <-. }
    unfold usable, mk in HU. destruct Hc as [->|[->| ->]]; start; lists.
    - destruct HU as [q Hq]. unfold fwd_copy, bwd_deltas_scaling, access_default, cfg_number. rewrite Eo. buffers. rewrite Hq.
      split; oks.
    - unfold fwd_copy, bwd_noop, access_default. rewrite Eo. buffers. split; oks.
    - unfold fwd_elementwise, bwd_elementwise, access_default. rewrite Eo. buffers. split; oks.
  Qed.

  Lemma dropout_good sp : validate_in_shapes CDropout ins = true -> setup_dropout kw ins = SOk sp ->
    usable (mk CDropout sp) -> good (mk CDropout sp) (S T) (S B) training.
  Proof.
    intros HV HS HU.
    destruct (in_tb CDropout ins HV HI "default") as [fs [Hne Hd]]; [reflexivity|].
    unfold setup_dropout, in_shape in HS. rewrite Hd in HS. cbn [sbind] in HS. injection HS as <-.
    unfold usable, mk in HU. lists. destruct HU as [p [Hp [P1 P2]]].
    start. unfold fwd_dropout, bwd_dropout, access_default, keep, cfg_number. buffers. rewrite Hp. cbn [option_map].
    split; [|oks]. destruct training; oks.
    - cbn. exists (1 - p)%Q. split; [reflexivity|]. split; lra.
    - cbn. exists (1 - p)%Q. split; [reflexivity|]. lra.
  Qed.

  Lemma fully_connected_good sp : validate_in_shapes CFullyConnected ins = true -> setup_fully_connected kw ins = SOk sp ->
    positive (mk CFullyConnected sp) -> usable (mk CFullyConnected sp) -> good (mk CFullyConnected sp) (S T) (S B) training.
  Proof.
    intros HV HS HP HU.
    destruct (in_tb CFullyConnected ins HV HI "default") as [fs [Hne Hd]]; [reflexivity|].
    assert (Hprod := fsize_prod fs (pos_in _ _ _ _ HP Hd)).
    unfold setup_fully_connected, in_shape in HS. rewrite Hd in HS. cbn [sbind] in HS.
    match type of HS with (match ?x with _ => _ end) = _ => destruct x as [dims|]; [|discriminate] end.
    destruct (timed dims 0 false) as [out|] eqn:Eout; cbn [sbind] in HS; [|discriminate].
    assert (Hdims : dims <> []).
    { intros ->. discriminate Eout. }
    apply timed_ok in Eout. subst out.
    step HS params Ep. injection HS as <-. inv_build Ep.
    assert (Hact : known_activation (activation (mk CFullyConnected {|
      sp_out := [("default", tb dims 0 false)];
      sp_params := [("W", pl [fsize (tb dims 0 false); fsize (tb fs 0 false)]); ("bias", pl [fsize (tb dims 0 false)])];
      sp_int := []; sp_cfg := act_cfg (kget "activation" (KStr "rel") kw) |}))) by exact HU.
    assert (Hprod2 : Z.to_nat (fsize (tb dims 0 false)) = prod (nats dims)).
    { apply fsize_prod. destruct HP as [_ [HP _]]. rewrite <- (features_tb dims 0 false).
      apply (HP "default"). now left. }
    assert (L1 := length_fs _ Hne). assert (L2 := length_fs _ Hdims).
    start. unfold fwd_fully_connected, bwd_fully_connected, access_default, mk in *. cbv zeta. buffers.
    rewrite Hprod, Hprod2. ctx0. fold (nats fs) (nats dims).
    cbn [flat_time_features hd]. split; oks.
  Qed.

  Lemma highway_good sp : validate_in_shapes CHighway ins = true -> setup_highway kw ins = SOk sp ->
    good (mk CHighway sp) (S T) (S B) training.
  Proof.
    intros HV HS.
    destruct (in_tb CHighway ins HV HI "x") as [fx [_ Hx]]; [reflexivity|].
    destruct (in_tb CHighway ins HV HI "H") as [fh [_ Hh]]; [reflexivity|].
    destruct (in_tb CHighway ins HV HI "T") as [ft' [_ Ht]]; [reflexivity|].
    unfold setup_highway, in_shape in HS. rewrite Hx, Hh, Ht in HS. cbn [sbind] in HS.
    check HS E1. check HS E2. step HS outs Eo. injection HS as <-. rewrite features_tb in Eo. inv_build Eo.
    apply dims_eqb_eq in E1. apply dims_eqb_eq in E2. cbn in E1, E2.
    injection E1 as E1. injection E2 as E2.
    apply (f_equal (map dim_value)) in E1, E2. rewrite !dim_values in E1, E2. subst fh ft'.
    start. unfold fwd_highway, bwd_highway, access_highway. cbv zeta. buffers. ctx0. split; oks.
  Qed.

  Lemma decay_good l2 sp : let c := if l2 : bool then CL2Decay else CL1Decay in
    validate_in_shapes c ins = true -> (if l2 then setup_l2_decay kw ins else setup_l1_decay kw ins) = SOk sp ->
    good (mk c sp) (S T) (S B) training.
  Proof.
    intros c HV HS.
    destruct (in_tb c ins HV HI "default") as [fs [Hne Hd]]; [unfold c; destruct l2; reflexivity|].
    assert (L1 := length_fs _ Hne).
    assert (E : sp_out sp = [("loss", tb [1%Z] 0 false)] /\ exists r, sp_int sp = ("tmp", tb fs 0 false) :: r).
    { destruct l2.
      - unfold setup_l2_decay, in_shape in HS. step HS outs Eo. rewrite Hd in HS. cbn [sbind] in HS.
        step HS ints Ei. injection HS as <-. inv_build Eo. inv_build Ei. split; [reflexivity|]. eexists. reflexivity.
      - unfold setup_l1_decay, in_shape in HS. step HS outs Eo. rewrite Hd in HS. cbn [sbind] in HS.
        injection HS as <-. inv_build Eo. split; [reflexivity|]. eexists. reflexivity. }
    destruct E as [Eo [r Ei]].
    assert (G : forall t, Forall call_ok (fwd_decay (mk c sp) (S T) (S B) t) /\ Forall call_ok (bwd_decay (mk c sp) (S T) (S B) t)).
    { intros t. unfold fwd_decay, bwd_decay, access_decay, mk. cbv zeta. rewrite Eo, Ei. buffers. ctx0.
      cbn [flat_time_features flat_time]. fold (nats fs). change (Z.to_nat 1) with 1. split; oks. }
    unfold c, good, forward_calls, backward_calls. destruct l2; cbn [mk li_cls]; apply G.
  Qed.

  Lemma loss_good sp : validate_in_shapes CLoss ins = true -> setup_loss name kw ins = SOk sp ->
    usable (mk CLoss sp) -> good (mk CLoss sp) (S T) (S B) training.
  Proof.
    intros HV HS HU.
    unfold setup_loss in HS. check HS E1. step HS x Ex. apply in_shape_dget in Ex.
    step HS outs Eo. injection HS as <-. inv_build Eo.
    unfold usable, mk in HU. lists. destruct HU as [q Hq].
    assert (HD : call_ok (VDivide (batch_size (mk CLoss {| sp_out := [("loss", pl [1%Z])]; sp_params := []; sp_int := [];
       sp_cfg := scalar_cfg (kget "importance" (KNum 1) kw) |}) (S T) (S B)))).
    { unfold batch_size, mk, inp, sh, find_shape. lists. rewrite Ex. cbn [option_map].
      destruct (valid_cases x) as [fs [Hne Hs]]; [apply (HI "default"); now apply dget_In|].
      destruct x as [sx cx wx]. cbn in Hs.
      destruct Hs as [-> | [-> | ->]]; cbn [bs_shape].
      - cbn. exists (inject_Z (Z.of_nat (S B))). split; [reflexivity|]. unfold inject_Z, Qeq. cbn. lia.
      - change (buffer_type (DB :: map DInt fs)) with (if ShapesModel.dmem DT (map DInt fs) then 2 else 1).
        rewrite dmem_ints by congruence. unfold bshape. cbn [bs_shape].
        change (buffer_type (DB :: map DInt fs)) with (if ShapesModel.dmem DT (map DInt fs) then 2 else 1).
        rewrite dmem_ints by congruence. cbn. exists (inject_Z (Z.of_nat (S B))). split; [reflexivity|]. unfold inject_Z, Qeq. cbn. lia.
      - rewrite buffer_type_ints. cbn. exists 1%Q. split; [reflexivity|]. unfold Qeq. cbn. lia. }
    unfold good, forward_calls, backward_calls. cbn [mk li_cls]. unfold fwd_loss, bwd_loss, cfg_number.
    unfold access, inp, outp, sh, find_shape. cbn [mk li_cls li_in li_out li_cfg sp_out sp_cfg map dget String.eqb Ascii.eqb Bool.eqb].
    rewrite Ex. cbn [option_map]. rewrite bshape_pl. cbn [scalar_cfg cf_scalar] in *. rewrite Hq.
    split; oks; try exact HD.
    - reflexivity.
    - reflexivity.
  Qed.

  Lemma squared_difference_good sp : validate_in_shapes CSquaredDifference ins = true -> setup_squared_difference kw ins = SOk sp ->
    good (mk CSquaredDifference sp) (S T) (S B) training.
  Proof.
    intros HV HS.
    destruct (in_tb CSquaredDifference ins HV HI "inputs_1") as [fs [Hne Hd]]; [reflexivity|].
    destruct (in_tb CSquaredDifference ins HV HI "inputs_2") as [gs [_ He]]; [reflexivity|].
    assert (L1 := length_fs _ Hne).
    unfold setup_squared_difference, in_shape in HS. rewrite Hd, He in HS. cbn [sbind] in HS. rewrite !features_tb in HS.
    check HS E1. step HS outs Eo. step HS ints Ei. injection HS as <-. inv_build Eo. inv_build Ei.
    apply zs_eqb_eq in E1. subst gs.
    start. unfold fwd_squared_difference, bwd_squared_difference, access_sqdiff. cbv zeta. buffers. ctx0.
    cbn [flat_time_features]. fold (nats fs). split; oks.
  Qed.

  Lemma squared_error_good sp : validate_in_shapes CSquaredError ins = true -> setup_squared_error kw ins = SOk sp ->
    good (mk CSquaredError sp) (S T) (S B) training.
  Proof.
    intros HV HS.
    destruct (in_tb CSquaredError ins HV HI "default") as [fs [Hne Hd]]; [reflexivity|].
    destruct (in_tb CSquaredError ins HV HI "targets") as [gs [_ He]]; [reflexivity|].
    assert (L1 := length_fs _ Hne).
    unfold setup_squared_error, in_shape in HS. rewrite Hd, He in HS. cbn [sbind] in HS. rewrite !features_tb in HS.
    check HS E1. step HS outs Eo. step HS ints Ei. injection HS as <-. inv_build Eo. inv_build Ei.
    apply zs_eqb_eq in E1. subst gs.
    start. unfold fwd_squared_error, bwd_squared_error. cbv zeta. buffers. ctx0.
    cbn [flat_time_features]. fold (nats fs). split; oks.
  Qed.

  Lemma sigmoid_ce_good sp : validate_in_shapes CSigmoidCE ins = true -> setup_sigmoid_ce kw ins = SOk sp ->
    good (mk CSigmoidCE sp) (S T) (S B) training.
  Proof.
    intros HV HS.
    destruct (in_tb CSigmoidCE ins HV HI "default") as [fs [Hne Hd]]; [reflexivity|].
    destruct (in_tb CSigmoidCE ins HV HI "targets") as [gs [_ He]]; [reflexivity|].
    assert (L1 := length_fs _ Hne).
    unfold setup_sigmoid_ce, in_shape in HS. rewrite Hd, He in HS. cbn [sbind] in HS. rewrite !features_tb in HS.
    check HS E1. step HS outs Eo. step HS ints Ei. injection HS as <-. inv_build Eo. inv_build Ei.
    apply zs_eqb_eq in E1. subst gs.
    start. unfold fwd_sigmoid_ce, bwd_sigmoid_ce. cbv zeta. buffers. ctx0.
    cbn [flat_time_features]. fold (nats fs). split; oks.
  Qed.

  Lemma binomial_good sp : validate_in_shapes CBinomialCE ins = true -> setup_binomial kw ins = SOk sp ->
    usable (mk CBinomialCE sp) -> good (mk CBinomialCE sp) (S T) (S B) training.
  Proof.
    intros HV HS HU.
    destruct (in_tb CBinomialCE ins HV HI "default") as [fs [Hne Hd]]; [reflexivity|].
    destruct (in_tb CBinomialCE ins HV HI "targets") as [gs [_ He]]; [reflexivity|].
    assert (L1 := length_fs _ Hne).
    unfold usable, mk in HU. lists. destruct HU as [b [Hb HL]]. rewrite Hd in Hb. injection Hb as <-.
    rewrite features_tb in HL. destruct fs as [|f [|f2 fs]]; try discriminate HL. clear HL.
    unfold setup_binomial, in_shape in HS. rewrite Hd, He in HS. cbn [sbind] in HS. rewrite !features_tb in HS.
    check HS E1. step HS outs Eo. step HS ints Ei. injection HS as <-. inv_build Eo. inv_build Ei.
    apply dims_eqb_eq in E1. cbn in E1. injection E1 as E1.
    apply (f_equal (map dim_value)) in E1. rewrite dim_values in E1. cbn in E1. subst gs.
    start. unfold fwd_binomial, bwd_binomial. cbv zeta. buffers. ctx0.
    cbn [flat_time_features flat_time]. change (Z.to_nat 1) with 1. split; oks.
    cbn. split; [lia|]. split; reflexivity.
  Qed.

  Lemma fbl_shape (fs : shape) : fs <> [] ->
    flat_but_last (S T :: S B :: fs) = [S T * (S B * prod (removelast fs)); last fs 0].
  Proof. intros H. destruct fs as [|x r]; [congruence|]. reflexivity. Qed.

  Lemma nats_ne fs : fs <> [] -> nats fs <> [].
  Proof. destruct fs; [congruence|discriminate]. Qed.

  Lemma prod_pos fs : Forall (fun z => 0 < z)%Z fs -> 0 < prod (nats fs).
  Proof.
    induction 1 as [|z r Hz _ IH]; [cbn; lia|]. change (0 < Z.to_nat z * prod (nats r)).
    apply Nat.mul_pos_pos; [lia|exact IH].
  Qed.
  Lemma removelast_pos (fs : list Z) : Forall (fun z => 0 < z)%Z fs -> Forall (fun z => 0 < z)%Z (removelast fs).
  Proof.
    induction 1 as [|z r Hz Hr IH]; [constructor|]. destruct r; [constructor|]. constructor; assumption.
  Qed.

  Lemma softmax_ce_good sp : validate_in_shapes CSoftmaxCE ins = true -> setup_softmax_ce kw ins = SOk sp ->
    positive (mk CSoftmaxCE sp) -> good (mk CSoftmaxCE sp) (S T) (S B) training.
  Proof.
    intros HV HS HP.
    destruct (in_tb CSoftmaxCE ins HV HI "default") as [fs [Hne Hd]]; [reflexivity|].
    destruct (in_tb CSoftmaxCE ins HV HI "targets") as [gs [Hne2 He]]; [reflexivity|].
    assert (Hpos := pos_in _ _ _ _ HP Hd).
    unfold setup_softmax_ce, in_shape in HS. rewrite Hd, He in HS. cbn [sbind] in HS. rewrite !features_tb in HS.
    check HS E1. check HS E2. check HS E3. step HS outs Eo. step HS ints Ei. injection HS as <-. inv_build Eo. inv_build Ei.
    apply zs_eqb_eq in E2. apply Z.eqb_eq in E3.
    start. unfold fwd_softmax_ce, bwd_softmax_ce. cbv zeta. buffers. ctx0.
    fold (nats fs) (nats gs). rewrite !fbl_shape by (now apply nats_ne).
    rewrite (last_nats gs) by assumption. rewrite E3. rewrite (removelast_nats gs), (removelast_nats fs), E2.
    rewrite (last_nats fs) by assumption. change (Z.to_nat 1) with 1.
    assert (Hl : 0 < Z.to_nat (last fs 0%Z)).
    { assert (H : In (last fs 0%Z) fs). { rewrite (removelast_snoc fs 0%Z Hne) at 2. apply in_or_app. right. now left. }
      rewrite Forall_forall in Hpos. specialize (Hpos _ H). lia. }
    set (r := S T * (S B * prod (nats (removelast fs)))). set (c := Z.to_nat (last fs 0%Z)) in *.
    split; oks; try (apply fbl_ok; discriminate); try apply mult_mv_col.
    - cbn. split; [apply all_equal_cons; intros s [<-|[]]; reflexivity|]. exists r, c. auto.
    - cbn. split; [apply all_equal_cons; intros s [<-|[]]; reflexivity|]. exists r, c. auto.
    - cbn. exists r, c. auto.
  Qed.

  (** the extent of one dimension *)
  Definition extent (d : sdim) : nat := match d with DT => S T | DB => S B | DInt z => Z.to_nat z | _ => 0 end.
  Lemma map_extent fs : map extent (map DInt fs) = nats fs.
  Proof. unfold nats. rewrite map_map. reflexivity. Qed.

  Lemma bshape_map b : valid b -> bs_ctx b = 0%Z -> bshape (S T) (S B) b = map extent (bs_shape b).
  Proof.
    intros HV HC. destruct (valid_cases b HV) as [fs [Hne Hs]]. destruct b as [sx cx wx]. cbn in Hs, HC. subst cx.
    destruct Hs as [-> | [-> | ->]]; cbn [bs_shape].
    - change (mkB (DT :: DB :: map DInt fs) 0 wx) with (tb fs 0 wx). rewrite bshape_tb. cbn [map extent]. rewrite map_extent.
      change (Z.to_nat 0) with 0. now rewrite Nat.add_0_r.
    - unfold bshape, features, feature_shape. cbn [bs_shape bs_ctx].
      change (buffer_type (DB :: map DInt fs)) with (if ShapesModel.dmem DT (map DInt fs) then 2 else 1).
      rewrite dmem_ints by congruence. cbn [skipn]. rewrite dim_values. cbn. now rewrite map_extent.
    - unfold bshape, features, feature_shape. cbn [bs_shape bs_ctx]. rewrite buffer_type_ints. cbn [skipn].
      rewrite dim_values, map_extent. reflexivity.
  Qed.

  Lemma valid_last b : valid b -> Forall (fun z => 0 < z)%Z (features b) ->
    exists p, last (bs_shape b) (DInt 0) = DInt p /\ (0 < p)%Z /\ bs_shape b = removelast (bs_shape b) ++ [DInt p].
  Proof.
    intros HV HP. destruct (valid_cases b HV) as [fs [Hne Hs]]. destruct b as [sx cx wx]. cbn in Hs.
    assert (E : exists pre, sx = pre ++ map DInt fs /\ features (mkB sx cx wx) = fs).
    { destruct Hs as [-> | [-> | ->]].
      - exists [DT; DB]. split; [reflexivity|]. apply (features_tb fs cx wx).
      - exists [DB]. split; [reflexivity|]. unfold features, feature_shape. cbn [bs_shape].
        change (buffer_type (DB :: map DInt fs)) with (if ShapesModel.dmem DT (map DInt fs) then 2 else 1).
        rewrite dmem_ints by congruence. cbn [skipn]. apply dim_values.
      - exists []. split; [reflexivity|]. unfold features, feature_shape. cbn [bs_shape]. rewrite buffer_type_ints. apply dim_values. }
    destruct E as [pre [-> E]]. rewrite E in HP. clear E Hs.
    exists (last fs 0%Z).
    assert (H : In (last fs 0%Z) fs). { rewrite (removelast_snoc fs 0%Z Hne) at 2. apply in_or_app. right. now left. }
    rewrite Forall_forall in HP. cbn [bs_shape].
    assert (L : last (pre ++ map DInt fs) (DInt 0) = DInt (last fs 0%Z)).
    { rewrite (removelast_snoc fs 0%Z Hne) at 1. rewrite map_app, app_assoc. apply last_last. }
    split; [exact L|]. split; [now apply HP|].
    rewrite <- L. apply removelast_snoc. destruct pre; [destruct fs; [congruence|discriminate]|discriminate].
  Qed.

  Lemma merge_good sp : validate_in_shapes CMerge ins = true -> setup_merge kw ins = SOk sp ->
    positive (mk CMerge sp) -> good (mk CMerge sp) (S T) (S B) training.
  Proof.
    intros HV HS HP.
    destruct (in_exists CMerge ins HV "inputs_1" any_shape eq_refl) as [a Ha].
    destruct (in_exists CMerge ins HV "inputs_2" any_shape eq_refl) as [b Hb].
    unfold setup_merge, in_shape in HS. rewrite Ha, Hb in HS. cbn [sbind] in HS.
    check HS E1. apply dims_eqb_eq in E1.
    assert (Ia := HI _ _ (dget_In _ _ _ Ha)). assert (Ib := HI _ _ (dget_In _ _ _ Hb)).
    destruct HP as [HP _].
    destruct (valid_last a (proj1 Ia) (HP _ _ (dget_In _ _ _ Ha))) as [p [La [Hp Sa]]].
    destruct (valid_last b (proj1 Ib) (HP _ _ (dget_In _ _ _ Hb))) as [q [Lb [Hq Sb]]].
    rewrite La, Lb in HS. cbn [dim_value] in HS.
    destruct (new_structure (removelast (bs_shape a) ++ [DInt (p + q)]) 0 false) as [o|] eqn:Eo'; [|discriminate HS].
    assert (Vo : o = mkB (removelast (bs_shape a) ++ [DInt (p + q)]) 0 false /\ valid o).
    { apply new_structure_ok in Eo'. destruct Eo' as [-> V]. split; [reflexivity|]. exact V. }
    destruct Vo as [Eo2 Vo]. cbn [build sbind] in HS. injection HS as <-. 
    start. unfold fwd_merge, bwd_merge, access_merge. buffers.
    rewrite (bshape_map a), (bshape_map b), (bshape_map o); try apply Ia; try apply Ib; try exact Vo; [|subst o; reflexivity].
    rewrite Sa, Sb, Eo2. cbn [bs_shape]. rewrite <- E1, !map_app. cbn [map extent].
    rewrite Z2Nat.inj_add by lia.
    split; oks; (eexists; eexists; eexists; repeat (split; [reflexivity|]); split; lia).
  Qed.

  Lemma mask_good sp : validate_in_shapes CMask ins = true -> setup_mask kw ins = SOk sp ->
    good (mk CMask sp) (S T) (S B) training.
  Proof.
    intros HV HS.
    destruct (in_tb CMask ins HV HI "default") as [fs [Hne Hd]]; [reflexivity|].
    destruct (in_tb CMask ins HV HI "mask") as [gs [Hne2 He]]; [reflexivity|].
    assert (FM : forall k s, call_ok (VReshape s (flat_at k s))).
    { intros k s. cbn. rewrite <- (firstn_skipn k s) at 1. rewrite prod_app. fold (prod (skipn k s)). lia. }
    unfold setup_mask, in_shape in HS. rewrite Hd, He in HS. cbn [sbind] in HS. cbv zeta in HS. rewrite !features_tb in HS.
    destruct (zs_eqb gs [1%Z]) eqn:E1.
    - apply zs_eqb_eq in E1. subst gs. injection HS as <-.
      start. unfold fwd_mask, bwd_mask, fm. cbv zeta. buffers. ctx0. fold (nats fs).
      change (flat_at 2 (S T :: S B :: nats fs)) with [prod [S T; S B]; prod (nats fs)].
      change (flat_at 2 [S T; S B; Z.to_nat 1]) with [prod [S T; S B]; 1].
      split; oks; try apply mult_mv_col; apply (FM 2).
    - assert (Hk : forall z, flat_at (length fs + 1) (S T :: S B :: nats (removelast fs ++ [z])) = [prod (S T :: S B :: nats (removelast fs)); Z.to_nat z * 1]).
      { intros z. unfold flat_at.
        assert (L : length fs + 1 = length (S T :: S B :: nats (removelast fs)) + 0).
        { rewrite (removelast_snoc fs 0%Z Hne) at 1. rewrite app_length. cbn [length]. unfold nats. rewrite map_length. lia. }
        unfold nats. rewrite map_app. cbn [map].
        change (S T :: S B :: map Z.to_nat (removelast fs) ++ [Z.to_nat z])
          with ((S T :: S B :: nats (removelast fs)) ++ [Z.to_nat z]).
        rewrite L, firstn_app_2, skipn_app. rewrite skipn_all2 by lia.
        replace (length (S T :: S B :: nats (removelast fs)) + 0 - length (S T :: S B :: nats (removelast fs))) with 0 by lia.
        cbn [firstn skipn app]. rewrite app_nil_r. reflexivity. }
      assert (HX : exists z, nats gs = nats (removelast fs ++ [z]) /\ (z = 1 \/ z = last fs 0)%Z /\
                   sp = {| sp_out := [("default", tb fs 0 false)]; sp_params := []; sp_int := [];
                           sp_cfg := mkCfg (KOther 0) (KOther 0) (KOther 0) (1, 1)%Z 0 (1, 1)%Z false (length fs + 1) |}).
      { destruct (zs_eqb gs (removelast fs ++ [1%Z])) eqn:E2.
        - apply zs_eqb_eq in E2. injection HS as <-. exists 1%Z. subst gs. auto.
        - destruct (zs_eqb gs fs) eqn:E3; [|discriminate]. apply zs_eqb_eq in E3. injection HS as <-. exists (last fs 0%Z).
          subst gs. split; [f_equal; now apply removelast_snoc|]. auto. }
      destruct HX as [z [Eg [Hz ->]]].
      start. unfold fwd_mask, bwd_mask, fm. cbv zeta. buffers. ctx0. rewrite <- (Nat.add_1_r (length fs)). fold (nats fs) (nats gs). rewrite Eg.
      assert (Hfs : flat_at (length fs + 1) (S T :: S B :: nats fs) = [prod (S T :: S B :: nats (removelast fs)); Z.to_nat (last fs 0%Z) * 1]).
      { rewrite <- Hk. now rewrite <- (removelast_snoc fs 0%Z Hne). }
      assert (F1 := FM (length fs + 1) (S T :: S B :: nats fs)).
      assert (F2 := FM (length fs + 1) (S T :: S B :: nats (removelast fs ++ [z]))).
      rewrite Hk in F2 |- *. rewrite Hfs in F1 |- *.
      destruct Hz as [-> | ->]; [change (Z.to_nat 1 * 1) with 1 in *|]; split; oks; try assumption.
  Qed.

  Lemma batch_norm_good sp : validate_in_shapes CBatchNorm ins = true -> setup_batch_norm kw ins = SOk sp ->
    positive (mk CBatchNorm sp) -> usable (mk CBatchNorm sp) -> good (mk CBatchNorm sp) (S T) (S B) training.
  Proof.
    intros HV HS HP HU.
    destruct (in_tb CBatchNorm ins HV HI "default") as [fs [Hne Hd]]; [reflexivity|].
    assert (Hpos := pos_in _ _ _ _ HP Hd).
    unfold setup_batch_norm in HS. cbv zeta in HS.
    destruct (as_number (kget "decay" (KNum (9 # 10)) kw)) as [d|] eqn:Edecay; [|discriminate].
    check HS E1. unfold in_shape in HS. rewrite Hd in HS. cbn [sbind] in HS. rewrite features_tb in HS.
    destruct (plain [last fs 0%Z]) as [buf|] eqn:Eb; cbn [sbind] in HS; [|discriminate].
    apply plain_ok in Eb. subst buf. injection HS as <-.
    unfold usable, mk in HU. lists. destruct HU as [e He].
    start. unfold fwd_batch_norm, bwd_batch_norm, cfg_number. cbv zeta. lists. rewrite Edecay, He. buffers. ctx0.
    fold (nats fs). rewrite !fbl_shape by (now apply nats_ne). rewrite (last_nats fs) by assumption.
    rewrite (removelast_nats fs).
    assert (Hr : 0 < S T * (S B * prod (nats (removelast fs)))).
    { apply Nat.mul_pos_pos; [lia|]. apply Nat.mul_pos_pos; [lia|]. apply prod_pos. now apply removelast_pos. }
    set (r := S T * (S B * prod (nats (removelast fs)))) in *. set (c := Z.to_nat (last fs 0%Z)) in *.
    assert (HD : call_ok (VDivide (Some (inject_Z (Z.of_nat (hd 0 [r; c])))))).
    { cbn [hd call_ok]. exists (inject_Z (Z.of_nat r)). split; [reflexivity|]. unfold inject_Z, Qeq. cbn. lia. }
    assert (HR : forall n, prod [n] = n) by (intros n; cbn; lia). rewrite !HR.
    split.
    - destruct training; cbv iota; rewrite ?HR; oks; try exact HD; try apply mult_mv_row; try (apply fbl_ok; discriminate).
    - oks; try exact HD; try apply mult_mv_row; try (apply fbl_ok; discriminate).
  Qed.

  Lemma extent_lemma (n p k s o : Z) : (0 <= n)%Z -> (0 <= p)%Z -> (0 <= k)%Z -> (0 <= s)%Z -> out_extent n p k s = SOk o -> (0 < o)%Z ->
    extent_ok (Z.of_nat (Z.to_nat n)) p k s (Z.of_nat (Z.to_nat o)).
  Proof.
    intros Hn Hp Hk Hs. unfold out_extent. destruct (s =? 0)%Z eqn:E; [discriminate|]. apply Z.eqb_neq in E.
    intros H Ho. assert (Eo : o = ((n + 2 * p - k) / s + 1)%Z) by congruence. clear H. subst o. unfold extent_ok. rewrite !Z2Nat.id by lia.
    assert (Hs' : (0 < s)%Z) by lia. split; [exact Hs'|]. split; [exact Hk|]. split; [|reflexivity].
    destruct (Z_lt_le_dec (n + 2 * p - k) 0) as [Hlt|]; [|lia].
    exfalso. assert (Hq : ((n + 2 * p - k) / s < 0)%Z) by (apply Z.div_lt_upper_bound; [exact Hs'|]; rewrite Z.mul_0_r; exact Hlt).
    revert Hq Ho. generalize ((n + 2 * p - k) / s)%Z. intros q Hq Ho. lia.
  Qed.

  Lemma conv_good sp : validate_in_shapes CConv ins = true -> setup_conv kw ins = SOk sp ->
    positive (mk CConv sp) -> usable (mk CConv sp) -> good (mk CConv sp) (S T) (S B) training.
  Proof.
    intros HV HS HP HU.
    destruct (in_tb CConv ins HV HI "default") as [fs [Hne Hd]]; [reflexivity|].
    assert (Hpos := pos_in _ _ _ _ HP Hd).
    unfold setup_conv in HS.
    destruct (dget "num_filters" kw) as [nf|]; [|discriminate].
    destruct (dget "kernel_size" kw) as [ks|]; [|discriminate].
    destruct (as_int (kget "padding" (KInt 0) kw)) as [padding|]; [|discriminate].
    check HS E1. apply Z.leb_le in E1. step HS kernel Ek. step HS stride Es. check HS E2.
    apply andb_true_iff in E2. destruct E2 as [E2 E3]. apply Z.leb_le in E2. apply Z.leb_le in E3.
    unfold in_shape in HS. rewrite Hd in HS. cbn [sbind] in HS. rewrite features_tb in HS.
    destruct fs as [|rows [|cols [|maps [|]]]]; try discriminate HS.
    step HS oh Eh. step HS ow Ew. step HS outs Eo. step HS params Ep. injection HS as <-.
    destruct (build_cons _ _ _ _ Eo) as [bo [r [Ebo [Er ->]]]]. injection Er as <-.
    apply new_structure_ok in Ebo. destruct Ebo as [-> Vo].
    assert (Hnf : exists f, kdim nf = DInt f).
    { destruct (kdim nf) as [| | | |f|]; try (cbv in Vo; discriminate). now exists f. }
    destruct Hnf as [f Hf]. rewrite Hf in *. inv_build Ep.
    change (mkB [DT; DB; DInt oh; DInt ow; DInt f] 0 false) with (tb [oh; ow; f] 0 false) in *.
    change (mkB [DInt f; DInt (fst kernel); DInt (snd kernel); DInt maps] 0 false) with (pl [f; fst kernel; snd kernel; maps]) in *.
    change (mkB [DInt f] 0 false) with (pl [f]) in *.
    set (cfg := mkCfg _ _ _ _ _ _ _ _) in *.
    assert (Hact : known_activation (cf_act cfg)) by exact HU. clear HU.
    destruct HP as [_ [HPo [HPp _]]]. cbn [mk li_out li_params sp_out sp_params] in HPo, HPp.
    assert (Po := HPo "default" _ (or_introl eq_refl)). rewrite features_tb in Po.
    assert (Pp := HPp "W" _ (or_introl eq_refl)). rewrite features_pl in Pp.
    repeat match goal with H : Forall _ (_ :: _) |- _ => inversion H; clear H; subst end.
    assert (X1 : extent_ok (Z.of_nat (Z.to_nat rows)) padding (fst kernel) (fst stride) (Z.of_nat (Z.to_nat oh))) by (apply extent_lemma; try assumption; lia).
    assert (X2 : extent_ok (Z.of_nat (Z.to_nat cols)) padding (snd kernel) (snd stride) (Z.of_nat (Z.to_nat ow))) by (apply extent_lemma; try assumption; lia).
    assert (G : geometry [S T * S B; Z.to_nat rows; Z.to_nat cols; Z.to_nat maps]
                  (zpair (Z.to_nat (fst kernel)) (Z.to_nat (snd kernel))) padding stride
                  [S T * S B; Z.to_nat oh; Z.to_nat ow; Z.to_nat f]).
    { split; [exact E1|]. unfold zpair. cbn [fst snd]. rewrite !Z2Nat.id by lia.
      exists (S T * S B), (Z.to_nat rows), (Z.to_nat cols), (Z.to_nat maps), (Z.to_nat oh), (Z.to_nat ow), (Z.to_nat f).
      split; [reflexivity|]. split; [reflexivity|]. split; assumption. }
    start. unfold fwd_conv, bwd_conv. buffers. ctx0. cbn [flat_time].
    split; oks.
    - exists (Z.to_nat f), (Z.to_nat (fst kernel)), (Z.to_nat (snd kernel)), (Z.to_nat maps).
      repeat (split; [reflexivity|]). exact G.
    - split; [apply all_equal_cons; intros s [<-|[]]; reflexivity|].
      split; [apply all_equal_cons; intros s [<-|[]]; reflexivity|].
      exists (Z.to_nat f), (Z.to_nat (fst kernel)), (Z.to_nat (snd kernel)), (Z.to_nat maps).
      repeat (split; [reflexivity|]). exact G.
  Qed.

  Lemma pool_good sp : validate_in_shapes CPool ins = true -> setup_pool kw ins = SOk sp ->
    positive (mk CPool sp) -> usable (mk CPool sp) -> good (mk CPool sp) (S T) (S B) training.
  Proof.
    intros HV HS HP HU.
    destruct (in_tb CPool ins HV HI "default") as [fs [Hne Hd]]; [reflexivity|].
    assert (Hpos := pos_in _ _ _ _ HP Hd).
    unfold setup_pool in HS.
    destruct (dget "kernel_size" kw) as [ks|]; [|discriminate].
    destruct (dget "type" kw) as [ty|]; [|discriminate].
    step HS ismax Et.
    destruct (as_int (kget "padding" (KInt 0) kw)) as [padding|]; [|discriminate].
    check HS E1. apply Z.leb_le in E1. step HS kernel Ek. step HS stride Es. check HS E2.
    apply andb_true_iff in E2. destruct E2 as [E2 E3]. apply Z.leb_le in E2. apply Z.leb_le in E3.
    unfold in_shape in HS. rewrite Hd in HS. cbn [sbind] in HS. rewrite features_tb in HS.
    destruct fs as [|rows [|cols [|maps [|]]]]; try discriminate HS.
    step HS oh Eh. step HS ow Ew. check HS E4. apply andb_true_iff in E4. destruct E4 as [E4 E5].
    apply Z.ltb_lt in E4. apply Z.ltb_lt in E5.
    step HS outs Eo. step HS ints Ei. injection HS as <-. inv_build Eo.
    assert (Eint : ints = if ismax then [("argmax", tb [oh; ow; maps] 0 false)] else []).
    { destruct ismax; inv_build Ei; reflexivity. }
    subst ints. clear Ei.
    unfold usable, mk in HU. lists. destruct HU as [Hk1 Hk2].
    repeat match goal with H : Forall _ (_ :: _) |- _ => inversion H; clear H; subst end.
    assert (X1 : extent_ok (Z.of_nat (Z.to_nat rows)) padding (fst kernel) (fst stride) (Z.of_nat (Z.to_nat oh))) by (apply extent_lemma; try assumption; lia).
    assert (X2 : extent_ok (Z.of_nat (Z.to_nat cols)) padding (snd kernel) (snd stride) (Z.of_nat (Z.to_nat ow))) by (apply extent_lemma; try assumption; lia).
    assert (G : geometry [S T * S B; Z.to_nat rows; Z.to_nat cols; Z.to_nat maps] kernel padding stride
                  [S T * S B; Z.to_nat oh; Z.to_nat ow; Z.to_nat maps]).
    { split; [exact E1|].
      exists (S T * S B), (Z.to_nat rows), (Z.to_nat cols), (Z.to_nat maps), (Z.to_nat oh), (Z.to_nat ow), (Z.to_nat maps).
      split; [reflexivity|]. split; [reflexivity|]. split; assumption. }
    start. unfold fwd_pool, bwd_pool, pool_argmax. lists. destruct ismax; cbn [fst snd]; buffers; ctx0; cbn [flat_time];
      split; oks; (split; [exact G|]; split; [reflexivity|]);
      try (split; [auto|]; split; apply all_equal_cons; intros s [<-|[]]; reflexivity); auto.
  Qed.
End Layer.

(** The result for all layer classes: for the sorted in_shapes. *)
Lemma setup_good name kw ins inc outg c sp T B training :
  (forall n b, In (n, b) ins -> input_like b) ->
  validate_in_shapes c ins = true -> setup c name kw ins = SOk sp ->
  positive (mk name ins inc outg c sp) -> usable (mk name ins inc outg c sp) ->
  good (mk name ins inc outg c sp) (S T) (S B) training.
Proof.
  intros HI HV HS HP HU. destruct c; cbn [setup] in HS.
  - eapply batch_norm_good; eauto.
  - eapply binomial_good; eauto.
  - eapply (recurrent_good name kw ins inc outg HI T B training true); eauto.
  - eapply (lstm_good name kw ins inc outg HI T B training true); eauto.
  - eapply conv_good; eauto.
  - eapply copying_good; eauto.
  - eapply dropout_good; eauto.
  - eapply copying_good; eauto.
  - eapply fully_connected_good; eauto.
  - eapply highway_good; eauto.
  - split; constructor.
  - eapply (decay_good name kw ins inc outg HI T B training false); eauto.
  - eapply (decay_good name kw ins inc outg HI T B training true); eauto.
  - eapply loss_good; eauto.
  - eapply (lstm_good name kw ins inc outg HI T B training false); eauto.
  - eapply mask_good; eauto.
  - eapply merge_good; eauto.
  - eapply copying_good; eauto.
  - eapply pool_good; eauto.
  - eapply (recurrent_good name kw ins inc outg HI T B training false); eauto.
  - eapply sigmoid_ce_good; eauto.
  - eapply softmax_ce_good; eauto.
  - eapply squared_difference_good; eauto.
  - eapply squared_error_good; eauto.
Qed.
