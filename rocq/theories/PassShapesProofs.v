(** The passes of a constructed layer never get arrays of wrong shapes: proofs,
    one layer class after the other. *)
From Coq Require Import String List ZArith QArith Bool Lia Permutation.
From Verif Require Import PyBase PyFacts UtilsModel NamesModel ArchModel ShapesModel SetupModel PassShapesModel SetupProofs.
Import ListNotations.
Open Scope string_scope.
Open Scope list_scope.
Open Scope nat_scope.

Definition positive_dims (d : list (string * bstruct)) : Prop :=
  forall n b, In (n, b) d -> Forall (fun z => 0 < z)%Z (features b).
(** All dimensions of all buffers of the layer are positive. *)
Definition positive (l : linst) : Prop :=
  positive_dims (li_in l) /\ positive_dims (li_out l) /\ positive_dims (li_params l) /\ positive_dims (li_int l).

(** What the construction of a layer does not check: the activation function
    exists, numbers are numbers, the drop probability is in [0, 1), the pooling
    window is not negative, the input of BinomialCrossEntropy has one feature
    dimension. *)
Definition usable (l : linst) : Prop :=
  match li_cls l with
  | CClockwork | CClockworkLstm | CConv | CElementwise | CFullyConnected | CLstm | CRecurrent =>
      known_activation (cf_act (li_cfg l))
  | CBatchNorm => exists e, as_number (cf_epsilon (li_cfg l)) = Some e
  | CDeltasScaling | CLoss => exists q, as_number (cf_scalar (li_cfg l)) = Some q
  | CDropout => exists p, as_number (cf_scalar (li_cfg l)) = Some p /\ (0 <= p /\ p < 1)%Q
  | CPool => (0 <= fst (cf_kernel (li_cfg l)) /\ 0 <= snd (cf_kernel (li_cfg l)))%Z
  | CBinomialCE => exists b, dget "default" (li_in l) = Some b /\ length (features b) = 1
  | _ => True
  end.

Lemma make_layer_inv c name ins inc outg kw l :
  make_layer c name ins inc outg kw = SOk l ->
  let ins' := isort (fun a b => String.leb (fst a) (fst b)) ins in
  validate_in_shapes c ins' = true /\
  exists sp, setup c name kw ins' = SOk sp /\
    l = mkInst c name ins' (sp_out sp) (sp_params sp) (sp_int sp) (sp_cfg sp) inc outg.
Proof.
  cbv zeta. unfold make_layer, guard.
  destruct (validate_kwargs c kw); [|discriminate]. cbn [sbind].
  destruct (validate_in_shapes c _); [|discriminate]. cbn [sbind].
  destruct (setup c name kw _) as [sp|]; [|discriminate]. cbn [sbind].
  destruct (validate_connections c _ sp inc outg); [|discriminate]. cbn [sbind].
  intros [= <-]. split; [reflexivity|]. exists sp. split; reflexivity.
Qed.

Lemma in_shape_dget n ins x : in_shape n ins = SOk x -> dget n ins = Some x.
Proof. unfold in_shape. destruct dget; congruence. Qed.

Section Inputs.
  Variable c : cls.
  Variable ins : list (string * bstruct).
  Hypothesis HV : validate_in_shapes c ins = true.
  Hypothesis HI : forall n b, In (n, b) ins -> input_like b.

  Lemma in_template n t b : dget n (expected_inputs c) = Some t -> dget n ins = Some b ->
    template_matches t (bs_shape b) = true.
  Proof.
    intros Ht Hb. unfold validate_in_shapes in HV. rewrite !andb_true_iff in HV. destruct HV as [_ H].
    rewrite forallb_forall in H. specialize (H (n, b) (dget_In _ _ _ Hb)). cbn [fst snd] in H. now rewrite Ht in H.
  Qed.

  Lemma in_exists n t : dget n (expected_inputs c) = Some t -> exists b, dget n ins = Some b.
  Proof.
    intros Ht. unfold validate_in_shapes in HV. rewrite !andb_true_iff in HV. destruct HV as [[_ H] _].
    rewrite forallb_forall in H. specialize (H (n, t) (dget_In _ _ _ Ht)). cbn [fst] in H.
    destruct (dget n ins) as [b|] eqn:E; [now exists b|]. apply dget_None in E. exfalso. apply E.
    unfold smem in H. apply existsb_exists in H. destruct H as [y [Hy Heq]]. apply String.eqb_eq in Heq. now subst y.
  Qed.

  Lemma in_tb n : dget n (expected_inputs c) = Some tb_any -> exists fs, fs <> [] /\ dget n ins = Some (tb fs 0 false).
  Proof.
    intros Ht. destruct (in_exists _ _ Ht) as [b Hb].
    destruct (input_like_tb b) as [fs [H1 ->]].
    - eapply HI. eapply dget_In. exact Hb.
    - eapply in_template; eauto.
    - exists fs. auto.
  Qed.
End Inputs.

Lemma build_cons n r t d : build ((n, r) :: t) = SOk d -> exists b bs, r = SOk b /\ build t = SOk bs /\ d = (n, b) :: bs.
Proof.
  cbn [build]. destruct r as [b|]; cbn [sbind]; [|discriminate].
  destruct (build t) as [bs|]; cbn [sbind]; [|discriminate]. intros [= <-]. eauto.
Qed.

Ltac inv_build H :=
  lazymatch type of H with
  | build [] = SOk _ => injection H as <-
  | _ =>
      let b := fresh "b" in let bs := fresh "bs" in let E := fresh "E" in let E2 := fresh "E" in
      apply build_cons in H; destruct H as [b [bs [E [E2 ->]]]];
      lazymatch type of E with
      | timed _ _ _ = _ => apply timed_ok in E
      | plain _ = _ => apply plain_ok in E
      | new_structure _ _ _ = _ => apply new_structure_ok in E; destruct E as [E _]
      | SOk _ = _ => injection E as E
      end;
      subst b; inv_build E2
  end.

Ltac inv_setup H :=
  repeat (cbv beta iota zeta in H;
    match type of H with
    | sbind (guard ?b _) _ = SOk _ => unfold guard in H; let E := fresh "E" in destruct b eqn:E; cbn [sbind] in H; [|discriminate H]
    | sbind ?r _ = SOk _ => let E := fresh "E" in destruct r eqn:E; cbn [sbind] in H; [|discriminate H]
    | (match ?x with _ => _ end) = SOk _ => let E := fresh "E" in destruct x eqn:E; try discriminate H
    end).

Lemma Forall_flat_map {A} (P : call -> Prop) (f : A -> list call) l :
  (forall x, In x l -> Forall P (f x)) -> Forall P (flat_map f l).
Proof.
  induction l as [|x l IH]; intros H; [constructor|]. cbn. apply Forall_app. split.
  - apply H. now left.
  - apply IH. intros y Hy. apply H. now right.
Qed.

Lemma Forall_map_ats arrays i : (forall s, In s arrays -> call_ok (VIndex s i)) -> Forall call_ok (ats arrays i).
Proof. intros H. unfold ats. apply Forall_forall. intros c Hc. apply in_map_iff in Hc. destruct Hc as [s [<- Hs]]. now apply H. Qed.

(** shapes of the buffers by computation *)
Ltac shp :=
  repeat match goal with
  | H : dget ?n ?d = Some ?b |- context [dget ?n ?d] => rewrite H
  end;
  cbn [option_map]; rewrite ?bshape_tb, ?bshape_pl.


Lemma index_ok n r i : (- Z.of_nat n <= i < Z.of_nat n)%Z -> call_ok (VIndex (n :: r) i).
Proof. intros H. exists n, r. auto. Qed.

Lemma each_ok name sc a l : (forall s, In s sc -> s <> None) -> (forall s, In s l -> s = a) -> call_ok (HEach name sc (a :: l)).
Proof. intros H1 H2. split; [exact H1|]. now apply all_equal_cons. Qed.

Lemma dot_nn name m k n : call_ok (HDot name [m; k] [k; n] [m; n] false false).
Proof. exists m, k, k, n. auto. Qed.
Lemma dot_nt name m k n : call_ok (HDot name [m; k] [n; k] [m; n] false true).
Proof. exists m, k, n, k. auto. Qed.
Lemma dot_tn name m k n : call_ok (HDot name [k; m] [k; n] [m; n] true false).
Proof. exists k, m, k, n. auto. Qed.
Lemma mv_row name r c : call_ok (HMv name [r; c] [1; c] [r; c]).
Proof. split; [apply all_equal_cons; intros s [<-|[]]; reflexivity|]. exists r, c. auto. Qed.
Lemma mult_mv_row r c : call_ok (HMultMv [r; c] [1; c] [r; c]).
Proof. split; [apply all_equal_cons; intros s [<-|[]]; reflexivity|]. split; [reflexivity|]. left. exists r, c. auto. Qed.
Lemma mult_mv_col r c : call_ok (HMultMv [r; c] [r; 1] [r; c]).
Proof. split; [apply all_equal_cons; intros s [<-|[]]; reflexivity|]. split; [reflexivity|]. left. exists r, c. auto. Qed.
Lemma mult_mv_all r c : call_ok (HMultMv [r; c] [r; c] [r; c]).
Proof. split; [apply all_equal_cons; intros s [<-|[]]; reflexivity|]. split; [reflexivity|]. auto. Qed.
Lemma sum_rows r c : call_ok (HSum [r; c] (Some 0) [c]).
Proof. cbn. split; [lia|reflexivity]. Qed.
Lemma sum_rows_keep r c : call_ok (HSum [r; c] (Some 0) [1; c]).
Proof. cbn. split; [lia|reflexivity]. Qed.
Lemma sum_cols r c : call_ok (HSum [r; c] (Some 1) [r; 1]).
Proof. cbn. split; [lia|reflexivity]. Qed.
Lemma reshape_row n : call_ok (VReshape [n] [1; n]).
Proof. cbn. lia. Qed.
Lemma broadcast_row b n : call_ok (HBroadcast [1; n] 0 [b; n]).
Proof. cbn. split; [lia|auto]. Qed.

Ltac all_in := let s := fresh "s" in let Hs := fresh "Hs" in
  intros s Hs; cbn [In] in Hs;
  repeat (destruct Hs as [Hs|Hs]; [try (subst; reflexivity); try (subst; discriminate); try congruence|]);
  try contradiction.

Ltac ok1 :=
  match goal with
  | |- call_ok (VBuffer _) => cbn [call_ok]; congruence
  | |- call_ok (VUnpack _ _) => cbn [call_ok]; first [reflexivity | assumption | congruence]
  | |- call_ok (VIndex (_ :: _) _) => apply index_ok; lia
  | |- call_ok (VActivation _) => assumption
  | |- call_ok (VReshape [_] [1; _]) => apply reshape_row
  | |- call_ok (HEach _ _ _) => apply each_ok; all_in
  | |- call_ok (HDot _ _ _ _ false false) => apply dot_nn
  | |- call_ok (HDot _ _ _ _ false true) => apply dot_nt
  | |- call_ok (HDot _ _ _ _ true false) => apply dot_tn
  | |- call_ok (HMv _ _ _ _) => apply mv_row
  | |- call_ok (HMultMv _ _ _) => first [apply mult_mv_row | apply mult_mv_col | apply mult_mv_all]
  | |- call_ok (HSum _ (Some 0) _) => first [apply sum_rows | apply sum_rows_keep]
  | |- call_ok (HSum _ (Some 1) _) => apply sum_cols
  | |- call_ok (HBroadcast [1; _] 0 [_; _]) => apply broadcast_row
  end.
Ltac oks :=
  repeat match goal with
  | |- Forall _ [] => constructor
  | |- Forall _ (ft _) => apply ft_ok; cbn [length]; lia
  | |- Forall _ (ftf _) => apply ftf_ok; cbn [length]; lia
  | |- Forall _ (_ ++ _) => apply Forall_app; split
  | |- Forall _ (ats _ _) => apply Forall_map_ats; let s := fresh "s" in let Hs := fresh "Hs" in
       intros s Hs; cbn [In] in Hs; repeat (destruct Hs as [<-|Hs]; [apply index_ok; lia|]); contradiction
  | |- Forall _ (at_ _ _) => unfold at_; constructor; [apply index_ok; lia|constructor]
  | |- Forall _ (act _ _ _) => unfold act
  | |- Forall _ (act_deriv _ _ _ _ _) => unfold act_deriv
  | |- Forall _ (inplace_act _ _) => unfold inplace_act
  | |- Forall _ (inplace_act_deriv _ _ _) => unfold inplace_act_deriv
  | |- Forall _ (unpack _ _) => unfold unpack
  | |- Forall _ (as_row [_] _) => unfold as_row
  | |- Forall _ (clock _ _ _) => unfold clock
  | |- Forall _ (if ?b then _ else _) => is_var b; destruct b
  | |- Forall _ (_ :: _) => constructor; [unfold each, scaled, num; try (ok1; fail)|]
  end.

Section Recurrent.
  Variable l : linst.
  Variables T B n : nat.
  Variable fs : shape.
  Variable timing : bool.
  Hypothesis Hfs : 1 <= length fs.
  Hypothesis Hin : find_shape (S T) B (li_in l) "default" = Some (S T :: B :: fs).
  Hypothesis Hout : find_shape (S T) B (li_out l) "default" = Some [S (S T); B; n].
  Hypothesis Hsize : size l = n.
  Hypothesis Hact : known_activation (activation l).

  Let Hin' : inp l (S T) B "default" = S T :: B :: fs.
  Proof. unfold inp, sh. now rewrite Hin. Qed.
  Let Hout' : outp l (S T) B "default" = [S (S T); B; n].
  Proof. unfold outp, sh. now rewrite Hout. Qed.

  Section Simple.
    Hypothesis Hpar : map fst (li_params l) = recurrent_names timing.
    Hypothesis Hint : map fst (li_int l) = ["Ha"; "dHa"; "dHb"].
    Hypothesis HW : par l (S T) B "W" = [n; prod fs].
    Hypothesis HR : par l (S T) B "R" = [n; n].
    Hypothesis Hbias : par l (S T) B "bias" = [n].
    Hypothesis Htiming : timing = true -> par l (S T) B "timing" = [n].
    Hypothesis HHa : find_shape (S T) B (li_int l) "Ha" = Some [S (S T); B; n].
    Hypothesis HdHa : int l (S T) B "dHa" = [S (S T); B; n].
    Hypothesis HdHb : int l (S T) B "dHb" = [S (S T); B; n].
    Let HHa' : int l (S T) B "Ha" = [S (S T); B; n].
    Proof. unfold int, sh. now rewrite HHa. Qed.

    Lemma fwd_recurrent_ok : Forall call_ok (fwd_recurrent l (S T) B timing).
    Proof.
      unfold fwd_recurrent. cbv zeta. unfold access. cbn [map].
      rewrite Hin, Hout, HHa, Hin', Hout', HW, HR, Hbias, HHa', Hsize.
      cbn [hd flat_time_features flat_time drop_rows row tl Nat.sub].
      oks.
      - apply Forall_flat_map. intros t Ht. apply in_seq in Ht. cbv zeta. destruct timing; [rewrite (Htiming eq_refl)|]; cbn [hd andb]; oks.
        destruct (0 <? t); oks.
    Qed.

    Lemma bwd_recurrent_ok : Forall call_ok (bwd_recurrent l (S T) B timing).
    Proof.
      unfold bwd_recurrent. cbv zeta. unfold access. cbn [map].
      rewrite Hin, Hout, Hin', Hout', HW, HR, Hbias, HHa', HdHa, HdHb.
      cbn [hd flat_time_features flat_time drop_rows row tl Nat.sub]. rewrite Nat.sub_0_r.
      oks.
      - apply Forall_flat_map. intros t Ht. apply in_rev, in_seq in Ht. cbv zeta. destruct timing; [rewrite (Htiming eq_refl)|]; cbn [hd]; oks.
    Qed.
  End Simple.

  Section Lstm.
    Hypothesis Hpar : map fst (li_params l) = lstm_param_names timing.
    Hypothesis Hint : map fst (li_int l) = lstm_int_names.
    Hypothesis HW : forall x, In x ["Wz"; "Wi"; "Wf"; "Wo"] -> par l (S T) B x = [n; prod fs].
    Hypothesis Hp : forall x, In x ["pi"; "pf"; "po"] -> par l (S T) B x = [1; n].
    Hypothesis HR : forall x, In x ["Rz"; "Ri"; "Rf"; "Ro"] -> par l (S T) B x = [n; n].
    Hypothesis Hb : forall x, In x ["bz"; "bi"; "bf"; "bo"] -> par l (S T) B x = [n].
    Hypothesis Htiming : timing = true -> par l (S T) B "timing" = [n].
    Hypothesis Hi : forall x, In x lstm_int_names -> int l (S T) B x = [S (S T); B; n].
    Let mem x (l' : list string) : smem x l' = true -> In x l'.
    Proof. unfold smem. intros H. apply existsb_exists in H. destruct H as [y [Hy E]]. apply String.eqb_eq in E. now subst. Qed.

    Lemma fwd_lstm_ok : Forall call_ok (fwd_lstm l (S T) B timing).
    Proof.
      unfold fwd_lstm. cbv zeta. unfold access. cbn [map].
      rewrite Hin, Hout, Hin', Hout', Hsize.
      rewrite !Hi by (apply mem; reflexivity). rewrite ?(HW "Wz"), ?(HW "Wi"), ?(HW "Wf"), ?(HW "Wo") by (apply mem; reflexivity).
      rewrite ?(Hp "pi"), ?(Hp "pf"), ?(Hp "po") by (apply mem; reflexivity). rewrite ?(HR "Rz"), ?(HR "Ri"), ?(HR "Rf"), ?(HR "Ro") by (apply mem; reflexivity).
      rewrite ?(Hb "bz"), ?(Hb "bi"), ?(Hb "bf"), ?(Hb "bo") by (apply mem; reflexivity).
      cbn [hd flat_time_features flat_time drop_rows row tl Nat.sub].
      oks.
      - apply Forall_flat_map. intros t Ht. apply in_seq in Ht. cbv zeta.
        destruct timing; [rewrite (Htiming eq_refl)|]; cbn [hd andb]; oks.
        destruct (0 <? t); oks.
    Qed.

    Lemma bwd_lstm_ok : Forall call_ok (bwd_lstm l (S T) B timing).
    Proof.
      unfold bwd_lstm. cbv zeta. unfold access. cbn [map].
      rewrite Hin, Hout, Hin', Hout'.
      rewrite !Hi by (apply mem; reflexivity). rewrite ?(HW "Wz"), ?(HW "Wi"), ?(HW "Wf"), ?(HW "Wo") by (apply mem; reflexivity).
      rewrite ?(Hp "pi"), ?(Hp "pf"), ?(Hp "po") by (apply mem; reflexivity). rewrite ?(HR "Rz"), ?(HR "Ri"), ?(HR "Rf"), ?(HR "Ro") by (apply mem; reflexivity).
      rewrite ?(Hb "bz"), ?(Hb "bi"), ?(Hb "bf"), ?(Hb "bo") by (apply mem; reflexivity).
      cbn [hd flat_time_features flat_time drop_rows row tl Nat.sub flat_map]. rewrite Nat.sub_0_r.
      oks.
      - apply Forall_flat_map. intros t Ht. apply in_rev, in_seq in Ht. cbv zeta.
        destruct timing; [rewrite (Htiming eq_refl)|]; cbn [hd]; oks.
    Qed.
  End Lstm.
End Recurrent.
