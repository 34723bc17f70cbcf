(** The structures and names of a constructed layer. *)
From Coq Require Import String Ascii List ZArith QArith Bool Lia Permutation.
From Verif Require Import PyBase PyFacts UtilsModel UtilsProofs NamesModel ArchModel ShapesModel SetupModel PassShapesModel SetupProofs PassShapesProofs.
Import ListNotations.
Open Scope string_scope.
Open Scope list_scope.
Open Scope nat_scope.

Definition all_valid (d : list (string * bstruct)) : Prop := forall n b, In (n, b) d -> valid b.

Lemma build_keys l : forall bs, build l = SOk bs -> map fst bs = map fst l.
Proof.
  induction l as [|[n r] l IH]; intros bs; cbn [build]; [intros [= <-]; reflexivity|].
  destruct r as [b|]; [|discriminate]. cbn [sbind]. destruct (build l) as [bs'|]; [|discriminate]. cbn [sbind].
  intros [= <-]. cbn. f_equal. now apply IH.
Qed.
Lemma build_In l : forall bs n b, build l = SOk bs -> In (n, b) bs -> In (n, SOk b) l.
Proof.
  induction l as [|[n' r] l IH]; intros bs n b; cbn [build]; [intros [= <-] []|].
  destruct r as [b'|]; [|discriminate]. cbn [sbind]. destruct (build l) as [bs'|]; [|discriminate]. cbn [sbind].
  intros [= <-] [[= -> ->]|H]; [now left|]. right. now apply (IH bs').
Qed.
Lemma new_valid s c w b : new_structure s c w = SOk b -> valid b.
Proof. intros H. apply new_structure_ok in H. destruct H as [-> H]. exact H. Qed.

Definition char_in (c : ascii) (s : string) : bool := if in_dec ascii_dec c (chars s) then true else false.
Definition component_b (s : string) : bool :=
  negb (String.eqb s "") && negb (char_in "." s) && negb (char_in "@" s).
Lemma component_b_ok s : component_b s = true -> component s.
Proof.
  unfold component_b, char_in, component. intros H. apply andb_prop in H. destruct H as [H H3].
  apply andb_prop in H. destruct H as [H1 H2].
  destruct (String.eqb_spec s ""); [discriminate|]. destruct (in_dec ascii_dec "."%char (chars s)); [discriminate|].
  destruct (in_dec ascii_dec "@"%char (chars s)); [discriminate|]. auto.
Qed.
Fixpoint nodup_b (l : list string) : bool :=
  match l with [] => true | x :: r => negb (smem x r) && nodup_b r end.
Lemma nodup_b_ok l : nodup_b l = true -> NoDup l.
Proof.
  induction l as [|x r IH]; cbn; [constructor|]. intros H. apply andb_prop in H. destruct H as [H1 H2].
  constructor; [|auto]. intros Hx. apply smem_In in Hx. rewrite Hx in H1. discriminate.
Qed.
Definition names_good (l : list string) : Prop := NoDup l /\ Forall component l.
Definition names_b (l : list string) : bool := nodup_b l && forallb component_b l.
Lemma names_b_ok l : names_b l = true -> names_good l.
Proof.
  intros H. apply andb_prop in H. destruct H as [H1 H2]. split; [now apply nodup_b_ok|].
  apply Forall_forall. intros x Hx. rewrite forallb_forall in H2. now apply component_b_ok, H2.
Qed.
Lemma component_d s : component s -> component ("d" ++ s)%string.
Proof.
  intros [_ [H2 H3]]. split; [discriminate|]. cbn. split; intros [H|H]; (discriminate || contradiction).
Qed.

(** Internal buffers X and dX have the same shape. *)
Definition deltas_alike (d : list (string * bstruct)) : Prop :=
  forall x b b', In (x, b) d -> In (("d" ++ x)%string, b') d -> bs_shape b' = bs_shape b.
Definition no_deltas_b (l : list string) : bool := forallb (fun x => negb (smem ("d" ++ x)%string l)) l.
Lemma no_deltas_ok d : no_deltas_b (map fst d) = true -> deltas_alike d.
Proof.
  intros H x b b' Hb Hb'. unfold no_deltas_b in H. rewrite forallb_forall in H. apply (in_map fst) in Hb, Hb'. cbn [fst] in Hb, Hb'.
  apply H in Hb. apply smem_In in Hb'. rewrite Hb' in Hb. discriminate.
Qed.
Lemma one_shape_ok d s : (forall x b, In (x, b) d -> bs_shape b = s) -> deltas_alike d.
Proof. intros H x b b' Hb Hb'. rewrite (H _ _ Hb), (H _ _ Hb'). reflexivity. Qed.

Record sound_spec (sp : spec) : Prop := {
  ss_out : names_good (map fst (sp_out sp));
  ss_params : names_good (map fst (sp_params sp));
  ss_int : names_good (map fst (sp_int sp));
  ss_vout : all_valid (sp_out sp);
  ss_vparams : all_valid (sp_params sp);
  ss_vint : all_valid (sp_int sp);
  ss_deltas : deltas_alike (sp_int sp)
}.

Lemma in_shape_In n ins b : in_shape n ins = SOk b -> In (n, b) ins.
Proof. unfold in_shape. destruct (dget n ins) eqn:E; [|discriminate]. intros [= <-]. now apply dget_In. Qed.

Lemma all_valid_nil : all_valid [].
Proof. intros n b []. Qed.
Lemma all_valid_cons n b d : valid b -> all_valid d -> all_valid ((n, b) :: d).
Proof. intros H1 H2 n' b' [[= <- <-]|H]; [exact H1|eapply H2; eauto]. Qed.
Lemma build_valid l bs : build l = SOk bs -> (forall n b, In (n, SOk b) l -> valid b) -> all_valid bs.
Proof. intros H HV n b Hb. eapply HV, build_In; eauto. Qed.

Ltac names_solve :=
  repeat match goal with
  | H : build _ = SOk ?x |- context [map fst ?x] => rewrite (build_keys _ _ H)
  end; apply names_b_ok; vm_compute; reflexivity.

Section Setup.
  Variables (name : string) (kw : kwargs) (ins : list (string * bstruct)).
  Hypothesis HI : all_valid ins.
  Hypothesis HN : names_good (map fst ins).

  Lemma in_valid n b : in_shape n ins = SOk b -> valid b.
  Proof. intros H. eapply HI, in_shape_In; eauto. Qed.

  Ltac val :=
    match goal with
    | |- valid ?b => match goal with
                     | H : in_shape _ _ = SOk b |- _ => exact (in_valid _ _ H)
                     | H : plain _ = SOk b |- _ => exact (new_valid _ _ _ _ H)
                     | H : timed _ _ _ = SOk b |- _ => exact (new_valid _ _ _ _ H)
                     | H : new_structure _ _ _ = SOk b |- _ => exact (new_valid _ _ _ _ H)
                     end
    end.
  Ltac bval H :=
    let n := fresh "n" in let b := fresh "b" in let Hb := fresh "Hb" in
    apply (build_valid _ _ H); intros n b Hb; cbn [In app map same_for lstm_forward_names lstm_backward_names] in Hb;
    repeat match type of Hb with
           | _ \/ _ => destruct Hb as [Hb|Hb]
           end; try contradiction;
    apply (f_equal snd) in Hb; cbn [snd] in Hb;
    first [exact (new_valid _ _ _ _ Hb) | injection Hb as <-; val].
  Ltac valids :=
    match goal with
    | |- all_valid [] => apply all_valid_nil
    | |- all_valid (_ :: _) => apply all_valid_cons; [val|valids]
    | H : build _ = SOk ?x |- all_valid ?x => bval H
    end.
  Ltac sound HS :=
    inv_setup HS; injection HS as <-;
    try match goal with H : build (if ?b then _ else _) = _ |- _ => destruct b end;
    (constructor; cbn [sp_out sp_params sp_int];
    [names_solve | names_solve | names_solve | valids | valids | valids | ]).

  Lemma batch_norm_sound sp : setup_batch_norm kw ins = SOk sp -> sound_spec sp.
  Proof. intros HS. unfold setup_batch_norm in HS. sound HS. apply no_deltas_ok. reflexivity. Qed.
  Ltac nod :=
    repeat match goal with
    | H : build _ = SOk ?x |- context [deltas_alike ?x] => apply no_deltas_ok; rewrite (build_keys _ _ H)
    end; first [reflexivity | apply no_deltas_ok; reflexivity].
  Lemma binomial_sound sp : setup_binomial kw ins = SOk sp -> sound_spec sp.
  Proof. intros HS. unfold setup_binomial in HS. sound HS; nod. Qed.
  Lemma deltas_scaling_sound sp : setup_deltas_scaling kw ins = SOk sp -> sound_spec sp.
  Proof. intros HS. unfold setup_deltas_scaling in HS. inv_setup HS. injection HS as <-. constructor; cbn; try apply all_valid_nil; try (apply names_b_ok; reflexivity); auto. apply no_deltas_ok. reflexivity. Qed.
  Lemma dropout_sound sp : setup_dropout kw ins = SOk sp -> sound_spec sp.
  Proof. intros HS. unfold setup_dropout in HS. sound HS; nod. Qed.
  Lemma elementwise_sound sp : setup_elementwise kw ins = SOk sp -> sound_spec sp.
  Proof. intros HS. unfold setup_elementwise in HS. inv_setup HS. injection HS as <-. constructor; cbn; try apply all_valid_nil; try (apply names_b_ok; reflexivity); auto. apply no_deltas_ok. reflexivity. Qed.
  Lemma noop_sound sp : setup_noop kw ins = SOk sp -> sound_spec sp.
  Proof. intros HS. unfold setup_noop in HS. inv_setup HS. injection HS as <-. constructor; cbn; try apply all_valid_nil; try (apply names_b_ok; reflexivity); auto. apply no_deltas_ok. reflexivity. Qed.
  Lemma fully_connected_sound sp : setup_fully_connected kw ins = SOk sp -> sound_spec sp.
  Proof. intros HS. unfold setup_fully_connected in HS. sound HS; nod. Qed.
  Lemma highway_sound sp : setup_highway kw ins = SOk sp -> sound_spec sp.
  Proof. intros HS. unfold setup_highway in HS. sound HS; nod. Qed.
  Lemma l1_decay_sound sp : setup_l1_decay kw ins = SOk sp -> sound_spec sp.
  Proof. intros HS. unfold setup_l1_decay in HS. sound HS; nod. Qed.
  Lemma l2_decay_sound sp : setup_l2_decay kw ins = SOk sp -> sound_spec sp.
  Proof. intros HS. unfold setup_l2_decay in HS. sound HS; nod. Qed.
  Lemma mask_sound sp : setup_mask kw ins = SOk sp -> sound_spec sp.
  Proof. intros HS. unfold setup_mask in HS. sound HS; nod. Qed.
  Lemma merge_sound sp : setup_merge kw ins = SOk sp -> sound_spec sp.
  Proof. intros HS. unfold setup_merge in HS. sound HS; nod. Qed.
  Lemma sigmoid_ce_sound sp : setup_sigmoid_ce kw ins = SOk sp -> sound_spec sp.
  Proof. intros HS. unfold setup_sigmoid_ce in HS. sound HS; nod. Qed.
  Lemma softmax_ce_sound sp : setup_softmax_ce kw ins = SOk sp -> sound_spec sp.
  Proof. intros HS. unfold setup_softmax_ce in HS. sound HS; nod. Qed.
  Lemma squared_difference_sound sp : setup_squared_difference kw ins = SOk sp -> sound_spec sp.
  Proof. intros HS. unfold setup_squared_difference in HS. sound HS; nod. Qed.
  Lemma squared_error_sound sp : setup_squared_error kw ins = SOk sp -> sound_spec sp.
  Proof. intros HS. unfold setup_squared_error in HS. sound HS; nod. Qed.
  Lemma conv_sound sp : setup_conv kw ins = SOk sp -> sound_spec sp.
  Proof. intros HS. unfold setup_conv in HS. sound HS; nod. Qed.
  Lemma pool_sound sp : setup_pool kw ins = SOk sp -> sound_spec sp.
  Proof. intros HS. unfold setup_pool in HS. sound HS; nod. Qed.
  Lemma loss_sound sp : setup_loss name kw ins = SOk sp -> sound_spec sp.
  Proof. intros HS. unfold setup_loss in HS. sound HS; nod. Qed.
  Lemma timed_shape dims ctx w b : timed dims ctx w = SOk b -> bs_shape b = DT :: DB :: map DInt dims.
  Proof. intros H. apply new_structure_ok in H. destruct H as [-> _]. reflexivity. Qed.
  Ltac one_shape H :=
    eapply one_shape_ok; let n := fresh "n" in let b := fresh "b" in let Hb := fresh "Hb" in
    intros n b Hb; apply (build_In _ _ _ _ H) in Hb; cbn [In app map same_for lstm_forward_names lstm_backward_names] in Hb;
    repeat match type of Hb with
           | _ \/ _ => destruct Hb as [Hb|Hb]
           end; try contradiction;
    apply (f_equal snd) in Hb; cbn [snd] in Hb; exact (timed_shape _ _ _ _ Hb).
  Ltac last_build := match goal with H : build _ = SOk ?x |- deltas_alike ?x => one_shape H end.
  Lemma recurrent_sound t sp : setup_recurrent t kw ins = SOk sp -> sound_spec sp.
  Proof. intros HS. unfold setup_recurrent in HS. destruct t; sound HS; last_build. Qed.
  Lemma lstm_sound t sp : setup_lstm t kw ins = SOk sp -> sound_spec sp.
  Proof. intros HS. unfold setup_lstm in HS. destruct t; sound HS; last_build. Qed.

  (** The names in out_shapes of an Input layer come from the user. *)
  Definition input_names (kw : kwargs) : list string :=
    match dget "out_shapes" kw with Some (KDict d) => map fst d | _ => [] end.
  Lemma structure_of_kval_valid v b : structure_of_kval v = SOk b -> valid b.
  Proof. destruct v; cbn [structure_of_kval]; try discriminate. apply new_valid. Qed.
  Lemma input_sound sp : names_good (input_names kw) -> setup_input kw ins = SOk sp -> sound_spec sp.
  Proof.
    unfold input_names. intros HK HS. unfold setup_input in HS.
    destruct (dget "out_shapes" kw) as [v|]; [|discriminate].
    destruct ins; [|discriminate]. cbn [guard sbind] in HS.
    destruct v as [| | | |d|]; try discriminate.
    destruct (build _) as [outs|] eqn:E; [|discriminate]. cbn [sbind] in HS. injection HS as <-.
    constructor; cbn [sp_out sp_params sp_int]; try apply all_valid_nil; try (apply names_b_ok; reflexivity).
    - rewrite (build_keys _ _ E), map_map. exact HK.
    - apply (build_valid _ _ E). intros n b Hb. apply in_map_iff in Hb. destruct Hb as [[n' v] [Hb _]].
      apply (f_equal snd) in Hb. eapply structure_of_kval_valid. exact Hb.
    - intros x b b' [].
  Qed.

  Lemma setup_sound c sp : (c = CInput -> names_good (input_names kw)) -> setup c name kw ins = SOk sp -> sound_spec sp.
  Proof.
    intros HK HS. destruct c; cbn [setup] in HS;
    [ eapply batch_norm_sound | eapply binomial_sound | eapply recurrent_sound | eapply lstm_sound | eapply conv_sound
    | eapply deltas_scaling_sound | eapply dropout_sound | eapply elementwise_sound | eapply fully_connected_sound
    | eapply highway_sound | eapply input_sound; [now apply HK|] | eapply l1_decay_sound | eapply l2_decay_sound | eapply loss_sound
    | eapply lstm_sound | eapply mask_sound | eapply merge_sound | eapply noop_sound | eapply pool_sound | eapply recurrent_sound
    | eapply sigmoid_ce_sound | eapply softmax_ce_sound | eapply squared_difference_sound | eapply squared_error_sound ]; exact HS.
  Qed.
End Setup.
