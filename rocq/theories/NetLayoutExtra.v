(** Parameters have a fixed shape, and no internal buffer is named "dd...". *)
From Coq Require Import String Ascii List ZArith QArith Bool Lia Permutation.
From Verif Require Import PyBase PyFacts UtilsModel UtilsProofs NamesModel ArchModel ArchProofs ShapesModel ShapesProofs SetupModel PassShapesModel SetupProofs PassShapesProofs SetupProps InstanceProofs InstanceProps.
Import ListNotations.
Open Scope string_scope.
Open Scope list_scope.
Open Scope nat_scope.

Definition fixed (b : bstruct) : Prop := exists dims, bs_shape b = map DInt dims.
Definition all_fixed (d : list (string * bstruct)) : Prop := forall n b, In (n, b) d -> fixed b.
Definition no_dd_b (l : list string) : bool := forallb (fun x => negb (String.prefix "dd" x)) l.

Lemma plain_fixed dims b : plain dims = SOk b -> fixed b.
Proof. intros H. apply new_structure_ok in H. destruct H as [-> _]. now exists dims. Qed.
Lemma fixed_nil : all_fixed [].
Proof. intros n b []. Qed.
Lemma fixed_cons n b d : fixed b -> all_fixed d -> all_fixed ((n, b) :: d).
Proof. intros H1 H2 n' b' [[= <- <-]|H]; [exact H1|eapply H2; eauto]. Qed.
Lemma fixed_build l d : build l = SOk d -> (forall n b, In (n, SOk b) l -> fixed b) -> all_fixed d.
Proof. intros H HV n b Hb. eapply HV, build_In; eauto. Qed.

Ltac fixeds :=
  match goal with
  | |- all_fixed [] => apply fixed_nil
  | |- all_fixed (_ :: _) => apply fixed_cons; [match goal with H : plain _ = SOk ?b |- fixed ?b => exact (plain_fixed _ _ H) end|fixeds]
  | H : build _ = SOk ?x |- all_fixed ?x =>
      let n := fresh "n" in let b := fresh "b" in let Hb := fresh "Hb" in
      apply (fixed_build _ _ H); intros n b Hb; cbn [In app map same_for] in Hb;
      repeat match type of Hb with _ \/ _ => destruct Hb as [Hb|Hb] end; try contradiction;
      apply (f_equal snd) in Hb; cbn [snd] in Hb;
      first [exact (plain_fixed _ _ Hb) | injection Hb as <-; match goal with H : plain _ = SOk ?b |- fixed ?b => exact (plain_fixed _ _ H) end]
  end.
Ltac nodd :=
  repeat match goal with H : build _ = SOk ?x |- context [map fst ?x] => rewrite (build_keys _ _ H) end; vm_compute; reflexivity.
Ltac extra HS :=
  inv_setup HS; injection HS as <-;
  try match goal with H : build (if ?b then _ else _) = _ |- _ => destruct b end;
  cbn [sp_params sp_int]; (split; [fixeds|nodd]).

Lemma build_In_default n r bs : build [(n, r)] = SOk bs -> exists b, r = SOk b.
Proof. cbn [build]. destruct r as [b|]; [|discriminate]. eauto. Qed.
Lemma last_is_int h w d ctx wd b : new_structure [DT; DB; DInt h; DInt w; d] ctx wd = SOk b -> exists z, d = DInt z.
Proof.
  unfold new_structure. destruct (structure_valid _ _) eqn:V; [|discriminate]. intros _.
  apply structure_valid_spec in V. destruct V as [k [f [c [[E _] _]]]].
  destruct k; cbn [prefix app] in E; [destruct f as [|? f]; discriminate E|discriminate E|].
  injection E as E. destruct f as [|z1 [|z2 [|z3 f]]]; cbn in E; try discriminate. injection E as _ _ E _. eauto.
Qed.

Lemma setup_extra c name kw ins sp : setup c name kw ins = SOk sp ->
  all_fixed (sp_params sp) /\ no_dd_b (map fst (sp_int sp)) = true.
Proof.
  intros HS. destruct c; cbn [setup] in HS.
  - unfold setup_batch_norm in HS. extra HS.
  - unfold setup_binomial in HS. extra HS.
  - unfold setup_recurrent in HS. extra HS.
  - unfold setup_lstm in HS. extra HS.
  - unfold setup_conv in HS. inv_setup HS. injection HS as <-. cbn [sp_params sp_int]. split; [|reflexivity].
    match goal with HO : build [("default", new_structure [DT; DB; DInt _; DInt _; ?d] _ _)] = SOk _ |- _ =>
      assert (D : exists z, d = DInt z) by (apply build_In_default in HO; destruct HO as [b HO]; exact (last_is_int _ _ _ _ _ _ HO)) end.
    destruct D as [nf D]. rewrite D in *.
    match goal with H : build _ = SOk ?x |- all_fixed ?x => apply (fixed_build _ _ H) end.
    intros n b [H|[H|[]]]; apply (f_equal snd) in H; cbn [snd] in H; apply new_structure_ok in H; destruct H as [-> _].
    + now eexists [nf; _; _; _].
    + now exists [nf].
  - unfold setup_deltas_scaling in HS. extra HS.
  - unfold setup_dropout in HS. extra HS.
  - unfold setup_elementwise in HS. extra HS.
  - unfold setup_fully_connected in HS. extra HS.
  - unfold setup_highway in HS. extra HS.
  - unfold setup_input in HS. destruct (dget "out_shapes" kw) as [v|]; [|discriminate].
    destruct ins; [|discriminate]. cbn [guard sbind] in HS. destruct v as [| | | |d|]; try discriminate.
    destruct (build _) as [outs|] eqn:E; [|discriminate]. cbn [sbind] in HS. injection HS as <-.
    split; [apply fixed_nil|reflexivity].
  - unfold setup_l1_decay in HS. extra HS.
  - unfold setup_l2_decay in HS. extra HS.
  - unfold setup_loss in HS. extra HS.
  - unfold setup_lstm in HS. extra HS.
  - unfold setup_mask in HS. extra HS.
  - unfold setup_merge in HS. extra HS.
  - unfold setup_noop in HS. extra HS.
  - unfold setup_pool in HS. extra HS.
  - unfold setup_recurrent in HS. extra HS.
  - unfold setup_sigmoid_ce in HS. extra HS.
  - unfold setup_softmax_ce in HS. extra HS.
  - unfold setup_squared_difference in HS. extra HS.
  - unfold setup_squared_error in HS. extra HS.
Qed.

Lemma made_extra a cns layers l : made_from a cns layers l ->
  all_fixed (li_params l) /\ no_dd_b (map fst (li_int l)) = true.
Proof.
  intros [pre [r [kw [ty [c [ins [_ [_ [_ [_ [_ Hm]]]]]]]]]]].
  apply make_layer_inv in Hm. destruct Hm as [_ [sp [HS ->]]]. cbn [li_params li_int]. eapply setup_extra. exact HS.
Qed.
