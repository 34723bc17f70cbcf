(** Lemmas for C71: making the layers of a chain. *)
From Coq Require Import String Ascii List ZArith QArith Bool Lia Arith Permutation.
From Verif Require Import PyBase PyFacts UtilsModel NamesModel ArchModel ShapesModel SetupModel SetupProofs InstanceProofs InstanceProps NetLayoutProps NetMemoryModel SpecModel.
Import ListNotations.
Open Scope string_scope.
Open Scope list_scope.
Open Scope nat_scope.

(** ** Structures *)
Definition nn (fs : list Z) : Prop := Forall (fun z => 0 <= z)%Z fs.
Lemma ints_ok fs : forallb is_int (map DInt fs) = true. Proof. induction fs; [reflexivity|exact IHfs]. Qed.
Lemma timed_make fs ctx w : fs <> [] -> (0 <= ctx)%Z -> timed fs ctx w = SOk (tb fs ctx w).
Proof.
  intros N C. unfold timed, new_structure. assert (E : structure_valid (DT :: DB :: map DInt fs) (Some ctx) = true); [|now rewrite E].
  unfold structure_valid. destruct fs as [|z fs]; [congruence|]. cbn - [context_ok]. rewrite ints_ok. cbn. destruct (Z.ltb_spec ctx 0); [lia|]. cbn. now rewrite andb_false_r.
Qed.
Lemma plain_make fs : fs <> [] -> plain fs = SOk (pl fs).
Proof.
  intros N. unfold plain, new_structure. assert (E : structure_valid (map DInt fs) (Some 0%Z) = true); [|now rewrite E].
  unfold structure_valid, context_ok, feature_shape, buffer_type. rewrite !dmem_ints by discriminate. cbn [andb negb skipn]. rewrite ints_ok. destruct fs; [congruence|]. reflexivity.
Qed.
Lemma tb_any_ok f : f <> [] -> template_matches tb_any (DT :: DB :: map DInt f) = true.
Proof. destruct f as [|z f]; [congruence|]. intros _. unfold template_matches. cbn. destruct (map DInt f); reflexivity. Qed.
Lemma combine_one f ctx w : f <> [] -> combine_structs [tb f ctx w] = SOk (tb f 0 false).
Proof.
  intros N. unfold combine_structs, combine_buffer_structures. cbn [map]. cbn [all_equal_nat forallb negb map bs_shape tb].
  assert (E : feature_shape (DT :: DB :: map DInt f) = map DInt f) by reflexivity. rewrite E.
  assert (D : dims_eqb (removelast (map DInt f)) (removelast (map DInt f)) = true) by now apply dims_eqb_eq. rewrite D. cbn [andb negb].
  assert (X : scaling_shape (DT :: DB :: map DInt f) ++ removelast (map DInt f) ++ [DInt (fold_right Z.add 0%Z [dim_value (last (map DInt f) (DInt 0))])] = DT :: DB :: map DInt f).
  { cbn [fold_right]. unfold scaling_shape, buffer_type. cbn. f_equal. f_equal. rewrite Z.add_0_r.
    destruct (exists_last N) as [g [z ->]]. rewrite map_app. cbn [map]. rewrite removelast_last, last_last. reflexivity. }
  rewrite X. assert (T := timed_make f 0 false N ltac:(lia)). exact T.
Qed.

(** ** The layers of a spec line *)
Definition known_act (s : string) : Prop := In s ["sigmoid"; "tanh"; "rel"; "linear"].
Definition conv_size (n padding kernel stride : Z) : Z := ((n + 2 * padding - kernel) / stride + 1)%Z.
(** The shape of the features after a layer, for the features [f] before it *)
Inductive flows : layer_call -> list Z -> list Z -> Prop :=
| flow_F z act f : (0 <= z)%Z -> known_act act -> flows ("FullyConnected", [("size", KInt z); ("activation", KStr act)]) f [z]
| flow_R z act f : (0 <= z)%Z -> known_act act -> flows ("Recurrent", [("size", KInt z); ("activation", KStr act)]) f [z]
| flow_L z act f : (0 <= z)%Z -> known_act act -> flows ("Lstm", [("size", KInt z); ("activation", KStr act)]) f [z]
| flow_D q f : flows ("Dropout", [("drop_prob", KNum q)]) f f
| flow_B n : flows ("BatchNorm", [("decay", KNum (9#10)); ("epsilon", KNum (1#100000))]) [n] [n]
| flow_C m k p s act h w c : (0 <= m)%Z -> (0 <= k)%Z -> (0 <= p)%Z -> (0 < s)%Z -> known_act act -> (0 <= conv_size h p k s)%Z -> (0 <= conv_size w p k s)%Z ->
    flows ("Convolution2D", [("num_filters", KInt m); ("kernel_size", KSeq [KInt k; KInt k]); ("stride", KSeq [KInt s; KInt s]); ("padding", KInt p); ("activation", KStr act)])
      [h; w; c] [conv_size h p k s; conv_size w p k s; m]
| flow_P k p s ty h w c : (0 <= k)%Z -> (0 <= p)%Z -> (0 < s)%Z -> In ty ["max"; "avg"] -> (0 < conv_size h p k s)%Z -> (0 < conv_size w p k s)%Z ->
    flows ("Pooling2D", [("kernel_size", KSeq [KInt k; KInt k]); ("type", KStr ty); ("stride", KSeq [KInt s; KInt s]); ("padding", KInt p)])
      [h; w; c] [conv_size h p k s; conv_size w p k s; c].

Definition sizes_ok (l : linst) : Prop :=
  forall x b z, In (x, b) (li_in l ++ li_out l ++ li_params l ++ li_int l) -> In (DInt z) (bs_shape b) -> (0 <= z)%Z.
Definition class_of_type (ty : string) : cls := match get_layer_class ty with SOk c => c | SErr _ => CInput end.

Lemma known_ok act : known_act act -> is_some (act_of (KStr act)) = true.
Proof. intros [<-|[<-|[<-|[<-|[]]]]]; reflexivity. Qed.
Lemma tb_dims f ctx w z : nn f -> In (DInt z) (bs_shape (tb f ctx w)) -> (0 <= z)%Z.
Proof. intros H [E|[E|E]]; try discriminate. apply in_map_iff in E. destruct E as [y [[= ->] Hy]]. unfold nn in H. rewrite Forall_forall in H. now apply H. Qed.
Lemma pl_dims f z : nn f -> In (DInt z) (bs_shape (pl f)) -> (0 <= z)%Z.
Proof. intros H E. apply in_map_iff in E. destruct E as [y [[= ->] Hy]]. unfold nn in H. rewrite Forall_forall in H. now apply H. Qed.
Lemma fsize_nn f ctx w : nn f -> (0 <= fsize (tb f ctx w))%Z.
Proof. intros H. unfold fsize. rewrite features_tb. induction H; cbn [fold_right]; [lia|]. now apply Z.mul_nonneg_nonneg. Qed.

Definition makes (call : layer_call) (name : string) (ins : list (string * bstruct)) (inc outg : list connection) (outs : list (string * bstruct)) (l : linst) : Prop :=
  make_layer (class_of_type (fst call)) name ins inc outg (snd call) = SOk l /\ li_cls l = class_of_type (fst call) /\ li_name l = name /\
  li_incoming l = inc /\ li_outgoing l = outg /\ li_in l = ins /\ li_out l = outs /\ sizes_ok l.

Ltac dims_tac := intros x0 b0 z0 Hin Hz; cbn [In app li_in li_out li_params li_int] in Hin;
  repeat (destruct Hin as [[= <- <-]|Hin]; [first [eapply tb_dims; [|exact Hz]; solve [assumption|repeat constructor; auto; try lia] | eapply pl_dims; [|exact Hz]; repeat constructor; auto; try lia]|]); contradiction.
Lemma in_ok inc (ins : list (string * bstruct)) : (forall k, In k inc -> In (c_in k) (map fst ins)) -> forallb (fun k => PyBase.dmem (c_in k) ins) inc = true.
Proof.
  intros H. apply forallb_forall. intros k Hk. specialize (H k Hk). unfold PyBase.dmem. now apply PyFacts.smem_In.
Qed.
Lemma out_ok sp outg : (forall k, In k outg -> In (c_out k) (map fst (sp_out sp)) /\ dotted (c_out k) = false) -> forallb (valid_outgoing sp) outg = true.
Proof.
  intros H. apply forallb_forall. intros k Hk. destruct (H k Hk) as [H1 H2]. unfold valid_outgoing. rewrite H2. unfold PyBase.dmem. now apply PyFacts.smem_In.
Qed.
Definition from_default (inc : list connection) : Prop := forall k, In k inc -> c_in k = "default".
Definition to_default (outg : list connection) : Prop := forall k, In k outg -> c_out k = "default".

Lemma validate_one c t b : expected_inputs c = [("default", t)] -> template_matches t (bs_shape b) = true -> validate_in_shapes c [("default", b)] = true.
Proof. intros E H. unfold validate_in_shapes. rewrite E. cbn - [template_matches]. now rewrite H. Qed.
Ltac fold_sizes := repeat match goal with |- context [((?n + 2 * ?p - ?k) / ?s + 1)%Z] => change ((n + 2 * p - k) / s + 1)%Z with (conv_size n p k s) end.
Lemma timed_of3 a b m : timed [a; b; m] 0 false = new_structure [DT; DB; DInt a; DInt b; kdim (KInt m)] 0 false. Proof. reflexivity. Qed.
Ltac simp := cbn [in_shape kget dget String.eqb Ascii.eqb Bool.eqb sbind guard validate_kwargs forallb fst snd smem existsb expected_kwargs orb andb negb as_int as_ints app].
Lemma make_item call f g : flows call f g -> f <> [] -> nn f ->
  nn g /\ g <> [] /\ get_layer_class (fst call) = SOk (class_of_type (fst call)) /\
  In (class_of_type (fst call)) [CFullyConnected; CRecurrent; CLstm; CDropout; CBatchNorm; CConv; CPool] /\
  exists ctx, forall name inc outg, from_default inc -> to_default outg ->
    exists l, makes call name [("default", tb f 0 false)] inc outg [("default", tb g ctx false)] l /\ supported l = true.
Proof.
  intros F N P. assert (FS := fsize_nn f 0 false P).
  assert (Gin : forall inc, from_default inc -> forallb (fun k => PyBase.dmem (c_in k) [("default", tb f 0 false)]) inc = true).
  { intros inc H. apply in_ok. intros k Hk. rewrite (H k Hk). now left. }
  assert (Gout : forall sp b outg, to_default outg -> sp_out sp = [("default", b)] -> forallb (valid_outgoing sp) outg = true).
  { intros sp b outg H E. apply out_ok. intros k Hk. rewrite (H k Hk), E. split; [now left|reflexivity]. }
  assert (V : forall c, expected_inputs c = [("default", tb_any)] -> validate_in_shapes c [("default", tb f 0 false)] = true).
  { intros c E. apply (validate_one c tb_any _ E). exact (tb_any_ok f N). }
  Ltac start c := intros name inc outg Hi Ho; unfold makes, make_layer; cbn [isort fold_right insert fst snd];
    match goal with |- context [class_of_type ?t] => change (class_of_type t) with c end; match goal with V : forall c, _ -> validate_in_shapes _ _ = true |- _ => rewrite (V c eq_refl) end; cbn [setup]; simp.
  Ltac conns := unfold validate_connections; match goal with Gin : forall inc, _ -> forallb _ _ = true, Hi : from_default _ |- _ => rewrite (Gin _ Hi) end; simp;
    match goal with Gout : forall sp b outg, _, Ho : to_default _ |- _ => erewrite Gout by (exact Ho || reflexivity) end; simp.
  Ltac conv_tac := match goal with p : Z, Hp : (0 <= ?p)%Z |- context [guard (0 <=? ?p)%Z _] => replace (0 <=? p)%Z with true by (symmetry; apply Z.leb_le; lia) end; cbn [guard sbind as_int fst snd];
    match goal with |- context [((0 <=? ?s) && (0 <=? ?s))%Z] => replace (0 <=? s)%Z with true by (symmetry; apply Z.leb_le; lia) end; cbn [andb guard sbind in_shape dget String.eqb Ascii.eqb Bool.eqb];
    rewrite features_tb; unfold out_extent; match goal with |- context [(?s =? 0)%Z] => destruct (Z.eqb_spec s 0); [lia|] end; cbn [sbind]; fold_sizes; unfold build; simp.
  inversion F; subst; (split; [first [assumption|repeat constructor; auto; lia|unfold nn in *; repeat match goal with H : Forall _ (_ :: _) |- _ => inversion_clear H end; repeat constructor; auto; lia]|]); (split; [try discriminate; assumption|]); (split; [reflexivity|]); (split; [cbn; tauto|]).
  - exists 0%Z. start CFullyConnected. unfold setup_fully_connected. simp. rewrite (timed_make [z]) by (discriminate || lia). simp. unfold build. rewrite !plain_make by discriminate. simp. conns.
    eexists. split; [repeat split|cbn; now apply known_ok]. assert (0 <= fsize (tb [z] 0 false))%Z by (apply fsize_nn; repeat constructor; assumption). dims_tac.
  - exists 1%Z. start CRecurrent. unfold setup_recurrent. simp. unfold build. rewrite !(timed_make [z]) by (discriminate || lia). rewrite !plain_make by discriminate. simp. conns.
    eexists. split; [repeat split|cbn; now apply known_ok]. dims_tac.
  - exists 1%Z. start CLstm. unfold setup_lstm. simp. unfold build, same_for. cbn [map app lstm_forward_names lstm_backward_names]. rewrite !(timed_make [z]) by (discriminate || lia). rewrite !plain_make by discriminate. simp. conns.
    eexists. split; [repeat split|cbn; now apply known_ok]. dims_tac.
  - exists 0%Z. start CDropout. unfold setup_dropout. simp. conns. eexists. split; [repeat split|reflexivity]. dims_tac.
  - exists 0%Z. start CBatchNorm. unfold setup_batch_norm. cbn [kget dget String.eqb Ascii.eqb Bool.eqb as_number]. change (guard (Qle_bool 0 (9 # 10) && Qle_bool (9 # 10) 1) EAssertion) with (SOk tt). simp. rewrite plain_make by discriminate. simp. conns.
    eexists. split; [repeat split|reflexivity]. assert (0 <= n)%Z by (inversion P; assumption). dims_tac.
  - exists 0%Z. start CConv. unfold setup_conv. cbn [dget String.eqb Ascii.eqb Bool.eqb kget as_int as_pair]. conv_tac. rewrite <- !timed_of3, !timed_make by (discriminate || lia).
    change (new_structure [kdim (KInt m); DInt k; DInt k; DInt c] 0 false) with (plain [m; k; k; c]). change (new_structure [kdim (KInt m)] 0 false) with (plain [m]). rewrite !plain_make by discriminate. simp. conns.
    eexists. split; [repeat split|cbn; now apply known_ok]. assert (0 <= c)%Z by (unfold nn in P; rewrite Forall_forall in P; apply P; cbn; tauto). dims_tac.
  - exists 0%Z. start CPool. unfold setup_pool. cbn [dget String.eqb Ascii.eqb Bool.eqb kget as_int as_pair]. assert (C0 : (0 <= c)%Z) by (unfold nn in P; rewrite Forall_forall in P; apply P; cbn; tauto).
    rename H2 into HT. destruct HT as [<-|[<-|[]]]; cbn [String.eqb Ascii.eqb Bool.eqb sbind]; conv_tac; (replace (0 <? conv_size h p k s)%Z with true by (symmetry; apply Z.ltb_lt; lia)); (replace (0 <? conv_size w p k s)%Z with true by (symmetry; apply Z.ltb_lt; lia)); simp;
    rewrite !timed_make by (discriminate || lia); simp; conns; eexists; (split; [repeat split|cbn; rewrite (proj2 (Z.leb_le 0 k)) by lia; reflexivity]); dims_tac.
Qed.

(** ** The layers added by get_in_out_layers *)
Lemma make_projection m f name inc outg : (0 <= m)%Z -> f <> [] -> nn f -> from_default inc -> to_default outg ->
  exists l, makes ("FullyConnected", [("size", KSeq (map KInt [m])); ("activation", KStr "linear")]) name [("default", tb f 0 false)] inc outg [("default", tb [m] 0 false)] l /\ supported l = true.
Proof.
  intros Hm N P Hi Ho. assert (FS := fsize_nn f 0 false P). unfold makes, make_layer. cbn [isort fold_right insert fst snd]. change (class_of_type "FullyConnected") with CFullyConnected.
  rewrite (validate_one CFullyConnected tb_any (tb f 0 false) eq_refl (tb_any_ok f N)). cbn [setup]. simp. unfold setup_fully_connected. cbn [map]. simp. rewrite (timed_make [m]) by (discriminate || lia). simp. unfold build. rewrite !plain_make by discriminate. simp.
  unfold validate_connections. rewrite in_ok by (intros k Hk; rewrite (Hi k Hk); now left). simp. rewrite out_ok by (intros k Hk; rewrite (Ho k Hk); split; [now left|reflexivity]). simp.
  eexists. split; [repeat split|reflexivity]. assert (0 <= fsize (tb [m] 0 false))%Z by (apply fsize_nn; repeat constructor; assumption). dims_tac.
Qed.
(** The output layer of a task, with the shape of its targets *)
Definition task_of (task : string) (ty : string) (m : Z) (t : list Z) : Prop :=
  (task = "classification" /\ ty = "SoftmaxCE" /\ t = [1%Z]) \/ (task = "multi-label" /\ ty = "SigmoidCE" /\ t = [m]) \/ (task = "regression" /\ ty = "SquaredError" /\ t = [m]).
Lemma two_inputs c (b1 b2 : bstruct) n2 : expected_inputs c = [("default", tb_any); (n2, tb_any)] -> n2 <> "default" -> template_matches tb_any (bs_shape b1) = true -> template_matches tb_any (bs_shape b2) = true ->
  validate_in_shapes c [("default", b1); (n2, b2)] = true.
Proof.
  intros E N H1 H2. unfold validate_in_shapes. rewrite E. cbn [map fst snd forallb]. unfold smem. cbn [existsb dget]. rewrite !String.eqb_refl.
  assert (String.eqb n2 "default" = false) by now apply String.eqb_neq. assert (String.eqb "default" n2 = false) by (apply String.eqb_neq; congruence).
  rewrite ?H, ?H0, ?H1. cbn [orb andb]. rewrite ?H, ?H0, H2. reflexivity.
Qed.
Lemma sort_two n (b1 b2 : bstruct) ins : String.leb "default" n = true -> String.leb n "default" = false -> Permutation ins [("default", b1); (n, b2)] ->
  isort (fun a b : string * bstruct => String.leb (fst a) (fst b)) ins = [("default", b1); (n, b2)].
Proof.
  intros L1 L2 P. destruct (Permutation_length_2_inv (Permutation_sym P)) as [->| ->]; cbn [isort fold_right insert fst]; [now rewrite L1|now rewrite L2].
Qed.
Lemma make_output task ty m t name ins inc outg : task_of task ty m t -> (0 < m)%Z -> Permutation ins [("default", tb [m] 0 false); ("targets", tb t 0 false)] ->
  (forall k, In k inc -> In (c_in k) ["default"; "targets"]) -> (forall k, In k outg -> c_out k = "loss") ->
  exists l, make_layer (class_of_type ty) name ins inc outg [] = SOk l /\ li_cls l = class_of_type ty /\ li_name l = name /\ li_incoming l = inc /\ li_outgoing l = outg /\
    li_in l = [("default", tb [m] 0 false); ("targets", tb t 0 false)] /\ li_out l = [("predictions", tb [m] 0 false); ("loss", tb t 0 false)] /\ sizes_ok l /\ supported l = true /\ get_layer_class ty = SOk (class_of_type ty).
Proof.
  intros HT Hm Pi Hi Ho. unfold make_layer. rewrite (sort_two "targets" (tb [m] 0 false) (tb t 0 false) ins eq_refl eq_refl Pi). simp.
  assert (CI : forallb (fun k => PyBase.dmem (c_in k) [("default", tb [m] 0 false); ("targets", tb t 0 false)]) inc = true) by (apply in_ok; exact Hi).
  assert (CO : forall ps is cfg, forallb (valid_outgoing (mkSpec [("predictions", tb [m] 0 false); ("loss", tb t 0 false)] ps is cfg)) outg = true).
  { intros ps is cfg. apply out_ok. intros k Hk. rewrite (Ho k Hk). split; [right; now left|reflexivity]. }
  assert (Tm : template_matches tb_any (bs_shape (tb [m] 0 false)) = true) by (apply tb_any_ok; discriminate).
  destruct HT as [[-> [-> ->]]|[[-> [-> ->]]|[-> [-> ->]]]].
  - change (class_of_type "SoftmaxCE") with CSoftmaxCE. rewrite (two_inputs CSoftmaxCE (tb [m] 0 false) (tb [1%Z] 0 false) "targets" eq_refl ltac:(discriminate) Tm (tb_any_ok [1%Z] ltac:(discriminate))). cbn [setup]. unfold setup_softmax_ce. simp. rewrite !features_tb.
    cbn [length Nat.eqb guard sbind removelast zs_eqb last]. simp. change (1 =? 1)%Z with true. cbn [guard sbind]. unfold build. rewrite !timed_make by (discriminate || lia). simp. unfold validate_connections. rewrite CI. simp. rewrite CO. simp.
    eexists. split; [reflexivity|]. repeat (split; [reflexivity|]). split; [|split; [|reflexivity]].
    + dims_tac.
    + unfold supported, one_dim, dims, nf, nfeatures, fdims. cbn. destruct (Z.to_nat m) eqn:E; [lia|]. reflexivity.
  - change (class_of_type "SigmoidCE") with CSigmoidCE. rewrite (two_inputs CSigmoidCE _ _ "targets" eq_refl ltac:(discriminate) Tm Tm). cbn [setup]. unfold setup_sigmoid_ce. simp. rewrite !features_tb.
    cbn [zs_eqb]. rewrite Z.eqb_refl. cbn [andb guard sbind]. unfold build. rewrite !timed_make by (discriminate || lia). simp. unfold validate_connections. rewrite CI. simp. rewrite CO. simp.
    eexists. split; [reflexivity|]. repeat (split; [reflexivity|]). split; [|split; reflexivity]. dims_tac.
  - change (class_of_type "SquaredError") with CSquaredError. rewrite (two_inputs CSquaredError _ _ "targets" eq_refl ltac:(discriminate) Tm Tm). cbn [setup]. unfold setup_squared_error. simp. rewrite !features_tb.
    cbn [zs_eqb]. rewrite Z.eqb_refl. cbn [andb guard sbind]. unfold build. rewrite !timed_make by (discriminate || lia). simp. unfold validate_connections. rewrite CI. simp. rewrite CO. simp.
    eexists. split; [reflexivity|]. repeat (split; [reflexivity|]). split; [|split; reflexivity]. dims_tac.
Qed.
Lemma make_mask t name ins inc outg : t <> [] -> nn t -> Permutation ins [("default", tb t 0 false); ("mask", tb [1%Z] 0 false)] ->
  (forall k, In k inc -> In (c_in k) ["default"; "mask"]) -> to_default outg ->
  exists l, make_layer CMask name ins inc outg [] = SOk l /\ li_cls l = CMask /\ li_name l = name /\ li_incoming l = inc /\ li_outgoing l = outg /\
    li_in l = [("default", tb t 0 false); ("mask", tb [1%Z] 0 false)] /\ li_out l = [("default", tb t 0 false)] /\ sizes_ok l /\ supported l = true.
Proof.
  intros N P Pi Hi Ho. unfold make_layer. rewrite (sort_two "mask" (tb t 0 false) (tb [1%Z] 0 false) ins eq_refl eq_refl Pi). simp.
  rewrite (two_inputs CMask (tb t 0 false) (tb [1%Z] 0 false) "mask" eq_refl ltac:(discriminate) (tb_any_ok t N) (tb_any_ok [1%Z] ltac:(discriminate))). cbn [setup]. unfold setup_mask. simp. rewrite !features_tb. cbn [zs_eqb Z.eqb Pos.eqb andb]. simp.
  unfold validate_connections. rewrite in_ok by exact Hi. simp. rewrite out_ok by (intros k Hk; rewrite (Ho k Hk); split; [now left|reflexivity]). simp.
  eexists. split; [reflexivity|]. repeat (split; [reflexivity|]). split; [|reflexivity]. dims_tac.
Qed.
Lemma make_loss t name inc : t <> [] -> nn t -> name <> "total_loss" -> from_default inc ->
  exists l, make_layer CLoss name [("default", tb t 0 false)] inc [] [("importance", KNum 1)] = SOk l /\ li_cls l = CLoss /\ li_name l = name /\ li_incoming l = inc /\ li_outgoing l = [] /\
    li_in l = [("default", tb t 0 false)] /\ li_out l = [("loss", pl [1%Z])] /\ sizes_ok l /\ supported l = true.
Proof.
  intros N P Hn Hi. unfold make_layer. cbn [isort fold_right insert fst snd]. rewrite (validate_one CLoss any_shape _ eq_refl) by (destruct t; [congruence|reflexivity]). simp. cbn [setup]. unfold setup_loss.
  rewrite (proj2 (String.eqb_neq _ _) Hn). simp. unfold build. rewrite plain_make by discriminate. simp. unfold validate_connections. rewrite in_ok by (intros k Hk; rewrite (Hi k Hk); now left). simp.
  eexists. split; [reflexivity|]. repeat (split; [reflexivity|]). split; [|reflexivity]. dims_tac.
Qed.
(** The Input layer *)
Definition shape_entry (e : string * list Z) : string * kval := (fst e, tb_value (snd e)).
Lemma kdims f : map kdim (map KInt f) = map DInt f. Proof. rewrite map_map. reflexivity. Qed.
Lemma make_input name shapes outg : (forall x f, In (x, f) shapes -> f <> [] /\ nn f) -> (forall k, In k outg -> In (c_out k) (map fst shapes) /\ dotted (c_out k) = false) ->
  exists l, make_layer CInput name [] [] outg [("out_shapes", KDict (map shape_entry shapes))] = SOk l /\ li_cls l = CInput /\ li_name l = name /\ li_incoming l = [] /\ li_outgoing l = outg /\
    li_in l = [] /\ li_out l = map (fun e => (fst e, tb (snd e) 0 false)) shapes /\ sizes_ok l.
Proof.
  intros HS Ho. unfold make_layer. cbn [isort fold_right]. simp. change (validate_in_shapes CInput []) with true. simp. cbn [setup]. unfold setup_input. simp.
  assert (B : build (map (fun e => (fst e, structure_of_kval (snd e))) (map shape_entry shapes)) = SOk (map (fun e => (fst e, tb (snd e) 0 false)) shapes)).
  { clear Ho. induction shapes as [|[x f] r IH]; [reflexivity|]. cbn [map shape_entry fst snd build]. unfold tb_value. cbn [structure_of_kval map]. rewrite kdims.
    destruct (HS x f (or_introl eq_refl)) as [N P]. assert (T := timed_make f 0 false N ltac:(lia)). unfold timed in T. change (kdim (KStr "T")) with DT. change (kdim (KStr "B")) with DB. rewrite T. cbn [sbind]. rewrite IH by (intros y g Hy; apply (HS y g); now right). reflexivity. }
  rewrite B. simp. unfold validate_connections. cbn [forallb negb]. rewrite out_ok by (intros k Hk; cbn [sp_out]; rewrite map_map; exact (Ho k Hk)). simp.
  eexists. split; [reflexivity|]. repeat (split; [reflexivity|]). intros x b z Hin Hz. cbn [li_in li_out li_params li_int app] in Hin. rewrite app_nil_r in Hin. apply in_map_iff in Hin. destruct Hin as [[y f] [[= <- <-] Hy]].
  destruct (HS y f Hy) as [_ P]. exact (tb_dims f 0 false z P Hz).
Qed.
