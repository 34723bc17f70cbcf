(** C71: networks from spec lines. *)
From Coq Require Import String Ascii List ZArith NArith QArith Bool Lia Arith Permutation.
From Verif Require Import PyBase PyFacts UtilsModel UtilsProofs NamesModel NamesProofs ArchModel ShapesModel SetupModel SetupProofs InstanceProofs InstanceProps HubModel LayoutModel NetLayoutProofs NetLayoutProps NetMemoryModel NetMemoryProofs SpecModel SpecProofs SpecChain SpecNet SpecParse.
Import ListNotations.
Open Scope string_scope.
Open Scope list_scope.
Open Scope nat_scope.

(** ** Reading *)
(** A line of layers (see [writes], [writes_args], [gap] and [spells] in SpecParse.v) is read as these layers. *)
Theorem C71_reading : forall space text items, all_of is_space space -> writes text items -> read_spec (string_of_list_ascii (space ++ text)) = items.
Proof.
  intros sp s its H W. unfold read_spec. rewrite list_ascii_of_string_of_list_ascii, app_length. rewrite read_items_spaces; [|exact H|exact (writes_stops _ _ W)]. apply read_items_writes; [exact W|lia].
Qed.
Print Assumptions C71_reading.
(** The characters: whitespace, separators between arguments, letters and digits *)
Theorem C71_characters : forall c,
  (is_space c = true <-> In c (list_ascii_of_string " " ++ map ascii_of_nat [9; 10; 11; 12; 13])) /\
  (is_sep c = true <-> In c (list_ascii_of_string ":/|")) /\
  (is_upper c = true <-> In c (list_ascii_of_string "ABCDEFGHIJKLMNOPQRSTUVWXYZ")) /\
  (is_lower c = true <-> In c (list_ascii_of_string "abcdefghijklmnopqrstuvwxyz")) /\
  (is_digit c = true <-> In c (list_ascii_of_string "0123456789")).
Proof.
  assert (Q : forall (p : ascii -> bool) l c, Bool.eqb (p c) (if in_dec ascii_dec c l then true else false) = true -> (p c = true <-> In c l)).
  { intros p l c H. apply eqb_prop in H. rewrite H. destruct (in_dec ascii_dec c l); split; intros; [assumption|reflexivity|discriminate|contradiction]. }
  intros c. repeat split; intros H; (eapply Q; [|exact H]); clear H; revert c; intros [[] [] [] [] [] [] [] []]; vm_compute; reflexivity.
Qed.
Print Assumptions C71_characters.
(** Integers in decimal notation are written numbers. *)
Theorem C71_integers : forall n, spells (list_ascii_of_string (dec n)) (AInt (Z.of_nat n)).
Proof.
  intros n. destruct (dec_all n) as [H1 H2]. rewrite <- (value_dec n). exact (sp_int None _ H2 H1).
Qed.
Print Assumptions C71_integers.
(** The numbers with a point: ds.es is ds plus es divided by ten to the number of its digits. *)
Theorem C71_decimals : forall ds es, es <> [] -> (decimal ds es == inject_Z (value_of ds) + inject_Z (value_of es) / inject_Z (10 ^ Z.of_nat (length es)))%Q.
Proof.
  assert (F : forall es v, fold_left (fun v c => 10 * v + digit c)%Z es v = (v * 10 ^ Z.of_nat (length es) + value_of es)%Z).
  { unfold value_of. induction es as [|c es IH]; intros v; cbn [fold_left length]; [rewrite Z.pow_0_r; lia|]. rewrite (IH (10 * v + digit c)%Z), (IH (10 * 0 + digit c)%Z), Nat2Z.inj_succ, Z.pow_succ_r by lia. ring. }
  intros ds es H. unfold decimal. unfold value_of at 1. rewrite fold_left_app, F. fold (value_of ds).
  assert (P : Zpos (Pos.pow 10 (Pos.of_nat (length es))) = (10 ^ Z.of_nat (length es))%Z). { rewrite Pos2Z.inj_pow. f_equal. rewrite <- (Nat2Pos.id (length es)) at 2 by (now destruct es). now rewrite positive_nat_Z. }
  rewrite Qmake_Qdiv, P. assert (N : ~ (inject_Z (10 ^ Z.of_nat (length es)) == 0)%Q). { rewrite <- P. unfold inject_Z, Qeq. cbn. lia. }
  rewrite inject_Z_plus, inject_Z_mult. field. exact N.
Qed.
Print Assumptions C71_decimals.
Example C71_decimals_case : spells (list_ascii_of_string "-12.50") (ANum (- decimal (list_ascii_of_string "12") (list_ascii_of_string "50"))) /\ (decimal (list_ascii_of_string "12") (list_ascii_of_string "50") == 25#2)%Q.
Proof. split; [exact (sp_num (Some true) (list_ascii_of_string "12") (list_ascii_of_string "50") eq_refl ltac:(discriminate) eq_refl)|reflexivity]. Qed.

(** ** The layers *)
(** What a layer of the line means (the documentation of create_net_from_spec). *)
Definition activation_letter (c : ascii) (act : string) : Prop :=
  (c = "s"%char /\ act = "sigmoid") \/ (c = "t"%char /\ act = "tanh") \/ (c = "r"%char /\ act = "rel") \/ (c = "l"%char /\ act = "linear").
(** The optional first argument *)
Definition with_activation (default : string) (l : list arg) (act : string) : Prop :=
  (l = [] /\ act = default) \/ exists c, l = [ALetter c] /\ activation_letter c act.
Definition with_pooling (l : list arg) (ty : string) : Prop := (l = [] /\ ty = "max") \/ (l = [ALetter "m"%char] /\ ty = "max") \/ (l = [ALetter "a"%char] /\ ty = "avg").
(** Options for padding and stride: p1, s2; the last ones count. *)
Inductive with_options : list arg -> Z -> Z -> Prop :=
| wo_none : with_options [] 0 1
| wo_padding l p s z : with_options l p s -> with_options (l ++ [ALetter "p"%char; AInt z]) z s
| wo_stride l p s z : with_options l p s -> with_options (l ++ [ALetter "s"%char; AInt z]) p z.
Definition conv_call (n k p s : Z) (act : string) : layer_call :=
  ("Convolution2D", [("num_filters", KInt n); ("kernel_size", KSeq [KInt k; KInt k]); ("stride", KSeq [KInt s; KInt s]); ("padding", KInt p); ("activation", KStr act)]).
Definition pool_call (k p s : Z) (ty : string) : layer_call :=
  ("Pooling2D", [("kernel_size", KSeq [KInt k; KInt k]); ("type", KStr ty); ("stride", KSeq [KInt s; KInt s]); ("padding", KInt p)]).
Inductive means : string * list arg -> layer_call -> Prop :=
| me_F l act z : with_activation "rel" l act -> means ("F", l ++ [AInt z]) ("FullyConnected", [("size", KInt z); ("activation", KStr act)])
| me_R l act z : with_activation "tanh" l act -> means ("R", l ++ [AInt z]) ("Recurrent", [("size", KInt z); ("activation", KStr act)])
| me_L l act z : with_activation "tanh" l act -> means ("L", l ++ [AInt z]) ("Lstm", [("size", KInt z); ("activation", KStr act)])
| me_B : means ("B", []) ("BatchNorm", [("decay", KNum (9#10)); ("epsilon", KNum (1#100000))])
| me_D0 : means ("D", []) ("Dropout", [("drop_prob", KNum (1#2))])
| me_D q : means ("D", [ANum q]) ("Dropout", [("drop_prob", KNum q)])
| me_C l act n k opts p s : with_activation "rel" l act -> with_options opts p s -> means ("C", l ++ [AInt n; AInt k] ++ opts) (conv_call n k p s act)
| me_P l ty k opts p s : with_pooling l ty -> with_options opts p s -> means ("P", l ++ [AInt k] ++ opts) (pool_call k p s ty).

Lemma options_snoc l p0 s0 : forall fuel, length l <= fuel -> forall p s, options fuel l p0 s0 = SOk (p, s) -> forall c v fuel', length l + 2 <= fuel' -> c = "p"%char \/ c = "s"%char ->
  options fuel' (l ++ [ALetter c; v]) p0 s0 = SOk (if Ascii.eqb c "p"%char then (v, s) else (p, v)).
Proof.
  intros fuel. revert l p0 s0. induction fuel as [|fuel IH]; intros l p0 s0 F p s H c v fuel' F' C.
  - destruct l; [|cbn in F; lia]. cbn in H. injection H as <- <-. cbn [app]. destruct fuel' as [|[|f]]; [cbn in F'; lia..|]. cbn [options]. destruct C as [->| ->]; reflexivity.
  - cbn [options] in H. destruct l as [|[z|q|x] r].
    + injection H as <- <-. cbn [app]. destruct fuel' as [|[|f]]; [cbn in F'; lia..|]. cbn [options]. destruct C as [->| ->]; reflexivity.
    + discriminate.
    + discriminate.
    + cbn [length] in F, F'. destruct fuel' as [|fuel']; [lia|]. cbn [app options]. destruct (Ascii.eqb x "p"%char).
      * destruct r as [|w r]; [discriminate|]. cbn [app]. cbn [length] in F, F'. apply (IH r _ _) with (p := p) (s := s); [lia|exact H|lia|exact C].
      * destruct (Ascii.eqb x "s"%char); [|discriminate]. destruct r as [|w r]; [discriminate|]. cbn [app]. cbn [length] in F, F'. apply (IH r _ _) with (p := p) (s := s); [lia|exact H|lia|exact C].
Qed.
Lemma options_ok l p s : with_options l p s -> options (length l) l (AInt 0) (AInt 1) = SOk (AInt p, AInt s).
Proof.
  induction 1 as [|l p s z H IH|l p s z H IH]; [reflexivity|..].
  - rewrite (options_snoc l (AInt 0) (AInt 1) (length l) (le_n _) _ _ IH "p"%char (AInt z)) by (rewrite ?app_length; cbn; lia || now left). reflexivity.
  - rewrite (options_snoc l (AInt 0) (AInt 1) (length l) (le_n _) _ _ IH "s"%char (AInt z)) by (rewrite ?app_length; cbn; lia || now right). reflexivity.
Qed.
Lemma take_ok default l act z r : with_activation default l act -> take_activation default (l ++ AInt z :: r) = (act, AInt z :: r).
Proof. intros [[-> ->]|[c [-> [[-> ->]|[[-> ->]|[[-> ->]|[-> ->]]]]]]]; reflexivity. Qed.
Theorem C71_layers : forall item call, means item call -> create_layer (fst item) (snd item) = SOk call.
Proof.
  intros item call H. destruct H; cbn [fst snd]; try reflexivity.
  - unfold create_layer. cbn [String.eqb Ascii.eqb Bool.eqb]. unfold sized. rewrite (take_ok _ _ _ _ _ H). reflexivity.
  - unfold create_layer. cbn [String.eqb Ascii.eqb Bool.eqb]. unfold sized. rewrite (take_ok _ _ _ _ _ H). reflexivity.
  - unfold create_layer. cbn [String.eqb Ascii.eqb Bool.eqb]. unfold sized. rewrite (take_ok _ _ _ _ _ H). reflexivity.
  - unfold create_layer. cbn [String.eqb Ascii.eqb Bool.eqb app]. unfold spec_C. rewrite (take_ok _ _ _ _ _ H), (options_ok _ _ _ H0). reflexivity.
  - unfold create_layer. cbn [String.eqb Ascii.eqb Bool.eqb]. unfold spec_P. destruct H as [[-> ->]|[[-> ->]|[-> ->]]]; cbn [app Ascii.eqb Bool.eqb]; rewrite (options_ok _ _ _ H0); reflexivity.
Qed.
Print Assumptions C71_layers.

(** ** The network *)
(** The layers of the network in their order, with the shapes of their buffers, how they are connected and what they were created with. *)
Record described (targets_name : string) (mask : option string) (ty : string) (m : Z) (t in_shape features : list Z) (items : list layer_call)
    (ar : karch) (layers : list linst) (input : linst) (ls : list linst) (proj out : linst) (rest : list linst) : Prop := mkDescribed {
  ds_layers : layers = input :: ls ++ [proj; out] ++ rest;
  ds_names : NoDup (map li_name layers) /\ li_name input = "Input" /\ li_name out = "Output";
  (* the Input layer provides the data, the targets and the mask *)
  ds_input : li_cls input = CInput /\ li_in input = [] /\ li_out input = [("default", tb in_shape 0 false); (targets_name, tb t 0 false)] ++ match mask with Some k => [(k, tb [1%Z] 0 false)] | None => [] end;
  (* one layer per layer of the line, created with its arguments; each gets the features of the layer before *)
  ds_chain : chained items ls in_shape features;
  ds_kwargs : Forall2 (fun it l => exists r, dget (li_name l) ar = Some (r, snd it) /\ r_type r = TypeString (fst it)) items ls;
  ds_flow : forall q a b, q <= length items -> nth_error layers q = Some a -> nth_error layers (S q) = Some b -> li_incoming b = [mkCon (li_name a) "default" (li_name b) "default"];
  (* the projection to the output size and the output layer *)
  ds_proj : li_cls proj = CFullyConnected /\ li_in proj = [("default", tb features 0 false)] /\ li_out proj = [("default", tb [m] 0 false)];
  ds_output : li_cls out = class_of_type ty /\ li_in out = [("default", tb [m] 0 false); ("targets", tb t 0 false)] /\ li_out out = [("predictions", tb [m] 0 false); ("loss", tb t 0 false)] /\
    Permutation (li_incoming out) [mkCon (li_name proj) "default" "Output" "default"; mkCon "Input" targets_name "Output" "targets"];
  (* the Loss layer, behind a Mask layer if there is a mask *)
  ds_rest : match mask with
            | None => exists l, rest = [l] /\ li_cls l = CLoss /\ li_incoming l = [mkCon "Output" "loss" (li_name l) "default"]
            | Some k => exists ml l, rest = [ml; l] /\ li_cls ml = CMask /\ Permutation (li_incoming ml) [mkCon "Output" "loss" (li_name ml) "default"; mkCon "Input" k (li_name ml) "mask"] /\
                          li_cls l = CLoss /\ li_incoming l = [mkCon (li_name ml) "default" (li_name l) "default"]
            end
}.
Lemma nth_back {A} (i : A) ls r n q : length ls = n -> nth_error (i :: ls ++ r) (n + S q) = nth_error r q.
Proof. intros <-. rewrite Nat.add_succ_r. cbn [nth_error]. rewrite nth_error_app2 by lia. f_equal. lia. Qed.
Lemma smap_means its items : Forall2 means its items -> smap (fun it => create_layer (fst it) (snd it)) its = SOk items.
Proof. induction 1 as [|it call its items M F IH]; [reflexivity|]. cbn [smap]. rewrite (C71_layers _ _ M). cbn [sbind]. rewrite IH. reflexivity. Qed.

(** For the three tasks, a line of known layers with features that fit (see [flows] in SpecProofs.v), one output
    dimension and data called "default": whatever the order in which the set of layers is iterated, the network is created, it has
    the layers of the line, and it can be trained ([named], [nonnegative], [supported] and [differentiable] are the hypotheses of C66-C70). *)
Theorem C71_network : forall task ty m t in_shape features targets_name mask use_conv space text its items order,
  task_of task ty m t -> (0 < m)%Z -> in_shape <> [] -> nn in_shape ->
  component targets_name /\ targets_name <> "default" -> (forall k, mask = Some k -> component k /\ k <> "default" /\ k <> targets_name) ->
  all_of is_space space -> writes text its -> Forall2 means its items -> run_flows items in_shape features ->
  Permutation order (seq 0 (length items + match mask with Some _ => 5 | None => 4 end)) ->
  exists p ar layers input ls proj out rest,
    spec_program task in_shape [m] (string_of_list_ascii (space ++ text)) "default" targets_name mask use_conv = SOk p /\
    architecture_in p order = Some ar /\ instantiate ar = SOk layers /\
    described targets_name mask ty m t in_shape features items ar layers input ls proj out rest /\
    named ar /\ nonnegative layers /\ (forall l, In l (tl layers) -> supported l = true) /\ differentiable layers = true.
Proof.
  intros task ty m t f0 g tn mask use_conv sp s its items order TASK M0 F0 P0 TN MASK HS HW HM FLOW PO.
  assert (TOT : SpecNet.tot mask items = length items + match mask with Some _ => 5 | None => 4 end) by (unfold SpecNet.tot, n0, masked, L; destruct mask; lia).
  rewrite <- TOT in PO.
  destruct (architecture_exists task ty m t f0 g tn mask items TASK FLOW TN MASK order PO) as [nm [ar [cns [HA PA]]]].
  destruct (network_layers task ty m t f0 g tn mask items TASK M0 F0 P0 FLOW TN MASK nm ar cns PA) as [i [ls [p [o [rest [HI SL]]]]]].
  exists (mkProg (ops ty tn mask items) (kws ty m t f0 tn mask items)), ar, (i :: ls ++ [p; o] ++ rest), i, ls, p, o, rest.
  split. { apply (spec_program_ops task ty m t f0 tn mask items TASK TN MASK). rewrite (C71_reading sp s its HS HW). now apply smap_means. }
  split; [exact HA|]. split; [exact HI|].
  assert (LL := length_layers _ _ _ _ _ _ _ _ _ _ _ _ _ _ _ SL). assert (LI : length ls = length items) by (eapply length_chained; exact (sl_chain _ _ _ _ _ _ _ _ _ _ _ _ _ _ _ SL)).
  assert (IN := input_name ty m t f0 g tn mask items FLOW TN MASK nm ar cns PA). assert (ON := output_name ty m t f0 g tn mask items FLOW TN MASK nm ar cns PA).
  assert (FA := sl_facts _ _ _ _ _ _ _ _ _ _ _ _ _ _ _ SL).
  assert (NP : nth_error (i :: ls ++ [p; o] ++ rest) (length items + 1) = Some p) by exact (nth_back i ls _ (length items) 0 LI).
  assert (NO : nth_error (i :: ls ++ [p; o] ++ rest) (length items + 2) = Some o) by exact (nth_back i ls _ (length items) 1 LI).
  destruct (FA 0 i eq_refl) as [NI _]. destruct (FA _ _ NP) as [NPn _]. destruct (FA _ _ NO) as [NOn [NOi _]].
  split; [|split; [|split; [|split]]].
  - constructor.
    + reflexivity.
    + split; [|now rewrite NI, NOn]. exact (proj1 (NetLayoutProofs.instantiate_names ar _ (spec_named task ty m t f0 g tn mask items TASK M0 F0 P0 FLOW TN MASK nm ar cns PA) HI)).
    + destruct (sl_input _ _ _ _ _ _ _ _ _ _ _ _ _ _ _ SL) as [H1 [H2 H3]]. rewrite H1, H2, H3. split; [reflexivity|]. split; [reflexivity|]. unfold outs_of_input, shapes. destruct mask; reflexivity.
    + exact (sl_chain _ _ _ _ _ _ _ _ _ _ _ _ _ _ _ SL).
    + assert (K : forall j it l, nth_error items j = Some it -> nth_error ls j = Some l -> exists r, dget (li_name l) ar = Some (r, snd it) /\ r_type r = TypeString (fst it)).
      { intros j it l Hj Hl. assert (Hq : nth_error (i :: ls ++ [p; o] ++ rest) (S j) = Some l) by (cbn [nth_error]; rewrite nth_error_app1; [exact Hl|]; apply nth_error_Some; congruence).
        destruct (FA _ _ Hq) as [-> _]. destruct (entry_at ty m t f0 tn mask items MASK nm ar cns PA (S j) it (call_item ty m t f0 tn mask items j it Hj)) as [d Hd]. rewrite Hd. eexists. split; reflexivity. }
      clear -K LI. revert ls LI K. induction items as [|it r IH]; intros [|l ls] LI K; try discriminate; constructor.
      * exact (K 0 it l eq_refl eq_refl).
      * apply IH; [now injection LI|]. intros j. exact (K (S j)).
    + intros q a b Hq Ha Hb. destruct (FA _ _ Ha) as [-> _]. destruct (FA _ _ Hb) as [-> [-> _]]. rewrite (into_chain ty m t f0 tn mask items TN MASK nm ar cns PA (S q)) by (unfold L; lia). now rewrite Nat.sub_1_r.
    + exact (sl_proj _ _ _ _ _ _ _ _ _ _ _ _ _ _ _ SL).
    + destruct (sl_output _ _ _ _ _ _ _ _ _ _ _ _ _ _ _ SL) as [H1 [H2 H3]]. repeat (split; [assumption|]). rewrite NOi, NPn, <- ON, <- IN. exact (into_output ty m t f0 tn mask items TN MASK nm ar cns PA).
    + assert (R := sl_rest _ _ _ _ _ _ _ _ _ _ _ _ _ _ _ SL). assert (IL := into_loss ty m t f0 tn mask items TN MASK nm ar cns PA). assert (IM := into_mask ty m t f0 tn mask items TN MASK nm ar cns PA). unfold masked in R, IL.
      destruct mask as [k|].
      * destruct R as [ml [l [-> [H1 [_ [H2 _]]]]]]. exists ml, l. 
        assert (NM : nth_error (i :: ls ++ [p; o] ++ [ml; l]) (length items + 3) = Some ml) by exact (nth_back i ls _ (length items) 2 LI).
        assert (NL : nth_error (i :: ls ++ [p; o] ++ [ml; l]) (length items + 4) = Some l) by exact (nth_back i ls _ (length items) 3 LI).
        destruct (FA _ _ NM) as [M1 [M2 _]]. destruct (FA _ _ NL) as [L1 [L2 _]]. split; [reflexivity|]. split; [exact H1|]. split.
        { rewrite M2, M1, <- ON, <- IN. exact (IM k eq_refl). }
        split; [exact H2|]. rewrite L2, L1, M1. replace (length items + 4) with (tot (Some k) items - 1) by lia. rewrite IL. replace (tot (Some k) items - 2) with (length items + 3) by lia. reflexivity.
      * destruct R as [l [-> [H1 _]]]. exists l. split; [reflexivity|]. split; [exact H1|].
        assert (NL : nth_error (i :: ls ++ [p; o] ++ [l]) (length items + 3) = Some l) by exact (nth_back i ls _ (length items) 2 LI).
        destruct (FA _ _ NL) as [L1 [L2 _]]. rewrite L2, L1, <- ON. replace (length items + 3) with (tot None items - 1) by lia. rewrite IL. replace (tot None items - 2) with (L items + 2) by (unfold L; lia). reflexivity.
  - exact (spec_named task ty m t f0 g tn mask items TASK M0 F0 P0 FLOW TN MASK nm ar cns PA).
  - exact (spec_nonnegative _ _ _ _ _ _ _ _ TN _ _ _ _ _ _ _ SL).
  - exact (sl_supported _ _ _ _ _ _ _ _ _ _ _ _ _ _ _ SL).
  - exact (spec_differentiable task ty m t f0 g tn mask items TASK F0 P0 TN MASK nm ar cns PA i ls p o rest SL).
Qed.
Print Assumptions C71_network.

(** The program's shape depends on the line only through the layers it describes, so lines that describe the same layers build the same network. *)
Theorem C71_same_line : forall task in_shape out_shape data_name targets_name mask use_conv space text space' text' its,
  all_of is_space space -> writes text its -> all_of is_space space' -> writes text' its ->
  spec_program task in_shape out_shape (string_of_list_ascii (space ++ text)) data_name targets_name mask use_conv =
  spec_program task in_shape out_shape (string_of_list_ascii (space' ++ text')) data_name targets_name mask use_conv.
Proof.
  intros task i o d tn mask uc sp s sp' s' its H1 W1 H2 W2. unfold spec_program. rewrite (C71_reading sp s its H1 W1), (C71_reading sp' s' its H2 W2). reflexivity.
Qed.
Print Assumptions C71_same_line.

(** ** What the documentation promises beyond that *)
(** "Whitespace is allowed everywhere and will be completely ignored": it separates numbers and layer types. *)
Theorem C71_whitespace_refuted :
  read_spec "F5 0" <> read_spec "F50" /\ read_spec "D B" <> read_spec "DB" /\
  (exists call, create_layer "D" [] = SOk call) /\ create_layer "DB" [] = SErr SetupModel.EKey.
Proof. repeat split; try (vm_compute; discriminate). now exists ("Dropout", [("drop_prob", KNum (1#2))]). Qed.
Print Assumptions C71_whitespace_refuted.
(** "data_name: Name of the input data which will be provided by a data iterator": the layers are wired to the output "default"
    of the Input layer, so with the name "images" this network is not created. *)
Definition fails_with (task : string) (in_shape out_shape : list Z) (spec data_name : string) (order : list nat) (e : serr) : Prop :=
  exists p ar, spec_program task in_shape out_shape spec data_name "targets" None None = SOk p /\ architecture_in p order = Some ar /\ instantiate ar = SErr e.
Theorem C71_data_name_refuted : exists e, fails_with "classification" [784%Z] [10%Z] "F20" "images" (seq 0 5) e.
Proof. eexists. eexists. eexists. split; [vm_compute; reflexivity|]. split; vm_compute; reflexivity. Qed.
Print Assumptions C71_data_name_refuted.
(** The second example of the documentation: the features are height x width x channels, so (3, 32, 32) is an image of height 3 and the second pooling has no output. *)
Theorem C71_cifar_example_refuted : fails_with "classification" [3; 32; 32]%Z [10%Z] "C32:5p2 P3s2 C32:5p2 P3s2 C64:5p2 P3s2 F64" "default" (seq 0 11) SetupModel.EAssertion.
Proof. eexists. eexists. split; [vm_compute; reflexivity|]. split; vm_compute; reflexivity. Qed.
Print Assumptions C71_cifar_example_refuted.
(** "If true the projection layer will use 1x1 convolutions": not for one output dimension, whatever the line. *)
Theorem C71_use_conv_refuted : forall task in_shape m spec targets_name mask p,
  spec_program task in_shape [m] spec "default" targets_name mask (Some true) = SOk p ->
  In (Create "FullyConnected" (Some "Output_projection")) (pg_ops p) /\ spec_program task in_shape [m] spec "default" targets_name mask (Some false) = SOk p.
Proof.
  intros task i m spec tn mask p H. split; [|exact H]. unfold spec_program, get_in_out_layers in H. cbn [projection length Nat.eqb orb sbind] in H.
  destruct (out_layer_type task) as [ty|e]; [|discriminate]. cbn [sbind] in H.
  destruct mask; cbn [sbind] in H; (destruct (smap _ (read_spec spec)) as [items|e]; [|discriminate]); cbn [sbind] in H;
    (destruct (add_layers _ _ _) as [o l]); injection H as <-; cbn; now left.
Qed.
Print Assumptions C71_use_conv_refuted.

(** ** A concrete case *)
Definition line : list (list ascii * (string * list arg) * layer_call) :=
  let l := list_ascii_of_string in
  [ (l "Ct8:3 p1 ", ("C", [ALetter "t"%char; AInt 8; AInt 3; ALetter "p"%char; AInt 1]), conv_call 8 3 1 1 "tanh");
    (l "P2s2", ("P", [AInt 2; ALetter "s"%char; AInt 2]), pool_call 2 0 2 "max");
    (l "D.2 ", ("D", [ANum (2#10)]), ("Dropout", [("drop_prob", KNum (2#10))]));
    (l "F20", ("F", [AInt 20]), ("FullyConnected", [("size", KInt 20); ("activation", KStr "rel")])) ].
Definition line_text : list ascii := flat_map (fun e => fst (fst e)) line.
Lemma line_args_C : writes_args (list_ascii_of_string "t8:3 p1 ") [ALetter "t"%char; AInt 8; AInt 3; ALetter "p"%char; AInt 1].
Proof.
  apply (wa_cons ["t"%char] _ [] (list_ascii_of_string "8:3 p1 ")); [now constructor|now apply gap_space| |right; left; now eexists].
  apply (wa_cons ["8"%char] _ [":"%char] (list_ascii_of_string "3 p1 ")); [now apply (sp_int None ["8"%char])|now apply (gap_sep [] ":" [])| |now left].
  apply (wa_cons ["3"%char] _ [" "%char] (list_ascii_of_string "p1 ")); [now apply (sp_int None ["3"%char])|now apply gap_space| |now left].
  apply (wa_cons ["p"%char] _ [] (list_ascii_of_string "1 ")); [now constructor|now apply gap_space| |right; left; now eexists].
  apply (wa_cons ["1"%char] _ [" "%char] []); [now apply (sp_int None ["1"%char])|now apply gap_space|constructor|now left].
Qed.
Lemma line_args_P : writes_args (list_ascii_of_string "2s2") [AInt 2; ALetter "s"%char; AInt 2].
Proof.
  apply (wa_cons ["2"%char] _ [] (list_ascii_of_string "s2")); [now apply (sp_int None ["2"%char])|now apply gap_space| |now (right; right)].
  apply (wa_cons ["s"%char] _ [] (list_ascii_of_string "2")); [now constructor|now apply gap_space| |right; left; now eexists].
  apply (wa_cons ["2"%char] _ [] []); [now apply (sp_int None ["2"%char])|now apply gap_space|constructor|now (right; right)].
Qed.
Lemma line_writes : writes line_text (map (fun e => snd (fst e)) line).
Proof.
  apply (w_cons ["C"%char] [] (list_ascii_of_string "t8:3 p1 ") _ (list_ascii_of_string "P2s2D.2 F20")); [discriminate|reflexivity|reflexivity|exact line_args_C| |left; discriminate].
  apply (w_cons ["P"%char] [] (list_ascii_of_string "2s2") _ (list_ascii_of_string "D.2 F20")); [discriminate|reflexivity|reflexivity|exact line_args_P| |left; discriminate].
  apply (w_cons ["D"%char] [] (list_ascii_of_string ".2 ") _ (list_ascii_of_string "F20")); [discriminate|reflexivity|reflexivity| | |left; discriminate].
  { apply (wa_cons (list_ascii_of_string ".2") _ [" "%char] []); [now apply (sp_num None [] ["2"%char])|now apply gap_space|constructor|now left]. }
  apply (w_cons ["F"%char] [] (list_ascii_of_string "20") _ []); [discriminate|reflexivity|reflexivity| |constructor|now right].
  apply (wa_cons (list_ascii_of_string "20") _ [] []); [now apply (sp_int None ["2"%char; "0"%char])|now apply gap_space|constructor|now (right; right)].
Qed.
Lemma line_means : Forall2 means (map (fun e => snd (fst e)) line) (map snd line).
Proof.
  constructor; [|constructor; [|constructor; [|constructor; [|constructor]]]].
  - apply (me_C [ALetter "t"%char] "tanh" 8 3 [ALetter "p"%char; AInt 1] 1 1); [right; exists "t"%char; split; [reflexivity|right; now left]|apply (wo_padding [] 0 1 1); constructor].
  - apply (me_P [] "max" 2 [ALetter "s"%char; AInt 2] 0 2); [now left|apply (wo_stride [] 0 1 2); constructor].
  - apply me_D.
  - apply (me_F [] "rel" 20). now left.
Qed.
Lemma line_flows : run_flows (map snd line) [4; 4; 1]%Z [20%Z].
Proof.
  eapply rf_cons; [apply flow_C; try lia; try (vm_compute; intuition congruence)|].
  eapply rf_cons; [apply flow_P; try lia; try (vm_compute; intuition congruence)|].
  eapply rf_cons; [apply flow_D|]. eapply rf_cons; [apply flow_F; [lia|vm_compute; intuition congruence]|]. constructor.
Qed.
Example C71_reading_ex : read_spec "  Ct8:3 p1 P2s2D.2 F20" = map (fun e => snd (fst e)) line.
Proof. exact (C71_reading [" "%char; " "%char] line_text _ eq_refl line_writes). Qed.
Example C71_layers_ex : smap (fun it => create_layer (fst it) (snd it)) (map (fun e => snd (fst e)) line) = SOk (map snd line).
Proof. apply smap_means, line_means. Qed.
Example C71_network_ex : exists p ar layers input ls proj out rest,
  spec_program "classification" [4; 4; 1]%Z [10%Z] "Ct8:3 p1 P2s2D.2 F20" "default" "targets" (Some "mask") None = SOk p /\
  architecture_in p [8; 3; 5; 0; 1; 7; 6; 4; 2] = Some ar /\ instantiate ar = SOk layers /\
  described "targets" (Some "mask") "SoftmaxCE" 10 [1%Z] [4; 4; 1]%Z [20%Z] (map snd line) ar layers input ls proj out rest /\
  named ar /\ nonnegative layers /\ (forall l, In l (tl layers) -> supported l = true) /\ differentiable layers = true.
Proof.
  apply (C71_network "classification" "SoftmaxCE" 10 [1%Z] [4; 4; 1]%Z [20%Z] "targets" (Some "mask") None [] line_text (map (fun e => snd (fst e)) line) (map snd line)); try reflexivity.
  - now constructor.
  - discriminate.
  - repeat constructor; lia.
  - split; [now apply component_b_ok|discriminate].
  - intros k [= <-]. split; [now apply component_b_ok|split; discriminate].
  - exact line_writes.
  - exact line_means.
  - exact line_flows.
  - apply NoDup_Permutation; [repeat constructor; cbn; intuition lia|apply seq_NoDup|]. intros x. cbn. intuition lia.
Qed.
(** Its layout exists. *)
Example C71_layout_ex : exists p ar layers hubs lay,
  spec_program "classification" [4; 4; 1]%Z [10%Z] "Ct8:3 p1 P2s2D.2 F20" "default" "targets" (Some "mask") None = SOk p /\
  architecture_in p (seq 0 9) = Some ar /\ instantiate ar = SOk layers /\ create_layout (map layout_layer layers) = LOk (hubs, lay) /\
  map li_name layers = ["Input"; "Convolution2D"; "Pooling2D"; "Dropout"; "FullyConnected"; "Output_projection"; "Output"; "Mask"; "Loss"].
Proof. do 5 eexists. split; [vm_compute; reflexivity|]. split; [vm_compute; reflexivity|]. split; [vm_compute; reflexivity|]. split; vm_compute; reflexivity. Qed.
