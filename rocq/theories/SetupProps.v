(** C61 (the passes of a network only use arrays of fitting shapes) and C62
    (the shapes of the layers of a network). *)
From Coq Require Import String List ZArith QArith Bool Lia Lqa Permutation.
From Verif Require Import PyBase PyFacts UtilsModel NamesModel ArchModel ShapesModel SetupModel PassShapesModel SetupProofs PassShapesProofs PassShapesLayers.
Import ListNotations.
Open Scope string_scope.
Open Scope list_scope.
Open Scope nat_scope.

(** ** instantiate_layers_from_architecture *)
(** How one layer of the result was made; [pre] are the layers made before. *)
Definition made_from (a : karch) (cns : list connection) (layers : list linst) (l : linst) : Prop :=
  exists pre r kw ty c ins,
    (exists post, layers = pre ++ l :: post) /\ dget (li_name l) a = Some (r, kw) /\ r_type r = TypeString ty /\ get_layer_class ty = SOk c /\
    input_structures pre (con_set (fun k => String.eqb (c_end k) (li_name l)) cns) = SOk ins /\
    make_layer c (li_name l) ins (con_set (fun k => String.eqb (c_end k) (li_name l)) cns)
      (con_set (fun k => String.eqb (c_start k) (li_name l)) cns) kw = SOk l.

Lemma make_layer_name c n ins inc outg kw l : make_layer c n ins inc outg kw = SOk l ->
  li_name l = n /\ li_cls l = c /\ li_incoming l = inc /\ li_outgoing l = outg.
Proof.
  intros H. apply make_layer_inv in H. destruct H as [_ [sp [_ ->]]]. cbn. auto.
Qed.

Lemma loop_made a cns order : forall layers0 layers, instantiate_loop a cns order layers0 = SOk layers ->
  (exists post, layers = layers0 ++ post) /\ map li_name layers = map li_name layers0 ++ order /\
  forall l, In l layers -> In l layers0 \/ made_from a cns layers l.
Proof.
  induction order as [|n r IH]; intros layers0 layers; cbn [instantiate_loop].
  - intros [= <-]. split; [exists []; now rewrite app_nil_r|]. split; [now rewrite app_nil_r|]. auto.
  - unfold instantiate_one. destruct (dget n a) as [[rl kw]|] eqn:Ed; [|discriminate].
    destruct (r_type rl) as [|ty|] eqn:Et; try discriminate.
    destruct (get_layer_class ty) as [c|] eqn:Ec; [|discriminate]. cbn [sbind]. cbv zeta.
    destruct (input_structures layers0 _) as [ins|] eqn:Ei; [|discriminate]. cbn [sbind].
    destruct (make_layer c n ins _ _ kw) as [l|] eqn:El; [|discriminate]. cbn [sbind].
    intros H. destruct (IH _ _ H) as [[post H1] [H2 H3]].
    assert (Hname := proj1 (make_layer_name _ _ _ _ _ _ _ El)).
    assert (H0 : layers = layers0 ++ l :: post). { rewrite H1, <- app_assoc. reflexivity. }
    split; [now exists (l :: post)|]. split.
    + rewrite H2, map_app, <- app_assoc. cbn. now rewrite Hname.
    + intros x Hx. destruct (H3 x Hx) as [Hx'|Hx']; [|now right].
      apply in_app_or in Hx'. destruct Hx' as [Hx'|[<-|[]]]; [now left|]. right.
      exists layers0, rl, kw, ty, c, ins. rewrite Hname. split; [now exists post|]. repeat (split; [assumption|]). exact El.
Qed.

Lemma smap_In {A B} (f : A -> sres B) l : forall ys y, smap f l = SOk ys -> In y ys -> exists x, In x l /\ f x = SOk y.
Proof.
  induction l as [|x l IH]; intros ys y; cbn [smap]; [intros [= <-] []|].
  destruct (f x) as [z|] eqn:E; [|discriminate]. cbn [sbind].
  destruct (smap f l) as [zs|]; [|discriminate]. cbn [sbind]. intros [= <-] [<-|H].
  - exists x. split; [now left|assumption].
  - destruct (IH _ _ eq_refl H) as [x' [H1 H2]]. exists x'. split; [now right|assumption].
Qed.

Lemma combine_input_like l b : combine_structs l = SOk b -> input_like b.
Proof.
  unfold combine_structs. destruct combine_buffer_structures as [s| | |]; try discriminate.
  intros H. apply new_structure_ok in H. destruct H as [-> H]. split; [exact H|]. split; reflexivity.
Qed.

Lemma made_input_like a cns layers l : made_from a cns layers l ->
  exists c ins inc outg kw, make_layer c (li_name l) ins inc outg kw = SOk l /\ (forall n b, In (n, b) ins -> input_like b).
Proof.
  intros [pre [r [kw [ty [c [ins [_ [_ [_ [_ [H1 H2]]]]]]]]]]]. do 5 eexists. split; [exact H2|].
  intros n b Hb. destruct (smap_In _ _ _ _ H1 Hb) as [n' [_ H]].
  destruct (input_structure pre _ n') as [b'|] eqn:E; [|discriminate]. cbn [sbind] in H. injection H as -> ->.
  unfold input_structure in E. destruct (smap _ _) as [shapes|]; [|discriminate]. cbn [sbind] in E.
  eapply combine_input_like. exact E.
Qed.

Lemma instantiate_made a layers : instantiate a = SOk layers ->
  exists cns order, collect_all_connections (raw_of a) = Some cns /\ get_canonical_layer_order (raw_of a) = OrderOk order /\
    validate_architecture (raw_of a) = Accepted /\ map li_name layers = order /\ forall l, In l layers -> made_from a cns layers l.
Proof.
  unfold instantiate. destruct (validate_architecture _) eqn:EV; try discriminate.
  destruct (collect_all_connections _) as [cns|] eqn:EC; [|discriminate].
  destruct (get_canonical_layer_order _) as [order| | |] eqn:EO; try discriminate.
  intros H. apply loop_made in H. destruct H as [_ [H1 H2]]. exists cns, order.
  split; [reflexivity|]. split; [reflexivity|]. split; [reflexivity|]. split; [exact H1|].
  intros l Hl. destruct (H2 l Hl) as [[]|H]. exact H.
Qed.

(** The passes of one constructed layer. *)
Lemma made_good c name ins inc outg kw l T B training :
  make_layer c name ins inc outg kw = SOk l -> (forall n b, In (n, b) ins -> input_like b) ->
  positive l -> usable l -> 1 <= T -> 1 <= B -> good l T B training.
Proof.
  intros H HI HP HU HT HB. apply make_layer_inv in H. destruct H as [HV [sp [HS ->]]].
  destruct T as [|T]; [lia|]. destruct B as [|B]; [lia|].
  eapply (setup_good name kw _ inc outg c sp T B training); eauto.
  intros n b Hn. eapply HI. eapply isort_In. exact Hn.
Qed.

(** ** C61 *)
(** Every operation of the forward and backward pass of every layer of a network
    gets arrays of fitting shapes, for all sizes of the data. *)
Theorem C61_passes_fit a layers l T B training :
  instantiate a = SOk layers -> In l layers -> positive l -> usable l -> 1 <= T -> 1 <= B ->
  Forall call_ok (forward_calls l T B training) /\ Forall call_ok (backward_calls l T B).
Proof.
  intros H Hl HP HU HT HB. apply instantiate_made in H. destruct H as [cns [order [_ [_ [_ [_ H]]]]]].
  destruct (made_input_like _ _ _ _ (H l Hl)) as [c [ins [inc [outg [kw [HM HI]]]]]].
  exact (made_good _ _ _ _ _ _ _ T B training HM HI HP HU HT HB).
Qed.
Print Assumptions C61_passes_fit.

(** The converse: the conditions [usable] are exactly what the construction of a
    layer does not check. *)
Ltac find_in :=
  match goal with
  | |- In _ (_ :: _) => first [left; reflexivity | right; find_in]
  | |- In _ (_ ++ _) => apply in_or_app; first [left; find_in | right; find_in]
  | |- In _ (act _ _ _) => unfold act; find_in
  | |- In _ (inplace_act _ _) => unfold inplace_act; find_in
  | |- In _ (flat_map _ _) => apply in_flat_map; exists 0; split; [match goal with H : hd _ _ = _ |- _ => rewrite H; now left end|]; cbv zeta; find_in
  end.

Lemma scalar_seen L o : (forall c, In c L -> call_ok c) -> (exists name arrays, In (HEach name [o] arrays) L) -> exists q, o = Some q.
Proof.
  intros H [name [arrays Hc]]. destruct (H _ Hc) as [H1 _]. specialize (H1 o (or_introl eq_refl)).
  destruct o as [q|]; [now exists q|congruence].
Qed.

Ltac act_seen c ins' HF HV HI' :=
  refine (HF (VActivation _) _);
  unfold forward_calls, fwd_recurrent, fwd_lstm, fwd_conv, fwd_elementwise, fwd_fully_connected; cbn [li_cls]; cbv zeta;
  try match goal with |- context [seq 0 (hd 0 (inp ?l 1 1 "default"))] =>
    assert (Hhd : hd 0 (inp l 1 1 "default") = 1) by (
      destruct (in_tb c ins' HV HI' "default") as [fs [_ Hd]]; [reflexivity|];
      unfold inp, sh, find_shape; cbn [li_in]; rewrite Hd; reflexivity)
  end; find_in.

Theorem C61_usable_needed c name ins inc outg kw l :
  make_layer c name ins inc outg kw = SOk l -> (forall n b, In (n, b) ins -> input_like b) ->
  Forall call_ok (forward_calls l 1 1 true) -> Forall call_ok (backward_calls l 1 1) -> usable l.
Proof.
  intros HM HI HF HB. apply make_layer_inv in HM. destruct HM as [HV [sp [HS ->]]].
  set (ins' := isort _ ins) in *.
  assert (HI' : forall n b, In (n, b) ins' -> input_like b).
  { intros n b Hn. eapply HI. eapply isort_In. exact Hn. }
  rewrite Forall_forall in HF, HB.
  unfold usable. destruct c; cbn [li_cls li_cfg]; try exact I.
  - eapply scalar_seen; [exact HF|]. unfold forward_calls, fwd_batch_norm; cbn [li_cls]; cbv zeta. do 2 eexists. find_in.
  - destruct (in_tb CBinomialCE ins' HV HI' "default") as [fs [Hne Hd]]; [reflexivity|].
    destruct (in_tb CBinomialCE ins' HV HI' "targets") as [gs [_ He]]; [reflexivity|].
    exists (tb fs 0 false). split; [exact Hd|]. rewrite features_tb.
    cbn [setup] in HS. unfold setup_binomial, in_shape in HS. rewrite Hd, He in HS. cbn [sbind] in HS. rewrite !features_tb in HS.
    check HS E1. step HS outs Eo. step HS ints Ei. injection HS as <-. inv_build Eo. inv_build Ei.
    assert (G : call_ok (HBroadcast [1; 1; 1] 2 (1 :: 1 :: nats fs))).
    { apply HB. unfold backward_calls, bwd_binomial. lists. cbv zeta. buffers. ctx0. change (Z.to_nat 1) with 1. find_in. }
    destruct G as [_ [_ G]]. cbn in G. destruct fs as [|f [|f2 fs]]; [congruence|reflexivity|discriminate G].
  - act_seen CClockwork ins' HF HV HI'.
  - act_seen CClockworkLstm ins' HF HV HI'.
  - act_seen CConv ins' HF HV HI'.
  - eapply scalar_seen; [exact HB|]. unfold backward_calls, bwd_deltas_scaling; cbn [li_cls]; cbv zeta. do 2 eexists. find_in.
  - match type of HF with forall c, In c ?L -> _ => set (L' := L) in * end.
    assert (H1 : exists m q, In (HProbMask m q) L' /\ In (VDivide q) L' /\ q = option_map (fun p => 1 - p)%Q (as_number (cf_scalar (sp_cfg sp)))).
    { do 2 eexists. unfold L', forward_calls, fwd_dropout; cbn [li_cls]; cbv zeta. split; [find_in|]. split; [find_in|reflexivity]. }
    destruct H1 as [m [q [H1 [H2 H3]]]]. apply HF in H1, H2. destruct H1 as [q1 [H1 H4]]. destruct H2 as [q2 [H2 H5]].
    rewrite H3 in H1, H2. destruct (as_number (cf_scalar (sp_cfg sp))) as [p|]; [|discriminate]. cbn in H1, H2.
    injection H1 as <-. injection H2 as <-. exists p. split; [reflexivity|]. lra.
  - act_seen CElementwise ins' HF HV HI'.
  - act_seen CFullyConnected ins' HF HV HI'.
  - eapply scalar_seen; [exact HF|]. unfold forward_calls, fwd_loss; cbn [li_cls]; cbv zeta. do 2 eexists. find_in.
  - act_seen CLstm ins' HF HV HI'.
  - assert (H1 : exists i o am, call_ok (HPoolForward i (cf_kernel (sp_cfg sp)) o (cf_padding (sp_cfg sp)) (cf_stride (sp_cfg sp)) am)).
    { do 3 eexists. apply HF. unfold forward_calls, fwd_pool; cbn [li_cls]; cbv zeta. find_in. }
    destruct H1 as [i [o [am [[_ [n [rows [cols [maps [oh [ow [f [_ [_ [H1 H2]]]]]]]]]]] _]]]]. unfold extent_ok in H1, H2. lia.
  - act_seen CRecurrent ins' HF HV HI'.
Qed.
Print Assumptions C61_usable_needed.

(** ** Examples for C61 *)
Definition entry (name type : string) (outs : list (string * list string)) (kw : kwargs) : string * (raw_layer * kwargs) :=
  (name, (mkRaw (TypeString type) (OutDict outs), kw)).
Definition tb_shape (dims : list Z) : kval := KSeq (KStr "T" :: KStr "B" :: map KInt dims).
(** An LSTM network with a softmax output for sequences. *)
Definition lstm_net : karch :=
  [entry "Input" "Input" [("default", ["Lstm"]); ("targets", ["Out.targets"])]
     [("out_shapes", KDict [("default", tb_shape [4%Z]); ("targets", tb_shape [1%Z])])];
   entry "Lstm" "Lstm" [("default", ["FC"])] [("size", KInt 3)];
   entry "FC" "FullyConnected" [("default", ["Out"])] [("size", KInt 2); ("activation", KStr "linear")];
   entry "Out" "SoftmaxCE" [("loss", ["Loss"])] [];
   entry "Loss" "Loss" [] []].
Definition layers_of (a : karch) : list linst := match instantiate a with SOk l => l | SErr _ => [] end.

Definition positive_b (l : linst) : bool :=
  forallb (fun e => forallb (fun z => (0 <? z)%Z) (features (snd e))) (li_in l ++ li_out l ++ li_params l ++ li_int l).
Lemma positive_b_ok l : positive_b l = true -> positive l.
Proof.
  unfold positive_b, positive, positive_dims. rewrite forallb_forall. intros H.
  assert (G : forall n b, In (n, b) (li_in l ++ li_out l ++ li_params l ++ li_int l) -> Forall (fun z => 0 < z)%Z (features b)).
  { intros n b Hb. apply H in Hb. cbn [snd] in Hb. rewrite forallb_forall in Hb. apply Forall_forall.
    intros z Hz. apply Z.ltb_lt. now apply Hb. }
  repeat split; intros n b Hb; apply (G n b); rewrite !in_app_iff; auto.
Qed.

Example C61_example :
  instantiate lstm_net = SOk (layers_of lstm_net) /\ map li_name (layers_of lstm_net) = ["Input"; "Lstm"; "FC"; "Out"; "Loss"] /\
  Forall (fun l => positive l /\ usable l) (layers_of lstm_net).
Proof.
  split; [vm_compute; reflexivity|]. split; [vm_compute; reflexivity|].
  assert (H : forallb positive_b (layers_of lstm_net) = true) by (vm_compute; reflexivity).
  rewrite forallb_forall in H. apply Forall_forall. intros l Hl. split; [apply positive_b_ok; auto|].
  clear H. revert l Hl. apply Forall_forall.
  let L := eval vm_compute in (layers_of lstm_net) in change (layers_of lstm_net) with L.
  repeat constructor; cbn -[known_activation]; try (now exists 1%Q);
    eexists; (split; [reflexivity|cbn; auto 10]).
Qed.
(** The numbers of operations for 5 time steps of 2 sequences. *)
Example C61_example_calls :
  map (fun l => (length (forward_calls l 5 2 true), length (backward_calls l 5 2))) (layers_of lstm_net) =
  [(0, 0); (208, 331); (12, 16); (14, 15); (6, 3)].
Proof. reflexivity. Qed.

(** ** What the construction does not check *)
(** An activation function that does not exist: the forward pass fails. *)
Definition typo_net : karch :=
  [entry "Input" "Input" [("default", ["FC"])] [("out_shapes", KDict [("default", tb_shape [4%Z])])];
   entry "FC" "FullyConnected" [("default", [])] [("size", KInt 2); ("activation", KStr "rectified")]].
Theorem C61_unknown_activation_refuted :
  exists a layers l, instantiate a = SOk layers /\ In l layers /\ positive l /\
    forall T B training, ~ Forall call_ok (forward_calls l T B training).
Proof.
  exists typo_net, (layers_of typo_net), (nth 1 (layers_of typo_net) (mkInst CInput "" [] [] [] [] no_cfg [] [])).
  split; [vm_compute; reflexivity|]. split; [vm_compute; auto|]. split; [apply positive_b_ok; vm_compute; reflexivity|].
  intros T B training H. rewrite Forall_forall in H.
  assert (G : call_ok (VActivation (KStr "rectified"))).
  { apply H. unfold forward_calls, fwd_fully_connected. cbn [nth li_cls]. match goal with |- context [li_cls ?l] => change (li_cls l) with CFullyConnected end. cbv iota zeta. find_in. }
  destruct G as [s [[= <-] G]]. cbn in G. intuition discriminate.
Qed.
Print Assumptions C61_unknown_activation_refuted.

(** drop_prob = 1: the forward pass divides by zero. *)
Definition drop_net : karch :=
  [entry "Input" "Input" [("default", ["Drop"])] [("out_shapes", KDict [("default", tb_shape [4%Z])])];
   entry "Drop" "Dropout" [("default", [])] [("drop_prob", KNum 1)]].
Theorem C61_drop_everything_refuted :
  exists a layers l, instantiate a = SOk layers /\ In l layers /\ positive l /\
    forall T B, ~ Forall call_ok (forward_calls l T B true).
Proof.
  exists drop_net, (layers_of drop_net), (nth 1 (layers_of drop_net) (mkInst CInput "" [] [] [] [] no_cfg [] [])).
  split; [vm_compute; reflexivity|]. split; [vm_compute; auto|]. split; [apply positive_b_ok; vm_compute; reflexivity|].
  intros T B H. rewrite Forall_forall in H.
  assert (G : call_ok (VDivide (Some (1 - 1)%Q))).
  { apply H. unfold forward_calls, fwd_dropout. match goal with |- context [li_cls ?l] => change (li_cls l) with CDropout end. cbv iota zeta. find_in. }
  destruct G as [q [[= <-] G]]. now apply G.
Qed.
Print Assumptions C61_drop_everything_refuted.

(** BinomialCrossEntropy accepts inputs with several feature dimensions.  Its
    forward pass sums over all of them, its backward pass broadcasts along axis 2
    only, which gives an array of another shape. *)
Definition binomial_net : karch :=
  [entry "Input" "Input" [("default", ["BCE"]); ("targets", ["BCE.targets"])]
     [("out_shapes", KDict [("default", tb_shape [3%Z; 4%Z]); ("targets", tb_shape [3%Z; 4%Z])])];
   entry "BCE" "BinomialCrossEntropy" [("default", [])] []].
Definition bce_layer : linst :=
  let s := mkB [DT; DB; DInt 3; DInt 4] 0 false in
  mkInst CBinomialCE "BCE" [("default", s); ("targets", s)] [("default", mkB [DT; DB; DInt 1] 0 false)] []
    [("cee", s); ("ceed", mkB [DT; DB; DInt 3; DInt 4] 0 true)] no_cfg
    [mkCon "Input" "default" "BCE" "default"; mkCon "Input" "targets" "BCE" "targets"] [].
Theorem C61_binomial_refuted :
  exists a layers l, instantiate a = SOk layers /\ In l layers /\ positive l /\
    (forall T B, 1 <= T -> 1 <= B -> Forall call_ok (forward_calls l T B true)) /\
    forall T B, ~ Forall call_ok (backward_calls l T B).
Proof.
  exists binomial_net, (layers_of binomial_net), bce_layer.
  split; [vm_compute; reflexivity|]. split; [vm_compute; auto|]. split; [apply positive_b_ok; vm_compute; reflexivity|].
  split.
  - intros T B HT HB.
    assert (HB' : bshape T B (mkB [DT; DB; DInt 3; DInt 4] 0 false) = [T; B; 3; 4]).
    { unfold bshape. cbn. change (Pos.to_nat 3) with 3. change (Pos.to_nat 4) with 4. f_equal; lia. }
    assert (HC : bshape T B (mkB [DT; DB; DInt 1] 0 false) = [T; B; 1]).
    { unfold bshape. cbn. f_equal; lia. }
    unfold forward_calls, fwd_binomial, bce_layer, inp, outp, int, sh, find_shape. lists. cbv iota zeta.
    cbn [dget String.eqb Ascii.eqb Bool.eqb option_map]. rewrite HB', HC.
    change (flat_time_features [T; B; 3; 4]) with [T * B; 12]. change (flat_time [T; B; 1]) with [T * B; 1].
    oks; repeat constructor; discriminate.
  - intros T B H. rewrite Forall_forall in H.
    assert (HB' : exists x s1 s2, call_ok (HBroadcast [x; s1; 1] 2 [x; s2; 3; 4])).
    { do 3 eexists. apply H. unfold backward_calls, bwd_binomial, bce_layer, inp, outp, int, sh, find_shape. lists. cbv iota zeta.
      cbn [dget String.eqb Ascii.eqb Bool.eqb option_map]. find_in. }
    destruct HB' as [x [s1 [s2 [_ [_ G]]]]]. discriminate G.
Qed.
Print Assumptions C61_binomial_refuted.

(** A kernel larger than the image gives an output with negative dimensions
    (for a 3x3 image and a 5x5 kernel: -1x-1), without an error. *)
Definition big_kernel_net : karch :=
  [entry "Input" "Input" [("default", ["Conv"])] [("out_shapes", KDict [("default", tb_shape [3%Z; 3%Z; 1%Z])])];
   entry "Conv" "Convolution2D" [("default", [])] [("num_filters", KInt 2); ("kernel_size", KSeq [KInt 5; KInt 5])]].
Theorem C61_big_kernel_refuted :
  exists a layers l b, instantiate a = SOk layers /\ In l layers /\ usable l /\ In ("default", b) (li_out l) /\
    features b = [-1; -1; 2]%Z /\ forall T B training, ~ Forall call_ok (forward_calls l T B training).
Proof.
  exists big_kernel_net, (layers_of big_kernel_net), (nth 1 (layers_of big_kernel_net) bce_layer),
    (mkB [DT; DB; DInt (-1); DInt (-1); DInt 2] 0 false).
  split; [vm_compute; reflexivity|]. split; [vm_compute; auto|].
  split. { eexists. split; [reflexivity|]. cbn. auto 10. }
  split; [vm_compute; auto|]. split; [reflexivity|].
  intros T B training H. rewrite Forall_forall in H.
  assert (G : exists i w b o p st, call_ok (HConvForward i w b o p st) /\ w = [2; 5; 5; 1] /\ p = 0%Z /\ nth 1 i 0 = 3 /\ length i = 4).
  { do 6 eexists. split; [apply H; unfold forward_calls, fwd_conv; match goal with |- context [li_cls ?l] => change (li_cls l) with CConv end; cbv iota zeta; find_in|].
    split; [reflexivity|]. split; [reflexivity|]. split; reflexivity. }
  destruct G as (i & w & b & o & p & st & (nf & kh & kw & maps & H1 & _ & _ & _ & (_ & n & rows & cols & ma & oh & ow & f & H2 & _ & H3 & _)) & H4 & -> & H5 & _).
  rewrite H4 in H1. injection H1 as <- <- <- <-. rewrite H2 in H5. cbn in H5. subst rows. unfold extent_ok, zpair in H3. cbn in H3. lia.
Qed.
Print Assumptions C61_big_kernel_refuted.
