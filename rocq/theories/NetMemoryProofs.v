(** The layers of a network in its memory meet the conditions of MemoryPassProofs. *)
From Coq Require Import String Ascii List ZArith QArith Reals Bool Lia Permutation.
From Verif Require Import NumBase NumpyModel LayersModel NetworkModel NetworkProps NetLayersModel NetLayersProps MemoryPassModel MemoryPassProofs.
From Verif Require Import HubModel HubProofs LayoutModel LayoutProofs LayoutProps BuffersModel BuffersProofs BuffersProps BackwardProps.
From Verif Require Import PyBase PyFacts UtilsModel UtilsProofs NamesModel ArchModel ArchProofs ShapesModel ShapesProofs SetupModel PassShapesModel SetupProofs PassShapesProofs SetupProps InstanceProofs InstanceProps NetLayoutExtra NetLayoutProofs NetLayoutProps CellsProofs NetMemoryModel NetSizesProofs.
Import ListNotations.
Open Scope string_scope.
Open Scope list_scope.
Open Scope nat_scope.

(** Where the inputs come from: inputs that get deltas are outputs of the first layer
    or outputs whose deltas are used; constant inputs are outputs of the first layer. *)
Definition const_source (layers : list linst) (c : connection) : bool :=
  match layers with l0 :: _ => String.eqb (c_start c) (li_name l0) && smem (c_out c) (map fst (li_out l0)) | [] => false end.
Definition delta_source (layers : list linst) (c : connection) : bool :=
  const_source layers c ||
  existsb (fun l => String.eqb (c_start c) (li_name l) && smem (c_out c) (out_names (li_cls l))) (tl layers).
Definition differentiable (layers : list linst) : bool :=
  forallb (fun l => forallb (fun c => if smem (c_in c) (const_names (li_cls l)) then const_source layers c else delta_source layers c) (li_incoming l)) (tl layers).

Lemma smem_In x l : smem x l = true <-> In x l.
Proof.
  unfold smem. rewrite existsb_exists. split; [intros [y [H E]]; apply String.eqb_eq in E; now subst|intros H; exists x; split; [exact H|apply String.eqb_refl]].
Qed.
Lemma NoDup_flat {X Y} (f : X -> list Y) xs : NoDup xs -> (forall x, In x xs -> NoDup (f x)) ->
  (forall x x' y, In x xs -> In x' xs -> In y (f x) -> In y (f x') -> x = x') -> NoDup (flat_map f xs).
Proof.
  induction xs as [|x xs IH]; intros N F Dj; [constructor|]. cbn [flat_map]. inversion_clear N.
  assert (G : forall l r : list Y, NoDup l -> NoDup r -> (forall y, In y l -> ~ In y r) -> NoDup (l ++ r)).
  { clear. induction l as [|y l IH]; intros r Nl Nr Dj; [exact Nr|]. cbn. inversion_clear Nl. constructor.
    - intros Hin. apply in_app_or in Hin. destruct Hin; [contradiction|]. apply (Dj y); [now left|assumption].
    - apply IH; auto. intros z Hz. apply Dj. now right. }
  apply G; [apply F; now left|apply IH; auto with datatypes|].
  - intros x1 x2 y H1 H2. apply Dj; now right.
  - intros y Hy Hin. apply in_flat_map in Hin. destruct Hin as [x' [Hx' Hy']]. assert (x = x') by (apply (Dj x x' y); auto with datatypes). subst. contradiction.
Qed.
Lemma map_flat {X Y Z} (g : Y -> Z) (f : X -> list Y) xs : map g (flat_map f xs) = flat_map (fun x => map g (f x)) xs.
Proof. induction xs as [|x xs IH]; [reflexivity|]. cbn. now rewrite map_app, IH. Qed.
Lemma flat_map_same {X Y} (f g : X -> list Y) xs : (forall x, In x xs -> f x = g x) -> flat_map f xs = flat_map g xs.
Proof. induction xs as [|x xs IH]; intros H; [reflexivity|]. cbn. rewrite (H x) by now left. f_equal. apply IH. intros y Hy. apply H. now right. Qed.

Lemma In_tl {X} (x : X) xs : In x (tl xs) -> In x xs.
Proof. destruct xs; [intros []|]. now right. Qed.

Section Net.
  Variables (a : karch) (layers : list linst) (hubs : list hub) (lay : slices).
  Hypothesis HN : named a.
  Hypothesis HI : instantiate a = SOk layers.
  Hypothesis HL : create_layout (map layout_layer layers) = LOk (hubs, lay).
  Hypothesis HZ : nonnegative layers.
  Hypothesis HS : forall l, In l (tl layers) -> supported l = true.
  Hypothesis HD : differentiable layers = true.
  Variables (e : env) (T B : nat).
  Let cells := cells layers hubs lay (S T) B.
  Let cells_of := cells_of layers hubs lay T B.
  Let ml := mlayer_of layers hubs lay e T B.
  Let d := delta layers hubs lay (S T) B.

  Lemma in_tl l : In l (tl layers) -> In l layers.
  Proof. apply In_tl. Qed.
  Lemma first_input l0 r : layers = l0 :: r -> li_cls l0 = CInput /\ li_params l0 = [] /\ forall n b, In (n, b) (li_out l0) -> bs_ctx b = 0%Z.
  Proof.
    intros E. destruct (instantiate_made _ _ HI) as [cns [order [_ [_ [_ [_ M]]]]]]. assert (Hl : In l0 layers) by (rewrite E; now left).
    destruct (M l0 Hl) as [pre [rr [kw [ty [c [ins [[post Hp] [_ [_ [_ [Hi Hm]]]]]]]]]]].
    assert (pre = []). { destruct pre as [|y pre]; [reflexivity|]. exfalso. rewrite E in Hp. injection Hp as <- Hp.
      destruct (instantiate_names _ _ HN HI) as [N1 _]. rewrite E in N1. cbn [map] in N1. inversion_clear N1 as [|? ? X Y]. apply X. rewrite Hp, map_app. apply in_or_app. right. now left. }
    subst pre.
    assert (ins = []).
    { destruct ins as [|[n b] ins]; [reflexivity|]. exfalso. destruct (input_structures_In _ _ _ n b Hi (or_introl eq_refl)) as [Hn Es].
      unfold input_structure in Es. apply in_map_iff in Hn. destruct Hn as [k [<- Hk]]. set (inc := con_set _ cns) in *.
      assert (Hf : In k (filter (fun c => String.eqb (c_in c) (c_in k)) inc)) by (apply filter_In; split; [exact Hk|apply String.eqb_refl]).
      destruct (filter _ inc) as [|k' ks]; [destruct Hf|]. cbn [smap source_shape find sbind] in Es. discriminate. }
    subst ins. apply make_layer_inv in Hm. destruct Hm as [HV [sp [Hs El]]]. cbn in HV.
    assert (c = CInput) by (destruct c; try discriminate HV; reflexivity). subst c. rewrite El. cbn [li_cls li_params li_out]. split; [reflexivity|].
    cbn [setup] in Hs. unfold setup_input in Hs. destruct (dget "out_shapes" kw) as [v|]; [|discriminate]. cbn [isort guard sbind] in Hs. destruct v as [| | | |ds|]; try discriminate.
    destruct (build _) as [outs|] eqn:Eo; cbn [sbind] in Hs; [|discriminate]. injection Hs as <-. split; [reflexivity|]. cbn [sp_out]. clear -Eo. revert outs Eo.
    induction ds as [|[n v] ds IH]; intros outs Eo m b Hb; cbn [map build fst snd] in Eo; [injection Eo as <-; destruct Hb|].
    destruct (structure_of_kval v) as [x|] eqn:Ex; cbn [sbind] in Eo; [|discriminate]. destruct (build _) as [bs|] eqn:Eb; cbn [sbind] in Eo; [|discriminate]. injection Eo as <-.
    destruct Hb as [Hb|Hb]; [|now apply (IH bs eq_refl m b)]. injection Hb as <- <-. destruct v; cbn in Ex; try discriminate. apply new_structure_ok in Ex. destruct Ex as [-> _]. reflexivity.
  Qed.
  Lemma net_split : exists l0 r, layers = l0 :: r \/ layers = [].
  Proof. destruct layers as [|l0 r]; [exists (mkInst CInput "" [] [] [] [] no_cfg [] []), []; now right|exists l0, r; now left]. Qed.
  Lemma layers_NoDup : NoDup layers.
  Proof. destruct (instantiate_names _ _ HN HI) as [N1 _]. now apply NoDup_map_inv in N1. Qed.
  (** Sources come before. *)
  Lemma net_order pre l post c l' : layers = pre ++ l :: post -> In c (li_incoming l) -> In l' layers -> li_name l' = c_start c -> In l' pre.
  Proof.
    intros E Hc Hl' En. destruct (net_cns a layers HI) as [cns Ec]. destruct (C62_connections a layers cns HN HI Ec) as [X Y].
    assert (Hl : In l layers) by (rewrite E; apply in_or_app; right; now left).
    destruct (X l c Hl) as [X1 _]. apply X1 in Hc. destruct Hc as [Hc He]. destruct (Y c Hc) as [bl [l1 [al [l2 [F1 [F2 [F3 [F4 _]]]]]]]].
    assert (l1 = l) by (apply (net_unique a layers HN HI); [rewrite F1; apply in_or_app; right; now left|exact Hl|congruence]). subst l1.
    assert (l2 = l') by (apply (net_unique a layers HN HI); [rewrite F1; apply in_or_app; now left|exact Hl'|congruence]). subst l2.
    assert (N := layers_NoDup). rewrite E in F1, N. clear -F1 F2 N. revert bl F1 F2.
    induction pre as [|x pre IH]; intros [|y bl] F1 F2; cbn in *; try contradiction.
    - injection F1 as -> F1. exfalso. inversion_clear N as [|? ? Q _]. apply Q. rewrite F1. apply in_or_app. right. now left.
    - injection F1 as -> F1. inversion_clear N. destruct F2 as [<-|F2]; [now left|right]. apply (IH H0 bl F1 F2).
  Qed.

  (** ** Sources of inputs *)
  Lemma in_not_const c n : In n (in_names c) -> ~ In n (const_names c).
  Proof. destruct c; cbn; intuition (subst; discriminate). Qed.
  Lemma out_not_loss c n : In n (out_names c) -> ~ In n (loss_names c).
  Proof. destruct c; cbn; intuition (subst; discriminate). Qed.
  Lemma source_const l c : In l (tl layers) -> In c (li_incoming l) -> const_source layers c = true -> exists l0 r, layers = l0 :: r /\ plain_source layers c l0.
  Proof.
    intros Hl Hc H. unfold const_source in H. destruct layers as [|l0 r]; [discriminate|]. apply andb_true_iff in H. destruct H as [H1 H2]. apply String.eqb_eq in H1. apply smem_In in H2.
    exists l0, r. split; [reflexivity|]. split; [now left|]. split; [now symmetry|exact H2].
  Qed.
  Lemma conn_source l n c : In l (tl layers) -> In c (conns l n) -> if smem n (const_names (li_cls l)) then const_source layers c = true else delta_source layers c = true.
  Proof.
    intros Hl Hc. unfold conns in Hc. apply filter_In in Hc. destruct Hc as [Hc En]. apply String.eqb_eq in En. unfold differentiable in HD. rewrite forallb_forall in HD. specialize (HD l Hl).
    rewrite forallb_forall in HD. specialize (HD c Hc). rewrite En in HD. destruct (smem n _); exact HD.
  Qed.
  Lemma delta_plain c : delta_source layers c = true -> exists l', plain_source layers c l' /\ ~ In (c_out c) (loss_names (li_cls l')).
  Proof.
    intros H. unfold delta_source in H. apply orb_true_iff in H. destruct H as [H|H].
    - destruct net_split as [l0 [r [E|E]]]; [|rewrite E in H; discriminate]. unfold const_source in H. rewrite E in H. apply andb_true_iff in H. destruct H as [H1 H2]. apply String.eqb_eq in H1. apply smem_In in H2.
      exists l0. split; [split; [rewrite E; now left|split; [now symmetry|exact H2]]|]. rewrite (proj1 (first_input l0 r E)). intros [].
    - apply existsb_exists in H. destruct H as [l' [Hl' H]]. apply andb_true_iff in H. destruct H as [H1 H2]. apply String.eqb_eq in H1. apply smem_In in H2.
      exists l'. split; [|now apply out_not_loss]. split; [now apply in_tl|]. split; [now symmetry|].
      apply (net_sized a layers l' e T B HI HZ (in_tl _ Hl') (HS _ Hl') none none). apply in_or_app. now left.
  Qed.
  Lemma const_delta c : const_source layers c = true -> delta_source layers c = true.
  Proof. intros H. unfold delta_source. now rewrite H. Qed.
  Lemma conn_plain l n c : In l (tl layers) -> In c (conns l n) -> exists l', plain_source layers c l' /\ ~ In (c_out c) (loss_names (li_cls l')).
  Proof. intros Hl Hc. apply delta_plain. assert (X := conn_source l n c Hl Hc). destruct (smem _ _); [now apply const_delta|exact X]. Qed.

  (** ** Cells *)
  Definition cell (A : nat) : Prop := exists l x, In l layers /\ In x (map fst (li_out l)) /\ ~ In x (loss_names (li_cls l)) /\ In A (cells l "outputs" x).
  Lemma own_out : ~ In "outputs" ["inputs"; "input_deltas"]. Proof. cbn; intuition discriminate. Qed.
  Lemma own_del : ~ In "output_deltas" ["inputs"; "input_deltas"]. Proof. cbn; intuition discriminate. Qed.
  Lemma own_par : ~ In "parameters" ["inputs"; "input_deltas"]. Proof. cbn; intuition discriminate. Qed.
  Lemma own_grad : ~ In "gradients" ["inputs"; "input_deltas"]. Proof. cbn; intuition discriminate. Qed.
  Lemma once l cat x l' cat' x' A : In l layers -> In l' layers -> ~ In cat ["inputs"; "input_deltas"] -> ~ In cat' ["inputs"; "input_deltas"] ->
    In A (cells l cat x) -> In A (cells l' cat' x') -> l = l' /\ cat = cat' /\ x = x'.
  Proof. apply (cells_once a layers hubs lay HN HI HL HZ (S T) B). Qed.
  Lemma cell_delta A : cell A -> exists l x, In l layers /\ In x (map fst (li_out l)) /\ In (d A) (cells l "output_deltas" x).
  Proof.
    intros [l [x [Hl [Hx [_ HA]]]]]. exists l, x. split; [exact Hl|]. split; [exact Hx|]. unfold cells. rewrite (delta_outputs a layers hubs lay HN HI HL HZ (S T) B l x Hl Hx). now apply in_map.
  Qed.
  Lemma delta_inj A A' : cell A -> cell A' -> d A = d A' -> A = A'.
  Proof.
    intros [l [x [Hl [Hx [_ HA]]]]] [l' [x' [Hl' [Hx' [_ HA']]]]] E.
    apply (In_nth _ _ 0) in HA. destruct HA as [j [Hj <-]]. apply (In_nth _ _ 0) in HA'. destruct HA' as [j' [Hj' <-]].
    unfold d, cells in E. rewrite (delta_at a layers hubs lay HN HI HL HZ (S T) B l x j Hl Hx Hj), (delta_at a layers hubs lay HN HI HL HZ (S T) B l' x' j' Hl' Hx' Hj') in E.
    destruct (cells_deltas a layers hubs lay HN HI HL HZ (S T) B l x Hl) as [L1 _]. destruct (cells_deltas a layers hubs lay HN HI HL HZ (S T) B l' x' Hl') as [L2 _].
    fold cells in E, L1, L2 |- *.
    destruct (once l "output_deltas" x l' "output_deltas" x' (nth j (cells l "output_deltas" x) 0) Hl Hl' own_del own_del) as [<- [_ <-]]; [apply nth_In; lia|rewrite E; apply nth_In; lia|].
    f_equal. apply (proj1 (NoDup_nth (cells l "output_deltas" x) 0)); try lia. apply (cells_NoDup a layers hubs lay HN HI HL HZ (S T) B l "output_deltas" x Hl own_del).
  Qed.
  Lemma cells_total l cat names : In l layers -> length (cells_of l cat names) = total (S T) B (buffers_of l cat) names.
  Proof.
    intros Hl. unfold cells_of, NetMemoryModel.cells_of, total. induction names as [|n names IH]; [reflexivity|]. cbn [flat_map fold_right]. rewrite app_length, IH. f_equal.
    unfold sz, lead, nf. destruct (dget n (buffers_of l cat)) as [b|] eqn:E.
    - apply dget_In in E. rewrite (cells_length a layers hubs lay HN HI HL HZ (S T) B l cat n b Hl E).
      destruct (size_shape b (S T) B) as [X|X]; [exact X|]. elim X. exact (buffers_valid a layers HN HI l cat n b Hl E).
    - unfold CellsProofs.cells. rewrite E. reflexivity.
  Qed.
  Lemma cells_of_In l cat names A : In A (cells_of l cat names) -> exists n, In n names /\ In A (cells l cat n).
  Proof. intros H. apply in_flat_map in H. destruct H as [n [H1 H2]]. now exists n. Qed.

  (** An input cell is a cell of an output of an earlier layer. *)
  Lemma input_from pre l post n A : layers = pre ++ l :: post -> pre <> [] -> In A (cells l "inputs" n) ->
    exists l' c, In l' pre /\ In c (conns l n) /\ plain_source layers c l' /\ ~ In (c_out c) (loss_names (li_cls l')) /\ In A (cells l' "outputs" (c_out c)).
  Proof.
    intros E Np HA. assert (Hl : In l (tl layers)) by (rewrite E; destruct pre; [congruence|]; cbn; apply in_or_app; right; now left).
    apply (In_nth _ _ 0) in HA. destruct HA as [j [Hj <-]].
    destruct (input_cell a layers hubs lay HN HI HL HZ (S T) B l n j (in_tl _ Hl) Hj) as [c [l' [j' [H1 [H2 [H3 [H4 _]]]]]]].
    { intros c Hc. destruct (conn_plain l n c Hl Hc) as [l' [X _]]. now exists l'. }
    destruct (conn_plain l n c Hl H1) as [l1 [X1 X2]].
    assert (l1 = l') by (apply (net_unique a layers HN HI); [apply X1|apply H2|destruct X1 as [_ [-> _]]; destruct H2 as [_ [-> _]]; reflexivity]). subst l1.
    exists l', c. unfold conns in H1. split.
    - apply (net_order pre l post c l' E); [apply filter_In in H1; apply H1|apply H2|apply H2].
    - split; [exact H1|]. split; [exact H2|]. split; [exact X2|]. unfold cells. rewrite H4. now apply nth_In.
  Qed.
  Lemma tl_split l : In l (tl layers) -> exists pre post, layers = pre ++ l :: post /\ pre <> [].
  Proof.
    destruct net_split as [l0 [r [E|E]]]; rewrite E; [|intros []]. cbn [tl]. intros H. apply in_split in H. destruct H as [p [q ->]]. exists (l0 :: p), q. split; [reflexivity|discriminate].
  Qed.
  Lemma input_is_cell l n A : In l (tl layers) -> In A (cells l "inputs" n) -> cell A.
  Proof.
    intros Hl HA. destruct (tl_split l Hl) as [pre [post [E Np]]]. destruct (input_from pre l post n A E Np HA) as [l' [c [H1 [H2 [[H3 [H4 H5]] [H6 H7]]]]]]. exists l', (c_out c). auto.
  Qed.
  Lemma out_name l n : In l (tl layers) -> In n (out_names (li_cls l) ++ loss_names (li_cls l)) -> In n (map fst (li_out l)).
  Proof. intros Hl. apply (net_sized a layers l e T B HI HZ (in_tl _ Hl) (HS _ Hl) none none). Qed.

  (** ** Fixed kinds *)
  Definition fl (m0 : vec) (l : linst) : flayer :=
    mkF (m_kind (ml l) m0) (m_in (ml l)) (m_out (ml l)) (m_par (ml l)) (m_grad (ml l)) (m_loss (ml l)).
  Definition fls (m0 : vec) : list flayer := map (fl m0) (tl layers).
  Lemma din l : In l (tl layers) -> m_din (ml l) = map d (m_in (ml l)).
  Proof.
    intros Hl. cbn [ml mlayer_of m_din m_in]. unfold NetMemoryModel.cells_of. rewrite map_flat. apply flat_map_same. intros n Hn.
    apply (delta_inputs a layers hubs lay HN HI HL HZ (S T) B l n (in_tl _ Hl)). intros c Hc. destruct (conn_plain l n c Hl Hc) as [l' [X _]]. now exists l'.
  Qed.
  Lemma dout l : In l (tl layers) -> m_dout (ml l) = map d (m_out (ml l)).
  Proof.
    intros Hl. cbn [ml mlayer_of m_dout m_out]. unfold NetMemoryModel.cells_of. rewrite map_flat. apply flat_map_same. intros n Hn.
    apply (delta_outputs a layers hubs lay HN HI HL HZ (S T) B l n (in_tl _ Hl)). apply out_name; [exact Hl|]. apply in_or_app. now left.
  Qed.

  Lemma NoDup_cells cat names : ~ In cat ["inputs"; "input_deltas"] -> (forall l, In l (tl layers) -> NoDup (names l)) ->
    NoDup (flat_map (fun l => cells_of l cat (names l)) (tl layers)).
  Proof.
    intros Hc Nn. apply NoDup_flat.
    - assert (N := layers_NoDup). destruct layers; [constructor|]. now inversion N.
    - intros l Hl. apply NoDup_flat; [now apply Nn|intros n _; apply (cells_NoDup a layers hubs lay HN HI HL HZ (S T) B l cat n (in_tl _ Hl) Hc)|].
      intros n n' A _ _ H H'. now destruct (once l cat n l cat n' A (in_tl _ Hl) (in_tl _ Hl) Hc Hc H H') as [_ [_ X]].
    - intros l l' A Hl Hl' H H'. apply cells_of_In in H. apply cells_of_In in H'. destruct H as [n [_ H]]. destruct H' as [n' [_ H']].
      now destruct (once l cat n l' cat n' A (in_tl _ Hl) (in_tl _ Hl') Hc Hc H H') as [X _].
  Qed.
  Lemma par_names_NoDup l : In l layers -> NoDup (par_names l).
  Proof. intros Hl. apply NoDup_filter. apply (net_sound a layers HN HI l Hl). Qed.
  Lemma loss_names_NoDup c : NoDup (loss_names c). Proof. destruct c; cbn; repeat constructor; cbn; tauto. Qed.
  Lemma out_names_NoDup c : NoDup (out_names c). Proof. destruct c; cbn; repeat constructor; cbn; tauto. Qed.

  Lemma fls_In m0 L : In L (fls m0) -> exists l, In l (tl layers) /\ L = fl m0 l.
  Proof. unfold fls. intros H. apply in_map_iff in H. destruct H as [l [<- H]]. now exists l. Qed.
  Lemma not_cell cat l x A : In l layers -> ~ In cat ["inputs"; "input_deltas"] -> cat <> "outputs" -> cat <> "output_deltas" -> In A (cells l cat x) ->
    ~ cell A /\ forall b, cell b -> d b <> A.
  Proof.
    intros Hl Hc N1 N2 HA. split.
    - intros [l' [x' [Hl' [Hx' [_ HA']]]]]. destruct (once l cat x l' "outputs" x' A Hl Hl' Hc own_out HA HA') as [_ [X _]]. contradiction.
    - intros b Hb E. destruct (cell_delta b Hb) as [l' [x' [Hl' [Hx' HA']]]]. rewrite E in HA'. destruct (once l cat x l' "output_deltas" x' A Hl Hl' Hc own_del HA HA') as [_ [X _]]. contradiction.
  Qed.
  Lemma fls_placed m0 : placed d cell (fls m0).
  Proof.
    constructor.
    - intros L A HLin. destruct (fls_In _ _ HLin) as [l [Hl ->]]. cbn [fl f_in f_out ml mlayer_of m_in m_out]. intros [H|H]; apply cells_of_In in H; destruct H as [n [Hn H]].
      + exact (input_is_cell l n A Hl H).
      + exists l, n. split; [now apply in_tl|]. split; [apply out_name; [exact Hl|apply in_or_app; now left]|]. split; [now apply out_not_loss|exact H].
    - intros L HLin. destruct (fls_In _ _ HLin) as [l [Hl ->]]. cbn [fl f_in f_out f_par f_grad f_kind ml mlayer_of m_in m_out m_par m_grad m_kind]. fold cells_of. rewrite !cells_total by now apply in_tl.
      destruct (net_sized a layers l e T B HI HZ (in_tl _ Hl) (HS _ Hl) (read (cells_of l "inputs" (const_names (li_cls l))) m0) (read (cells_of l "parameters" ["timing"]) m0)) as [X1 [X2 [X3 _]]].
      split; [exact X1|]. split; [exact X2|]. split; exact X3.
    - intros A b [l [x [Hl [Hx [_ HA]]]]] Hb E. destruct (cell_delta b Hb) as [l' [x' [Hl' [Hx' HA']]]]. rewrite E in HA'. now destruct (once l "outputs" x l' "output_deltas" x' A Hl Hl' own_out own_del HA HA') as [_ [X _]].
    - intros L A HLin HA. destruct (fls_In _ _ HLin) as [l [Hl ->]]. cbn [fl f_par ml mlayer_of m_par] in HA. apply cells_of_In in HA. destruct HA as [n [_ HA]].
      apply (not_cell "parameters" l n A (in_tl _ Hl) own_par); [discriminate|discriminate|exact HA].
    - intros L L' A HLin HLin' HA. destruct (fls_In _ _ HLin) as [l [Hl ->]]. destruct (fls_In _ _ HLin') as [l' [Hl' ->]]. cbn [fl f_par f_grad f_loss ml mlayer_of m_par m_grad m_loss] in *.
      apply cells_of_In in HA. destruct HA as [n [_ HA]]. split; intros H; apply cells_of_In in H; destruct H as [n' [_ H]].
      + now destruct (once l "parameters" n l' "gradients" n' A (in_tl _ Hl) (in_tl _ Hl') own_par own_grad HA H) as [_ [X _]].
      + now destruct (once l "parameters" n l' "outputs" n' A (in_tl _ Hl) (in_tl _ Hl') own_par own_out HA H) as [_ [X _]].
    - intros L A HLin HA. destruct (fls_In _ _ HLin) as [l [Hl ->]]. cbn [fl f_grad ml mlayer_of m_grad] in HA. apply cells_of_In in HA. destruct HA as [n [_ HA]].
      apply (not_cell "gradients" l n A (in_tl _ Hl) own_grad); [discriminate|discriminate|exact HA].
    - intros L A HLin HA [l' [x' [Hl' [Hx' [Nx HA']]]]]. destruct (fls_In _ _ HLin) as [l [Hl ->]]. cbn [fl f_loss ml mlayer_of m_loss] in HA. apply cells_of_In in HA. destruct HA as [n [Hn HA]].
      destruct (once l "outputs" n l' "outputs" x' A (in_tl _ Hl) Hl' own_out own_out HA HA') as [<- [_ <-]]. contradiction.
    - intros L HLin NE. destruct (fls_In _ _ HLin) as [l [Hl ->]]. cbn [fl f_loss ml mlayer_of m_loss] in *. fold cells_of in NE |- *. rewrite cells_total by now apply in_tl.
      destruct (net_sized a layers l e T B HI HZ (in_tl _ Hl) (HS _ Hl) none none) as [_ [_ [_ [X _]]]]. cbn [buffers_of String.eqb Ascii.eqb Bool.eqb]. change (total (S T) B (li_out l) (loss_names (li_cls l)) = 1). rewrite X.
      destruct (li_cls l); try reflexivity; exfalso; apply NE; reflexivity.
    - intros L p x HLin E. destruct (fls_In _ _ HLin) as [l [Hl ->]]. cbn [fl f_loss f_kind ml mlayer_of m_loss m_kind] in *. fold cells_of in E. apply (f_equal (@length nat)) in E. rewrite cells_total in E by now apply in_tl.
      destruct (net_sized a layers l e T B HI HZ (in_tl _ Hl) (HS _ Hl) none none) as [_ [_ [_ [X _]]]]. change (total (S T) B (li_out l) (loss_names (li_cls l)) = 0) in E. rewrite X in E.
      unfold kind_of. destruct (li_cls l); try reflexivity; [discriminate E|]. destruct (cf_max _); reflexivity.
    - unfold fls. rewrite flat_map_concat_map, map_map, <- flat_map_concat_map. apply (NoDup_cells "parameters" par_names own_par). intros l Hl. apply par_names_NoDup. now apply in_tl.
    - unfold fls. rewrite flat_map_concat_map, map_map, <- flat_map_concat_map. apply (NoDup_cells "gradients" par_names own_grad). intros l Hl. apply par_names_NoDup. now apply in_tl.
    - unfold fls. rewrite flat_map_concat_map, map_map, <- flat_map_concat_map. apply (NoDup_cells "outputs" (fun l => loss_names (li_cls l)) own_out). intros l Hl. apply loss_names_NoDup.
  Qed.
  Lemma fls_wf m0 : wf_net (map to_l (fls m0)).
  Proof.
    unfold fls. rewrite map_map.
    assert (G : forall ls pre, layers = pre ++ ls -> pre <> [] -> wf_net (map (fun l => to_l (fl m0 l)) ls)).
    { induction ls as [|l ls IH]; intros pre E Np; [exact I|]. cbn [map wf_net to_l layer_of l_in l_out fl f_in f_out ml mlayer_of m_in m_out].
      assert (Hl : In l (tl layers)) by (rewrite E; destruct pre; [congruence|]; cbn; apply in_or_app; right; now left).
      assert (N := layers_NoDup). rewrite E in N. assert (N' := NoDup_remove_2 _ _ _ N).
      assert (FI : forall A l2 n2, In A (cells_of l "inputs" (in_names (li_cls l))) -> In l2 (l :: ls) -> ~ In A (cells l2 "outputs" n2)).
      { intros A l2 n2 HA H2 HA2. apply cells_of_In in HA. destruct HA as [n [_ HA]]. destruct (input_from pre l ls n A E Np HA) as [l' [c [P1 [P2 [P3 [P4 P5]]]]]].
        assert (L2 : In l2 layers) by (rewrite E; apply in_or_app; now right).
        destruct (once l' "outputs" (c_out c) l2 "outputs" n2 A (proj1 P3) L2 own_out own_out P5 HA2) as [<- _].
        clear -N P1 H2. induction pre as [|y pre IHp]; [destruct P1|]. cbn in N. inversion_clear N as [|? ? Q1 Q2]. destruct P1 as [->|P1]; [apply Q1; apply in_or_app; now right|now apply IHp]. }
      split; [|split; [|split]].
      - apply NoDup_flat; [apply out_names_NoDup|intros n _; apply (cells_NoDup a layers hubs lay HN HI HL HZ (S T) B l "outputs" n (in_tl _ Hl) own_out)|].
        intros n n' A _ _ H H'. now destruct (once l "outputs" n l "outputs" n' A (in_tl _ Hl) (in_tl _ Hl) own_out own_out H H') as [_ [_ X]].
      - intros A HA HO. apply cells_of_In in HO. destruct HO as [n [_ HO]]. exact (FI A l n HA (or_introl eq_refl) HO).
      - intros L A HLin HA HO. apply in_map_iff in HLin. destruct HLin as [l2 [<- H2]]. cbn [to_l layer_of l_out fl f_out ml mlayer_of m_out] in HO. apply cells_of_In in HO. destruct HO as [n [_ HO]].
        destruct HA as [HA|HA]; [exact (FI A l2 n HA (or_intror H2) HO)|]. apply cells_of_In in HA. destruct HA as [n' [_ HA]].
        assert (L2 : In l2 layers) by (rewrite E; apply in_or_app; right; now right).
        destruct (once l "outputs" n' l2 "outputs" n A (in_tl _ Hl) L2 own_out own_out HA HO) as [<- _]. apply N'. apply in_or_app. now right.
      - apply (IH (pre ++ [l])); [now rewrite <- app_assoc|destruct pre; discriminate]. }
    destruct net_split as [l0 [r [E|E]]]; rewrite E; cbn [tl]; [apply (G r [l0]); [now rewrite E|discriminate]|exact I].
  Qed.

  (** ** Clearing *)
  Let clear := clear_backward_buffers R 0%R hubs (S T) B.
  Lemma clear_cell l cat x b A m : In l layers -> In (x, b) (buffers_of l cat) -> In cat ["outputs"; "output_deltas"; "parameters"; "gradients"] -> In A (cells l cat x) ->
    clear m A = if String.eqb cat "output_deltas" || String.eqb cat "gradients" || bs_bwd b then 0%R else m A.
  Proof.
    intros Hl Hb Hc HA. destruct (cells_In a layers hubs lay HN HI HL HZ (S T) B l cat x A Hl HA) as [b' [v [idx [Hb' [Hv [Hr [-> _]]]]]]].
    assert (b' = b). { assert (N := buffers_NoDup a layers HN HI l cat Hl). apply (In_dget _ _ _ N) in Hb. apply (In_dget _ _ _ N) in Hb'. congruence. } subst b'.
    change (bs_bwd b) with (ls_bwd (layout_struct b)).
    apply (C50_cleared R 0%R (map layout_layer layers) hubs lay (net_W a layers hubs lay HN HI HL) HL (layout_layer l) cat x (layout_struct b) (S T) B v idx m); [now apply in_map| |exact Hv|exact Hr].
    cbn in Hc. unfold arrays_of, buffers_of in *. destruct Hc as [<-|[<-|[<-|[<-|[]]]]]; cbn in *; unfold layout_dict; apply in_map_iff; exists (x, b); auto.
  Qed.
  Lemma cells_buffer l cat x A : In A (cells l cat x) -> exists b, In (x, b) (buffers_of l cat).
  Proof. unfold cells, CellsProofs.cells. destruct (dget x (buffers_of l cat)) as [b|] eqn:E; [|intros []]. intros _. exists b. now apply dget_In. Qed.
  Lemma outs_fwd l : In l layers -> forall n b, In (n, b) (li_out l) -> bs_bwd b = false.
  Proof.
    intros Hl. apply (net_bwd a layers l HI HZ Hl). destruct net_split as [l0 [r [E|E]]]; [|rewrite E in Hl; destruct Hl].
    assert (Hl' := Hl). rewrite E in Hl'. destruct Hl' as [<-|Hr]; [right; apply (first_input _ _ E)|left; apply HS; rewrite E; exact Hr].
  Qed.
  Lemma pars_fwd l : In l layers -> forall n b, In (n, b) (li_params l) -> bs_bwd b = false.
  Proof.
    intros Hl. destruct net_split as [l0 [r [E|E]]]; [|rewrite E in Hl; destruct Hl].
    assert (Hl' := Hl). rewrite E in Hl'. destruct Hl' as [<-|Hr]; [destruct (first_input _ _ E) as [_ [-> _]]; intros n b []|].
    apply (net_sized a layers l e T B HI HZ Hl (HS l ltac:(rewrite E; exact Hr)) none none).
  Qed.
  Lemma clear_out l x A m : In l layers -> In A (cells l "outputs" x) -> clear m A = m A.
  Proof.
    intros Hl HA. destruct (cells_buffer _ _ _ _ HA) as [b Hb]. rewrite (clear_cell l "outputs" x b A m Hl Hb ltac:(cbn; tauto) HA). cbn [String.eqb Ascii.eqb Bool.eqb orb].
    now rewrite (outs_fwd l Hl x b Hb).
  Qed.
  Lemma clear_par l x A m : In l layers -> In A (cells l "parameters" x) -> clear m A = m A.
  Proof.
    intros Hl HA. destruct (cells_buffer _ _ _ _ HA) as [b Hb]. rewrite (clear_cell l "parameters" x b A m Hl Hb ltac:(cbn; tauto) HA). cbn [String.eqb Ascii.eqb Bool.eqb orb].
    now rewrite (pars_fwd l Hl x b Hb).
  Qed.
  Lemma fls_clears m0 : clears d cell (fls m0) clear.
  Proof.
    constructor.
    - intros m A HA. destruct (cell_delta A HA) as [l [x [Hl [Hx H]]]]. destruct (cells_buffer _ _ _ _ H) as [b Hb]. now rewrite (clear_cell l "output_deltas" x b (d A) m Hl Hb ltac:(cbn; tauto) H).
    - intros m L A HLin HA. destruct (fls_In _ _ HLin) as [l [Hl ->]]. cbn [fl f_grad ml mlayer_of m_grad] in HA. apply cells_of_In in HA. destruct HA as [n [_ HA]]. destruct (cells_buffer _ _ _ _ HA) as [b Hb].
      now rewrite (clear_cell l "gradients" n b A m (in_tl _ Hl) Hb ltac:(cbn; tauto) HA).
    - intros m A [l [x [Hl [Hx [_ HA]]]]]. exact (clear_out l x A m Hl HA).
    - intros m L A HLin HA. destruct (fls_In _ _ HLin) as [l [Hl ->]]. cbn [fl f_par ml mlayer_of m_par] in HA. apply cells_of_In in HA. destruct HA as [n [_ HA]]. exact (clear_par l n A m (in_tl _ Hl) HA).
  Qed.

  (** ** The kinds do not change *)
  Definition const_cell (A : nat) : Prop :=
    exists l, In l (tl layers) /\ (In A (cells_of l "inputs" (const_names (li_cls l))) \/ In A (cells_of l "parameters" ["timing"])).
  Definition agree (m m0 : vec) : Prop := forall A, const_cell A -> m A = m0 A.
  Lemma const_where A : const_cell A -> (exists l0 r x, layers = l0 :: r /\ In A (cells l0 "outputs" x)) \/ exists l, In l (tl layers) /\ In A (cells l "parameters" "timing").
  Proof.
    intros [l [Hl [H|H]]]; apply cells_of_In in H; destruct H as [n [Hn H]].
    - left. destruct (tl_split l Hl) as [pre [post [E Np]]]. destruct (input_from pre l post n A E Np H) as [l' [c [H1 [H2 [H3 [H4 H5]]]]]].
      assert (X := conn_source l n c Hl H2). rewrite (proj2 (smem_In n _) Hn) in X. assert (Hc : In c (li_incoming l)) by (unfold conns in H2; apply filter_In in H2; apply H2).
      destruct (source_const l c Hl Hc X) as [l0 [r [E0 P0]]]. exists l0, r, (c_out c). split; [exact E0|].
      assert (l' = l0) by (apply (net_unique a layers HN HI); [apply H3|apply P0|destruct H3 as [_ [-> _]]; destruct P0 as [_ [-> _]]; reflexivity]). now subst l'.
    - right. exists l. split; [exact Hl|]. destruct Hn as [<-|[]]. exact H.
  Qed.
  Lemma const_not_out A l x : const_cell A -> In l (tl layers) -> ~ In A (cells l "outputs" x).
  Proof.
    intros HA Hl H. destruct (const_where A HA) as [[l0 [r [y [E H']]]]|[l' [Hl' H']]].
    - assert (Hl0 : In l0 layers) by (rewrite E; now left). destruct (once l "outputs" x l0 "outputs" y A (in_tl _ Hl) Hl0 own_out own_out H H') as [<- _].
      assert (N := layers_NoDup). rewrite E in N, Hl. cbn [tl] in Hl. inversion_clear N. contradiction.
    - now destruct (once l "outputs" x l' "parameters" "timing" A (in_tl _ Hl) (in_tl _ Hl') own_out own_par H H') as [_ [X _]].
  Qed.
  Lemma const_not_back A l cat x : const_cell A -> In l layers -> cat = "output_deltas" \/ cat = "gradients" -> ~ In A (cells l cat x).
  Proof.
    intros HA Hl Hc H. assert (Oc : ~ In cat ["inputs"; "input_deltas"]) by (destruct Hc as [-> | ->]; cbn; intuition discriminate).
    destruct (const_where A HA) as [[l0 [r [y [E H']]]]|[l' [Hl' H']]].
    - assert (Hl0 : In l0 layers) by (rewrite E; now left). destruct (once l cat x l0 "outputs" y A Hl Hl0 Oc own_out H H') as [_ [X _]]. destruct Hc; congruence.
    - destruct (once l cat x l' "parameters" "timing" A Hl (in_tl _ Hl') Oc own_par H H') as [_ [X _]]. destruct Hc; congruence.
  Qed.
  Lemma kind_agrees l m m0 : In l (tl layers) -> agree m m0 -> m_kind (ml l) m = m_kind (ml l) m0.
  Proof.
    intros Hl Hm. cbn [ml mlayer_of m_kind]. f_equal; apply read_ext; intros A HA; apply Hm; exists l; (split; [exact Hl|]); [now left|now right].
  Qed.
  Lemma to_m_eq m0 l m : In l (tl layers) -> agree m m0 -> run_forward (ml l) m = run_forward (to_m d (fl m0 l)) m /\ run_backward (ml l) m = run_backward (to_m d (fl m0 l)) m.
  Proof.
    intros Hl Hm. unfold run_forward, run_backward. rewrite (kind_agrees l m m0 Hl Hm), (din l Hl), (dout l Hl). split; reflexivity.
  Qed.
  Lemma run_forward_agree l m m0 : In l (tl layers) -> agree m m0 -> agree (run_forward (ml l) m) m0.
  Proof.
    intros Hl Hm A HA. unfold run_forward. rewrite !write_out; [now apply Hm| |]; cbn [ml mlayer_of m_out m_loss]; intros H; apply cells_of_In in H; destruct H as [n [_ H]]; exact (const_not_out A l n HA Hl H).
  Qed.
  Lemma run_backward_agree l m m0 : In l (tl layers) -> agree m m0 -> agree (run_backward (ml l) m) m0.
  Proof.
    intros Hl Hm A HA. unfold run_backward. destruct (k_bwd _ _ _ _ _ _) as [dx g]. cbv zeta.
    assert (H1 : ~ In A (m_grad (ml l))) by (cbn [ml mlayer_of m_grad]; intros H; apply cells_of_In in H; destruct H as [n [_ H]]; exact (const_not_back A l "gradients" n HA (in_tl _ Hl) (or_intror eq_refl) H)).
    assert (H2 : ~ In A (m_dout (ml l))) by (cbn [ml mlayer_of m_dout]; intros H; apply cells_of_In in H; destruct H as [n [_ H]]; exact (const_not_back A l "output_deltas" n HA (in_tl _ Hl) (or_introl eq_refl) H)).
    assert (H3 : ~ In A (m_din (ml l))).
    { rewrite (din l Hl). intros H. apply in_map_iff in H. destruct H as [A' [E H]].
      assert (Hc : cell A') by (cbn [ml mlayer_of m_in] in H; apply cells_of_In in H; destruct H as [n [_ H]]; exact (input_is_cell l n A' Hl H)).
      destruct (cell_delta A' Hc) as [l' [x' [Hl' [Hx' H']]]]. rewrite E in H'. exact (const_not_back A l' "output_deltas" x' HA Hl' (or_introl eq_refl) H'). }
    rewrite write_out by exact H1. rewrite write_out by exact H2. rewrite MemoryPassProofs.add_out by exact H3. now apply Hm.
  Qed.
  Lemma forward_fixed m0 : forall ls m, (forall l, In l ls -> In l (tl layers)) -> agree m m0 ->
    mem_forward (map ml ls) m = mem_forward (map (to_m d) (map (fl m0) ls)) m /\ agree (mem_forward (map ml ls) m) m0.
  Proof.
    induction ls as [|l ls IH]; intros m Hin Hm; [split; [reflexivity|exact Hm]|]. cbn [map mem_forward].
    rewrite <- (proj1 (to_m_eq m0 l m (Hin l (or_introl eq_refl)) Hm)). apply IH; [intros; apply Hin; now right|]. apply run_forward_agree; [apply Hin; now left|exact Hm].
  Qed.
  Lemma backward_fixed m0 : forall ls m, (forall l, In l ls -> In l (tl layers)) -> agree m m0 ->
    mem_backward (map ml ls) m = mem_backward (map (to_m d) (map (fl m0) ls)) m /\ agree (mem_backward (map ml ls) m) m0.
  Proof.
    induction ls as [|l ls IH]; intros m Hin Hm; [split; [reflexivity|exact Hm]|]. cbn [map mem_backward].
    destruct (IH m ltac:(intros; apply Hin; now right) Hm) as [E Ha]. rewrite E in *.
    split; [apply (proj2 (to_m_eq m0 l _ (Hin l (or_introl eq_refl)) Ha))|]. apply run_backward_agree; [apply Hin; now left|exact Ha].
  Qed.
  Lemma loss_fixed m0 ls m : mem_loss (map ml ls) m = mem_loss (map (to_m d) (map (fl m0) ls)) m.
  Proof. induction ls as [|l ls IH]; [reflexivity|]. cbn [map mem_loss]. rewrite IH. reflexivity. Qed.
  Lemma clear_agree m m0 : agree m m0 -> agree (clear m) m0.
  Proof.
    intros Hm A HA. rewrite <- (Hm A HA). destruct (const_where A HA) as [[l0 [r [y [E H']]]]|[l' [Hl' H']]].
    - apply (clear_out l0 y); [rewrite E; now left|exact H'].
    - apply (clear_par l' "timing"); [now apply in_tl|exact H'].
  Qed.

  (** ** The passes *)
  Let fwd := net_forward_pass layers hubs lay e T B.
  Let bwd := net_backward_pass layers hubs lay e T B.
  Let loss := net_loss layers hubs lay e T B.
  Definition points_ok (m : vec) : Prop := forall l, In l (tl layers) -> let L := ml l in k_ok (m_kind L m) (read (m_par L) m) (read (m_in L) m).
  Lemma passes m0 m : agree m m0 ->
    fwd m = mem_forward (map (to_m d) (fls m0)) m /\ agree (fwd m) m0 /\ (forall q, loss q = mem_loss (map (to_m d) (fls m0)) q) /\
    bwd (fwd m) = mem_backward (map (to_m d) (fls m0)) (clear (fwd m)).
  Proof.
    intros Hm. destruct (forward_fixed m0 (tl layers) m ltac:(auto) Hm) as [E1 A1]. split; [exact E1|]. split; [exact A1|]. split; [intros q; apply loss_fixed|].
    exact (proj1 (backward_fixed m0 (tl layers) (clear (fwd m)) ltac:(auto) (clear_agree _ _ A1))).
  Qed.
  Lemma fixed_ok m : points_ok (fwd m) -> mem_ok (fls m) (mem_forward (map (to_m d) (fls m)) m).
  Proof.
    intros H L HLin. destruct (fls_In _ _ HLin) as [l [Hl ->]]. destruct (passes m m ltac:(intros ? ?; reflexivity)) as [E1 [A1 _]]. rewrite <- E1. cbn [fl f_kind f_par f_in].
    rewrite <- (kind_agrees l (fwd m) m Hl A1). exact (H l Hl).
  Qed.
  Lemma net_gradient m l p j : points_ok (fwd m) -> In l (tl layers) -> In p (par_names l) -> j < length (cells l "parameters" p) ->
    let A := nth j (cells l "parameters" p) 0 in
    D (m A) (fun r => loss (fwd (NetworkModel.upd A r m))) (bwd (fwd m) (nth j (cells l "gradients" p) 0)).
  Proof.
    intros OK Hl Hp Hj A. destruct (passes m m ltac:(intros ? ?; reflexivity)) as [E1 [A1 [E2 E3]]].
    assert (Hf : In (fl m l) (fls m)) by (apply in_map; exact Hl). destruct (In_nth_error _ _ Hf) as [i Ei].
    assert (GL : length (cells l "parameters" p) = length (cells l "gradients" p)) by (apply (cells_deltas a layers hubs lay HN HI HL HZ (S T) B l p (in_tl _ Hl))).
    (* the position of the cell among all parameters of the layer *)
    assert (Pos : exists q, q < length (f_par (fl m l)) /\ nth q (f_par (fl m l)) 0 = A /\ nth q (f_grad (fl m l)) 0 = nth j (cells l "gradients" p) 0).
    { cbn [fl f_par f_grad ml mlayer_of m_par m_grad]. clear -Hp Hj GL Hl HN HI HL HZ. unfold A. induction (par_names l) as [|p' ps IH]; [destruct Hp|]. cbn [NetMemoryModel.cells_of flat_map].
      assert (GL' : length (cells l "parameters" p') = length (cells l "gradients" p')) by (apply (cells_deltas a layers hubs lay HN HI HL HZ (S T) B l p' (in_tl _ Hl))).
      destruct Hp as [->|Hp].
      - exists j. fold cells. rewrite app_length, !app_nth1 by lia. split; [lia|]. split; reflexivity.
      - destruct (IH Hp) as [q [Q1 [Q2 Q3]]]. exists (length (cells l "parameters" p') + q). fold cells. rewrite app_length. split; [apply Nat.add_lt_mono_l; exact Q1|].
        rewrite !app_nth2 by lia. rewrite <- GL', Nat.add_comm, Nat.add_sub. split; [exact Q2|exact Q3]. }
    destruct Pos as [q [Q1 [Q2 Q3]]]. rewrite <- Q3, <- Q2.
    assert (Np : q < n_par (f_kind (fl m l))) by (destruct (pl_len d cell _ (fls_placed m) _ Hf) as [_ [_ [X _]]]; lia).
    assert (X := mem_gradient d cell delta_inj (fls m) clear m i q (fl m l) (fls_placed m) (fls_wf m) (fls_clears m) (fixed_ok m OK) Ei Np).
    cbv zeta in X. rewrite E3, E1. refine (D_ext _ _ _ _ _ _ eq_refl X). intros r. rewrite E2.
    destruct (passes m (NetworkModel.upd (nth q (f_par (fl m l)) 0) r m)) as [E4 _]; [|now rewrite E4].
    intros A' HA'. unfold NetworkModel.upd. destruct (Nat.eqb_spec A' (nth q (f_par (fl m l)) 0)) as [E|]; [|reflexivity]. exfalso. rewrite Q2 in E. subst A'.
    assert (HA : In A (cells l "parameters" p)) by now apply nth_In.
    destruct (const_where A HA') as [[l0 [r' [y [E0 H']]]]|[l' [Hl' H']]].
    - now destruct (once l "parameters" p l0 "outputs" y A (in_tl _ Hl) ltac:(rewrite E0; now left) own_par own_out HA H') as [_ [Y _]].
    - destruct (once l "parameters" p l' "parameters" "timing" A (in_tl _ Hl) (in_tl _ Hl') own_par own_par HA H') as [_ [_ Y]]. subst p. apply filter_In in Hp. destruct Hp as [_ Hp]. discriminate Hp.
  Qed.
  Lemma net_input_delta m l0 r x j : points_ok (fwd m) -> layers = l0 :: r -> In x (map fst (li_out l0)) -> j < length (cells l0 "outputs" x) ->
    (forall l c, In l (tl layers) -> In c (li_incoming l) -> c_start c = li_name l0 -> c_out c = x -> ~ In (c_in c) (const_names (li_cls l))) ->
    let A := nth j (cells l0 "outputs" x) 0 in
    D (m A) (fun s => loss (fwd (NetworkModel.upd A s m))) (bwd (fwd m) (nth j (cells l0 "output_deltas" x) 0)).
  Proof.
    intros OK E Hx Hj NC A. destruct (passes m m ltac:(intros ? ?; reflexivity)) as [E1 [A1 [E2 E3]]].
    assert (Hl0 : In l0 layers) by (rewrite E; now left). assert (HA : In A (cells l0 "outputs" x)) by now apply nth_In.
    assert (Hc : cell A) by (exists l0, x; split; [exact Hl0|]; split; [exact Hx|]; split; [rewrite (proj1 (first_input l0 r E)); intros []|exact HA]).
    unfold cells. rewrite <- (delta_at a layers hubs lay HN HI HL HZ (S T) B l0 x j Hl0 Hx Hj). fold cells d. fold A.
    assert (X := mem_input_delta d cell delta_inj (fls m) clear m A (fls_placed m) (fls_wf m) (fls_clears m) (fixed_ok m OK) Hc). rewrite E3, E1.
    assert (No : forall L, In L (fls m) -> ~ In A (f_out L)).
    { intros L HLin HO. destruct (fls_In _ _ HLin) as [l [Hl ->]]. cbn [fl f_out ml mlayer_of m_out] in HO. apply cells_of_In in HO. destruct HO as [n [_ HO]].
      destruct (once l0 "outputs" x l "outputs" n A Hl0 (in_tl _ Hl) own_out own_out HA HO) as [<- _]. assert (N := layers_NoDup). rewrite E in N, Hl. cbn [tl] in Hl. inversion_clear N. contradiction. }
    refine (D_ext _ _ _ _ _ _ eq_refl (X No)). intros s. rewrite E2. destruct (passes m (NetworkModel.upd A s m)) as [E4 _]; [|now rewrite E4].
    intros A' HA'. unfold NetworkModel.upd. destruct (Nat.eqb_spec A' A) as [->|]; [|reflexivity]. exfalso.
    destruct HA' as [l [Hl [H|H]]]; apply cells_of_In in H; destruct H as [n [Hn H]].
    - destruct (tl_split l Hl) as [pre [post [E0 Np]]]. destruct (input_from pre l post n A E0 Np H) as [l' [c [P1 [P2 [P3 [P4 P5]]]]]].
      destruct (once l0 "outputs" x l' "outputs" (c_out c) A Hl0 (proj1 P3) own_out own_out HA P5) as [El [_ Ex]]. subst l'. unfold conns in P2. apply filter_In in P2. destruct P2 as [P2 En]. apply String.eqb_eq in En. subst n.
      apply (NC l c Hl P2); [symmetry; apply P3|now symmetry|exact Hn].
    - now destruct (once l0 "outputs" x l "parameters" n A Hl0 (in_tl _ Hl) own_out own_par HA H) as [_ [Y _]].
  Qed.
End Net.
