(** C70: what a network created from an architecture computes in an evaluation pass for a sequence of a
    batch depends on this sequence only; losses and scores do not depend on the grouping into batches. *)
From Coq Require Import String Ascii List ZArith QArith Reals Bool Lia Lra Arith FunctionalExtensionality Permutation.
From Verif Require Import NumBase NumpyModel NumpyProps LayersModel LayersProps RecurrentModel ClockLstmModel ConvModel ConvBase PoolModel NetworkModel NetworkProps NetLayersModel NetLayersProps MemoryPassModel MemoryPassProofs.
From Verif Require HooksModel ScorersModel ScorersProps.
From Verif Require Import HubModel LayoutModel BuffersModel BuffersProofs.
From Verif Require Import PyBase PyFacts UtilsModel NamesModel ArchModel ShapesModel SetupModel SetupProps InstanceProofs InstanceProps NetLayoutExtra NetLayoutProofs NetLayoutProps CellsProofs NetMemoryModel NetSizesProofs NetPartsProofs NetMemoryProofs NetForwardProofs NetForwardProps NetMemoryProps SchedulesModel TrainNetModel TrainNetProofs TrainNetProps ModifiersModel ModifiersProps ModNetModel ModNetProofs ModNetProps EvalNetModel EvalNetProofs EvalNetProps LocalLayersProofs LocalNetProofs LocalNetProofs2.
Import ListNotations.
Open Scope string_scope.
Open Scope list_scope.
Open Scope nat_scope.

(** The element [j] of a buffer with time and batch dimension, for time step [t] of sequence [i] of the batch *)
Definition value (layers : list linst) (hubs : list hub) (lay : slices) (b : batch) (m : vec) (l : linst) (cat x : string) (t i j : nat) : R :=
  read (cells layers hubs lay (S (b_time b)) (b_size b) l cat x) m ((t * b_size b + i) * nf (buffers_of l cat) x + j).

(** Sequence [i] of [b] and sequence [i'] of [b'] have the same data and context up to time step [t]. *)
Record same_sequence (layers : list linst) (hubs : list hub) (lay : slices) (b : batch) (i : nat) (b' : batch) (i' t : nat) : Prop := mkSame {
  ss_index : i < b_size b /\ i' < b_size b' /\ t <= b_time b /\ t <= b_time b';
  ss_data : forall l0 r x s k j, layers = l0 :: r -> In (x, s) (li_out l0) -> over_time s -> k <= t -> j < nfeatures s ->
    value layers hubs lay b (b_mem b) l0 "outputs" x k i j = value layers hubs lay b' (b_mem b') l0 "outputs" x k i' j;
  ss_context : forall l, In l (tl layers) -> row (nf (li_out l) "default") (e_ctx (b_env b) (li_name l)) i (e_ctx (b_env b') (li_name l)) i';
  ss_precision : e_precision (b_env b) = e_precision (b_env b') /\ e_min (b_env b) = e_min (b_env b')
}.
(** The targets of SoftmaxCE layers are classes. *)
Definition proper_labels (layers : list linst) (hubs : list hub) (lay : slices) (b : batch) (i t : nat) : Prop :=
  forall l k, In l (tl layers) -> li_cls l = CSoftmaxCE -> k <= t ->
    (0 <= value layers hubs lay b (b_mem b) l "inputs" "targets" k i 0 < INR (nf (li_in l) "default"))%R.
(** The network has parameters. *)
Definition has_parameters (layers : list linst) (hubs : list hub) (lay : slices) : Prop := exists k l p idx, is_element layers hubs lay k l p idx.

Lemma cls_eq_dec (c c' : cls) : {c = c'} + {c <> c'}.
Proof. decide equality. Defined.

Section Created.
  Variables (a : karch) (layers : list linst) (hubs : list hub) (lay : slices).
  Hypothesis HN : named a.
  Hypothesis HI : instantiate a = SOk layers.
  Hypothesis HL : create_layout (map layout_layer layers) = LOk (hubs, lay).
  Hypothesis HZ : nonnegative layers.
  Hypothesis HS : forall l, In l (tl layers) -> supported l = true.
  Hypothesis HD : differentiable layers = true.
  Hypothesis HE : has_parameters layers hubs lay.
  Let CR : created a layers hubs lay := mkCreated a layers hubs lay HN HI HL HZ HS HD.
  Let val := value layers hubs lay.

  Lemma nf_here l cat x s : In l layers -> In (x, s) (buffers_of l cat) -> nf (buffers_of l cat) x = nfeatures s.
  Proof. intros Hl Hx. unfold nf. now rewrite (In_dget _ _ _ (buffers_NoDup a layers HN HI l cat Hl) Hx). Qed.
  (** Setting the parameters leaves the data alone. *)
  Lemma param_cell b A : In A (param_cells layers hubs lay b) -> exists l p, In l layers /\ In A (cells layers hubs lay (S (b_time b)) (b_size b) l "parameters" p).
  Proof.
    intros HA. apply (In_nth _ _ 0) in HA. destruct HA as [k [Hk <-]]. destruct HE as [k0 [l1 [p1 [idx1 E0]]]].
    destruct (elements a layers hubs lay HN HI HL HZ) as [total [At [El [Lt [_ Le]]]]]. assert (Ht := Lt _ _ _ _ E0). destruct (Le (S (b_time b)) (b_size b) ltac:(lia)) as [Le1 _].
    unfold param_cells in Hk. rewrite Le1 in Hk. destruct (El k Hk) as [l [p [idx E]]]. exists l, p. split; [apply E|]. apply (element_cells a layers hubs lay HN HI HL HZ k l p idx _ _ E).
  Qed.
  Lemma data_kept b params l0 r x : layers = l0 :: r ->
    read (cells layers hubs lay (S (b_time b)) (b_size b) l0 "outputs" x) (evaluation layers hubs lay b params) = read (cells layers hubs lay (S (b_time b)) (b_size b) l0 "outputs" x) (b_mem b).
  Proof.
    intros E. destruct (C69_only_outputs a layers hubs lay b params CR) as [_ [K _]]. cbv zeta in K. rewrite (K l0 r x E). apply read_ext. intros A HA. apply write_out. intros HP.
    destruct (param_cell b A HP) as [l [p [Hl HA']]]. assert (Hl0 : In l0 layers) by (rewrite E; now left).
    assert (O1 : ~ In "outputs" ["inputs"; "input_deltas"]) by (cbn; intuition discriminate). assert (O2 : ~ In "parameters" ["inputs"; "input_deltas"]) by (cbn; intuition discriminate).
    destruct (cells_once a layers hubs lay HN HI HL HZ (S (b_time b)) (b_size b) l0 "outputs" x l "parameters" p A Hl0 Hl O1 O2 HA HA') as [_ [X _]]. discriminate X.
  Qed.
  (** The parameters are the same in all batches. *)
  Lemma params_kept b b' params : forall l p, In l layers ->
    read (cells layers hubs lay (S (b_time b)) (b_size b) l "parameters" p) (evaluation layers hubs lay b params) =
    read (cells layers hubs lay (S (b_time b')) (b_size b') l "parameters" p) (evaluation layers hubs lay b' params).
  Proof.
    intros l p Hl. destruct (C69_only_outputs a layers hubs lay b params CR) as [_ [_ K]]. destruct (C69_only_outputs a layers hubs lay b' params CR) as [_ [_ K']]. cbv zeta in K, K'.
    assert (NB : forall T B, dget p (li_params l) = None -> cells layers hubs lay (S T) B l "parameters" p = []).
    { intros T B Hd. destruct (cells layers hubs lay (S T) B l "parameters" p) as [|A q] eqn:E; [reflexivity|]. exfalso. assert (HA : In A (cells layers hubs lay (S T) B l "parameters" p)) by (rewrite E; now left).
      destruct (cells_buffer _ _ _ _ _ _ _ _ _ HA) as [bs Hb]. assert (X := In_dget _ _ _ (buffers_NoDup a layers HN HI l "parameters" Hl) Hb). change (buffers_of l "parameters") with (li_params l) in X. congruence. }
    apply functional_extensionality. intros j. destruct (dget p (li_params l)) as [bs|] eqn:Ed; [|rewrite !NB by reflexivity; now rewrite !read_eq].
    assert (Hb := dget_In _ _ _ Ed). destruct (view_place a layers hubs lay HN HI HL HZ l p bs Hl Hb) as [s Hs].
    destruct (Nat.lt_ge_cases j (size_of bs)) as [Hj|Hj]; [now rewrite (K s l p bs j Hs Hj), (K' s l p bs j Hs Hj)|].
    assert (Len : forall T B, length (cells layers hubs lay T B l "parameters" p) = size_of bs).
    { intros T B. destruct (cells_view a layers hubs lay HN HI HL HZ T B l "parameters" p bs Hl Hb) as [v [_ [_ ->]]]. rewrite map_length, all_indices_length. unfold size_of. now rewrite <- (fixed_shape a layers l p bs T B HI Hl Hb), (param_fixed a layers HI l p bs T B Hl Hb). }
    rewrite !read_eq, !Len. destruct (Nat.ltb_spec j (size_of bs)); [lia|reflexivity].
  Qed.

  (** Inputs are outputs of earlier layers, for the same step of the same sequence. *)
  Lemma inputs_source pre l post n bs j : layers = pre ++ l :: post -> pre <> [] -> In (n, bs) (li_in l) -> over_time bs -> j < nfeatures bs ->
    exists l' x s o, In l' pre /\ In (x, s) (li_out l') /\ over_time s /\ o < nfeatures s /\ (In x (out_names (li_cls l')) \/ layers = l' :: tl layers) /\
      (In n (const_names (li_cls l)) -> layers = l' :: tl layers) /\
      forall b m k i, k <= b_time b -> i < b_size b -> val b m l "inputs" n k i j = val b m l' "outputs" x k i o.
  Proof.
    intros E Np Hb Ot Hj. assert (Hl : In l (tl layers)) by (rewrite E; destruct pre; [congruence|]; cbn; apply in_or_app; right; now left). assert (Hl1 := In_tl _ _ Hl).
    destruct (input_row a layers hubs lay HN HI HL HZ l n bs j Hl1 Hb Ot Hj) as [c [l' [s [o [Hc [Hp [Hs [Os [Ho R]]]]]]]]].
    { intros c Hc. destruct (conn_plain a layers hubs lay HN HI HL HZ HS HD (mkEnv (fun _ _ _ => 0%R) (fun _ _ _ => 0%R) 0%Z 0%R) 0 1 l n c Hl Hc) as [l' [X _]]. now exists l'. }
    destruct Hp as [P1 [P2 P3]]. exists l', (c_out c), s, o.
    assert (Hin : In l' pre). { apply (net_order a layers HN HI pre l post c l' E); auto. unfold conns in Hc. apply filter_In in Hc. apply Hc. }
    assert (First : const_source layers c = true -> layers = l' :: tl layers).
    { intros H. unfold const_source in H. destruct layers as [|l0 r] eqn:El; [discriminate|]. apply andb_true_iff in H. destruct H as [H1 _]. apply String.eqb_eq in H1.
      assert (l' = l0) by (rewrite <- El in *; apply (net_unique a layers HN HI); [exact P1|rewrite El; now left|congruence]). now subst. }
    assert (X := conn_source layers HD l n c Hl Hc).
    split; [exact Hin|]. split; [exact Hs|]. split; [exact Os|]. split; [exact Ho|]. split; [|split].
    - assert (Y : delta_source layers c = true) by (destruct (smem n _); [unfold delta_source; now rewrite X|exact X]). unfold delta_source in Y. apply orb_true_iff in Y. destruct Y as [Y|Y]; [right; now apply First|].
      left. apply existsb_exists in Y. destruct Y as [l2 [H2 Y]]. apply andb_true_iff in Y. destruct Y as [Y1 Y2]. apply String.eqb_eq in Y1. apply smem_In in Y2.
      assert (l' = l2) by (apply (net_unique a layers HN HI); [exact P1|now apply In_tl|congruence]). now subst.
    - intros Hn. apply First. now rewrite (proj2 (smem_In n _) Hn) in X.
    - intros b m k i Hk Hi. unfold val, value. change (buffers_of l "inputs") with (li_in l). change (buffers_of l' "outputs") with (li_out l').
      assert (N1 : nf (li_in l) n = nfeatures bs) by (apply (nf_here l "inputs" n bs Hl1 Hb)).
      assert (N2 : nf (li_out l') (c_out c) = nfeatures s) by (apply (nf_here l' "outputs" _ s P1 Hs)). rewrite N1, N2.
      destruct (row_cell a layers hubs lay HN HI HL HZ l "inputs" n bs (S (b_time b)) (b_size b) k i j Hl1 Hb Ot ltac:(lia) Hi Hj) as [_ [_ [_ [_ [_ [L1 _]]]]]].
      destruct (row_cell a layers hubs lay HN HI HL HZ l' "outputs" (c_out c) s (S (b_time b)) (b_size b) k i o P1 Hs Os ltac:(lia) Hi Ho) as [_ [_ [_ [_ [_ [L2 _]]]]]].
      rewrite !read_eq, (proj2 (Nat.ltb_lt _ _) L1), (proj2 (Nat.ltb_lt _ _) L2). now rewrite (R (S (b_time b)) (b_size b) k i ltac:(lia) Hi).
  Qed.

  Section Pair.
    Variables (b b' : batch) (i i' t : nat) (params : vec).
    Hypothesis SS : same_sequence layers hubs lay b i b' i' t.
    Hypothesis PL : proper_labels layers hubs lay b i t.
    Let after := evaluation layers hubs lay b params.
    Let after' := evaluation layers hubs lay b' params.
    Definition agrees (l : linst) : Prop := forall x s k j, In (x, s) (li_out l) -> over_time s -> (In x (out_names (li_cls l) ++ pred_names (li_cls l)) \/ layers = l :: tl layers) -> k <= t -> j < nfeatures s ->
      val b after l "outputs" x k i j = val b' after' l "outputs" x k i' j.
    Lemma all_agree : forall pre post, layers = pre ++ post -> forall l, In l pre -> agrees l.
    Proof.
      intros pre. induction pre as [|l pre IH] using rev_ind; intros post E l1 H1; [destruct H1|]. rewrite <- app_assoc in E. cbn [app] in E.
      apply in_app_or in H1. destruct H1 as [H1|[<-|[]]]; [exact (IH _ E l1 H1)|]. specialize (IH _ E).
      destruct SS as [[Hi [Hi' [Ht Ht']]] SD SC SP].
      intros x s k j Hx Os Hn Hk Hj.
      destruct pre as [|l0 pre].
      { (* the Input layer *)
        unfold val, value, after, after'. rewrite !(data_kept _ _ l post x E). exact (SD l post x s k j E Hx Os Hk Hj). }
      assert (Hl : In l (tl layers)) by (rewrite E; cbn; apply in_or_app; right; now left). assert (Hl1 := In_tl _ _ Hl).
      assert (Hx' : In x (out_names (li_cls l) ++ pred_names (li_cls l))).
      { destruct Hn as [Hn|Hn]; [exact Hn|exfalso]. assert (ND := layers_NoDup a layers HN HI). rewrite Hn in ND. inversion_clear ND. contradiction. }
      assert (N : nf (li_out l) x = nfeatures s) by (apply (nf_here l "outputs" x s Hl1 Hx)).
      destruct (net_extra a layers HN HI l Hl1 (HS l Hl)) as [EX TI].
      assert (Rows : forall n bs, dget n (li_in l) = Some bs -> over_time bs -> alike_rows (b_size b) i (b_size b') i' t (nf (li_in l) n)
        (read (cells layers hubs lay (S (b_time b)) (b_size b) l "inputs" n) after) (read (cells layers hubs lay (S (b_time b')) (b_size b') l "inputs" n) after')).
      { intros n bs Hd Ob q Hq c Hc. assert (Hb := dget_In _ _ _ Hd). assert (Nn : nf (li_in l) n = nfeatures bs) by (unfold nf; now rewrite Hd). rewrite Nn in Hc.
        destruct (inputs_source (l0 :: pre) l post n bs c E ltac:(discriminate) Hb Ob Hc) as [l' [y [s' [o [I1 [I2 [I3 [I4 [I5 [_ I6]]]]]]]]]].
        assert (Q : val b after l "inputs" n q i c = val b' after' l "inputs" n q i' c).
        { rewrite (I6 b after q i ltac:(lia) Hi), (I6 b' after' q i' ltac:(lia) Hi'). apply (IH l' I1 y s' q o I2 I3); [|exact Hq|exact I4]. destruct I5; [left; apply in_or_app; now left|now right]. }
        exact Q. }
      assert (Timed : li_cls l <> CLoss -> forall n bs, In n (in_names (li_cls l) ++ const_names (li_cls l)) -> dget n (li_in l) = Some bs -> over_time bs).
      { intros NL n bs Hn' Hd. destruct (cls_eq_dec (li_cls l) CMerge) as [Ec|Ec]; [|apply (TI Ec NL n bs); now apply dget_In].
        rewrite Ec in Hx', Hn'. cbn in Hx'. destruct Hx' as [<-|[]]. unfold extra in EX. rewrite Ec in EX.
        assert (Dd := In_dget _ _ _ (buffers_NoDup a layers HN HI l "outputs" Hl1) Hx). change (buffers_of l "outputs") with (li_out l) in Dd.
        assert (SU := HS l Hl). unfold supported, one_dim, dims in SU. rewrite Ec in SU. apply andb_true_iff in SU. destruct SU as [S1 S2].
        destruct (dget "inputs_1" (li_in l)) as [b1|] eqn:D1; [|discriminate S1]. destruct (dget "inputs_2" (li_in l)) as [b2|] eqn:D2; [|discriminate S2].
        destruct (EX s b1 b2 Dd Os eq_refl eq_refl) as [O1 O2]. cbn in Hn'. destruct Hn' as [<-|[<-|[]]]; congruence. }
      assert (NL : li_cls l <> CLoss) by (intros Ec; rewrite Ec in Hx'; destruct Hx').
      assert (R := layer_rows a layers l HI HZ Hl1 (HS l Hl) EX (b_env b) (b_env b') (b_time b) (b_size b) i (b_time b') (b_size b') i' t
        (fun cat x => read (cells layers hubs lay (S (b_time b)) (b_size b) l cat x) after) (fun cat x => read (cells layers hubs lay (S (b_time b')) (b_size b') l cat x) after') Ht Ht' Hi Hi'
        (C69_outputs a layers hubs lay b params CR l Hl) (C69_outputs a layers hubs lay b' params CR l Hl)).
      cbv beta in R. assert (R1 := R (functional_extensionality _ _ (fun p => params_kept b b' params l p Hl1)) (SC l Hl) SP). clear R.
      assert (Q : alike_rows (b_size b) i (b_size b') i' t (nf (li_out l) x) (read (cells layers hubs lay (S (b_time b)) (b_size b) l "outputs" x) after) (read (cells layers hubs lay (S (b_time b')) (b_size b') l "outputs" x) after')).
      { apply R1; [| | |exact Hx'].
        - intros n Hn'. destruct (dget n (li_in l)) as [bs|] eqn:Ed; [apply (Rows n bs Ed); exact (Timed NL n bs Hn' Ed)|]. intros q Hq c Hc. unfold nf in Hc. rewrite Ed in Hc. lia.
        - intros Ec. assert (SU := HS l Hl). unfold supported, one_dim, dims in SU. rewrite Ec in SU. apply andb_true_iff in SU. destruct SU as [S1 _].
          destruct (dget "inputs_1" (li_in l)) as [b1|] eqn:D1; [|discriminate S1]. assert (O1 : over_time b1) by (apply (Timed NL "inputs_1"); [rewrite Ec; now left|exact D1]).
          unfold lead. rewrite D1. destruct O1 as [f Ef]. unfold nlead. rewrite Ef. cbn [map fold_right].
          assert (Z : forall T B, fold_right Nat.mul 1 (map (fun d => match d with DT => T | DB => B | _ => 1 end) (map DInt f)) = 1) by (intros T B; clear; induction f as [|z f IH]; [reflexivity|cbn [map fold_right]; rewrite IH; reflexivity]).
          rewrite !Z. lia.
        - intros Ec q Hq. specialize (PL l q Hl Ec Hq). unfold value in PL. change (buffers_of l "inputs") with (li_in l) in PL. unfold extra in EX. rewrite Ec in EX. destruct EX as [X1 _].
          destruct (dget "targets" (li_in l)) as [bs|] eqn:Ed; [|unfold nf in X1; rewrite Ed in X1; discriminate X1]. assert (Hb := dget_In _ _ _ Ed).
          assert (Ob : over_time bs) by (apply (Timed NL "targets"); [rewrite Ec; cbn; tauto|exact Ed]). assert (Nb : nfeatures bs = 1) by (unfold nf in X1; now rewrite Ed in X1).
          destruct (inputs_source (l0 :: pre) l post "targets" bs 0 E ltac:(discriminate) Hb Ob ltac:(lia)) as [l' [y [s' [o [I1 [I2 [I3 [I4 [_ [I5 I6]]]]]]]]]].
          assert (Q1 := I6 b after q i ltac:(lia) Hi). assert (Q2 := I6 b (b_mem b) q i ltac:(lia) Hi). unfold val, value, after in Q1, Q2. rewrite (data_kept b params l' (tl layers) y) in Q1 by (apply I5; rewrite Ec; cbn; tauto).
          rewrite <- Q2 in Q1. change (buffers_of l "inputs") with (li_in l) in Q1. rewrite X1, Nat.mul_1_r, Nat.add_0_r in *. rewrite <- Q1 in PL. exact PL. }
      unfold val, value. change (buffers_of l "outputs") with (li_out l). rewrite <- N in Hj. exact (Q k Hk j Hj).
    Qed.
  End Pair.

  (** ** Losses *)
  Definition loss_of (b : batch) (params : vec) (l : linst) : R := read (cells layers hubs lay (S (b_time b)) (b_size b) l "outputs" "loss") (evaluation layers hubs lay b params) 0.
  Definition loss_layers : list linst := filter (fun l => match li_cls l with CLoss => true | _ => false end) (tl layers).
  Lemma eval_loss_sum b params : eval_loss layers hubs lay b params = HooksModel.rsum (map (loss_of b params) loss_layers).
  Proof.
    unfold eval_loss, net_loss, mlayers, loss_layers. assert (G : forall ls, (forall l, In l ls -> In l (tl layers)) ->
      mem_loss (map (mlayer_of layers hubs lay (b_env b) (b_time b) (b_size b)) ls) (evaluation layers hubs lay b params) =
      HooksModel.rsum (map (loss_of b params) (filter (fun l => match li_cls l with CLoss => true | _ => false end) ls))).
    { induction ls as [|l ls IH]; intros H; [reflexivity|]. cbn [map mem_loss filter]. rewrite IH by (intros z Hz; apply H; now right). specialize (H l (or_introl eq_refl)).
      assert (TT := cells_total a layers hubs lay HN HI HL HZ (b_time b) (b_size b) l "outputs" (loss_names (li_cls l)) (In_tl _ _ H)).
      destruct (net_sized a layers l (b_env b) (b_time b) (b_size b) HI HZ (In_tl _ _ H) (HS l H) none none) as [_ [_ [_ [E _]]]].
      change (buffers_of l "outputs") with (li_out l) in TT. rewrite E in TT. unfold mlayer_of. cbn [m_loss]. rewrite TT.
      destruct (li_cls l) eqn:Ec; cbn [loss_names length Rsum]; try lra. cbn [map HooksModel.rsum fold_right]. f_equal. unfold loss_of, cells_of. cbn [flat_map]. rewrite app_nil_r. lra. }
    now apply G.
  Qed.
  (** The number of the time steps of a buffer with time and batch dimension, and the batch size a Loss layer divides by *)
  Lemma over_time_lead bs T B : over_time bs -> nlead bs T B = T * B.
  Proof.
    intros [f Ef]. unfold nlead. rewrite Ef. cbn [map fold_right].
    assert (Z : fold_right Nat.mul 1 (map (fun d => match d with DT => T | DB => B | _ => 1 end) (map DInt f)) = 1) by (clear; induction f as [|z f IH]; [reflexivity|cbn [map fold_right]; rewrite IH; reflexivity]).
    rewrite Z. lia.
  Qed.
  Definition sequence_loss (b : batch) (params : vec) (l : linst) (i : nat) : R :=
    (number (cf_scalar (li_cfg l)) * Rsum (S (b_time b)) (fun k => Rsum (nf (li_in l) "default") (fun j => val b (evaluation layers hubs lay b params) l "inputs" "default" k i j)))%R.
  Lemma loss_batch_sum b params l bs : In l (tl layers) -> li_cls l = CLoss -> In ("default", bs) (li_in l) -> over_time bs ->
    loss_of b params l = (/ INR (b_size b) * Rsum (b_size b) (sequence_loss b params l))%R.
  Proof.
    intros Hl Ec Hb Ob. assert (E := C69_outputs a layers hubs lay b params CR l Hl). cbv zeta in E. unfold eval_equation, equation in E. rewrite Ec in E. unfold loss_of. rewrite E.
    assert (Dd := In_dget _ _ _ (buffers_NoDup a layers HN HI l "inputs" (In_tl _ _ Hl)) Hb). change (buffers_of l "inputs") with (li_in l) in Dd.
    unfold lead, loss_batch, loss_forward. rewrite Dd, (over_time_lead bs _ _ Ob). destruct Ob as [f Ef]. rewrite Ef. cbn [existsb orb].
    unfold sequence_loss. rewrite Rsum_scal, Rsum_nest, Rsum_swap. unfold Rdiv. rewrite <- Rmult_assoc. f_equal. apply Rmult_comm.
  Qed.
  Lemma same_loss b b' i i' params l bs : b_time b = b_time b' -> same_sequence layers hubs lay b i b' i' (b_time b) -> proper_labels layers hubs lay b i (b_time b) ->
    In l (tl layers) -> In ("default", bs) (li_in l) -> over_time bs -> sequence_loss b params l i = sequence_loss b' params l i'.
  Proof.
    intros Et SS PL Hl Hb Ob. unfold sequence_loss. rewrite <- Et. f_equal. apply Rsum_ext. intros k Hk. apply Rsum_ext. intros j Hj.
    assert (Hj' : j < nfeatures bs) by (rewrite <- (nf_here l "inputs" "default" bs (In_tl _ _ Hl) Hb); exact Hj).
    destruct (tl_split a layers hubs lay HI HL HZ HS HD (b_env b) 0 1 l Hl) as [pre [post [E Np]]]. destruct (ss_index _ _ _ _ _ _ _ _ SS) as [Hi [Hi' [_ Ht']]].
    destruct (inputs_source pre l post "default" bs j E Np Hb Ob Hj') as [l' [y [s' [o [I1 [I2 [I3 [I4 [I5 [_ I6]]]]]]]]]].
    rewrite (I6 b _ k i ltac:(lia) Hi), (I6 b' _ k i' ltac:(lia) Hi').
    apply (all_agree b b' i i' (b_time b) params SS PL pre (l :: post) E l' I1 y s' k o I2 I3); [|lia|exact I4]. destruct I5; [left; apply in_or_app; now left|now right].
  Qed.
End Created.

(** ** A sequence of a batch is processed as in any other batch, and up to a time step without regard to the later steps. *)
Theorem C70_local : forall a layers hubs lay b b' i i' t params, created a layers hubs lay -> has_parameters layers hubs lay ->
  same_sequence layers hubs lay b i b' i' t -> proper_labels layers hubs lay b i t ->
  forall l x s k j, In l (tl layers) -> In (x, s) (li_out l) -> over_time s -> In x (out_names (li_cls l) ++ pred_names (li_cls l)) -> k <= t -> j < nfeatures s ->
    value layers hubs lay b (evaluation layers hubs lay b params) l "outputs" x k i j = value layers hubs lay b' (evaluation layers hubs lay b' params) l "outputs" x k i' j.
Proof.
  intros a layers hubs lay b b' i i' t params [HN HI HL HZ HS HD] HE SS PL l x s k j Hl Hx Os Hn Hk Hj.
  apply (all_agree a layers hubs lay HN HI HL HZ HS HD HE b b' i i' t params SS PL layers [] ltac:(now rewrite app_nil_r) l (In_tl _ _ Hl) x s k j Hx Os (or_introl Hn) Hk Hj).
Qed.
Print Assumptions C70_local.

(** ** Losses *)
(** The batch [b] consists of the sequences [ids]; [single id] is a batch with just the sequence [id]. *)
Definition consists (layers : list linst) (hubs : list hub) (lay : slices) (single : nat -> batch) (T : nat) (b : batch) (ids : list nat) : Prop :=
  b_time b = T /\ b_size b = length ids /\ ids <> [] /\
  forall k id, nth_error ids k = Some id -> b_time (single id) = T /\ b_size (single id) = 1 /\
    same_sequence layers hubs lay (single id) 0 b k T /\ proper_labels layers hubs lay (single id) 0 T.
(** The losses have time and batch dimension. *)
Definition timed_losses (layers : list linst) : Prop := forall l, In l (tl layers) -> li_cls l = CLoss -> exists bs, In ("default", bs) (li_in l) /\ over_time bs.
Definition mean (xs : list R) : R := (HooksModel.rsum xs / INR (length xs))%R.

Lemma Rsum_map {X} (f : nat -> R) (g : X -> R) (ids : list X) : (forall k id, nth_error ids k = Some id -> f k = g id) -> Rsum (length ids) f = HooksModel.rsum (map g ids).
Proof.
  revert f. induction ids as [|x ids IH]; intros f H; [reflexivity|]. cbn [length map]. rewrite Rsum_shift, ScorersProps.rsum_cons. rewrite (H 0 x eq_refl). f_equal. apply IH. intros k id Hk. exact (H (S k) id Hk).
Qed.
Lemma rsum_mean {X Y} (f : X -> Y -> R) (xs : list X) (ys : list Y) :
  HooksModel.rsum (map (fun x => mean (map (f x) ys)) xs) = mean (map (fun y => HooksModel.rsum (map (fun x => f x y) xs)) ys).
Proof.
  unfold mean. rewrite map_length. rewrite <- ScorersProps.rsum_swap. unfold Rdiv. rewrite Rmult_comm, <- ScorersProps.rsum_scal. f_equal. apply map_ext. intros x. rewrite map_length. apply Rmult_comm.
Qed.
(** Every loss of a batch, and the total loss, is the mean of the losses of its sequences. *)
Theorem C70_batch_loss : forall a layers hubs lay single T b ids params, created a layers hubs lay -> has_parameters layers hubs lay -> timed_losses layers ->
  consists layers hubs lay single T b ids ->
  (forall l, In l (tl layers) -> li_cls l = CLoss -> loss_of layers hubs lay b params l = mean (map (fun id => loss_of layers hubs lay (single id) params l) ids)) /\
  eval_loss layers hubs lay b params = mean (map (fun id => eval_loss layers hubs lay (single id) params) ids).
Proof.
  intros a layers hubs lay single T b ids params CR HE TL [E1 [E2 [NE C]]].
  assert (K : forall l, In l (tl layers) -> li_cls l = CLoss -> loss_of layers hubs lay b params l = mean (map (fun id => loss_of layers hubs lay (single id) params l) ids)).
  { intros l Hl Ec. destruct (TL l Hl Ec) as [bs [Hb Ob]]. destruct CR as [HN HI HL HZ HS HD].
    rewrite (loss_batch_sum a layers hubs lay HN HI HL HZ HS HD b params l bs Hl Ec Hb Ob). unfold mean. rewrite map_length, E2. unfold Rdiv. rewrite Rmult_comm. f_equal.
    apply Rsum_map. intros k id Hk. destruct (C k id Hk) as [D1 [D2 [D3 D4]]].
    rewrite (loss_batch_sum a layers hubs lay HN HI HL HZ HS HD (single id) params l bs Hl Ec Hb Ob). rewrite D2. cbn [Rsum INR]. rewrite Rinv_1, Rmult_1_l, Rplus_0_l. symmetry.
    rewrite <- D1 in D3, D4. apply (same_loss a layers hubs lay HN HI HL HZ HS HD HE (single id) b 0 k params l bs); auto. congruence. }
  split; [exact K|]. destruct CR as [HN HI HL HZ HS HD]. rewrite (eval_loss_sum a layers hubs lay HN HI HL HZ HS).
  transitivity (HooksModel.rsum (map (fun l => mean (map (fun id => loss_of layers hubs lay (single id) params l) ids)) (loss_layers layers))).
  - apply ScorersProps.rsum_ext_in. intros l Hl. apply filter_In in Hl. destruct Hl as [Hl Ec]. apply K; [exact Hl|]. destruct (li_cls l); try discriminate Ec. reflexivity.
  - rewrite (rsum_mean (fun l id => loss_of layers hubs lay (single id) params l)). f_equal. apply map_ext. intros id. symmetry. apply (eval_loss_sum a layers hubs lay HN HI HL HZ HS).
Qed.
Print Assumptions C70_batch_loss.

(** scorers.py:39-41, 58-59: the loss reported for a data set is the mean over the sequences, however they
    are grouped into batches (tools.evaluate, MonitorLoss, MonitorScores). *)
Theorem C70_reported_loss : forall a layers hubs lay single T n groups params, created a layers hubs lay -> has_parameters layers hubs lay -> timed_losses layers ->
  (forall b ids, In (b, ids) groups -> consists layers hubs lay single T b ids) -> Permutation (concat (map snd groups)) (List.seq 0 n) ->
  ScorersModel.weighted_average (map (fun g => (INR (b_size (fst g)), eval_loss layers hubs lay (fst g) params)) groups) =
  mean (map (fun id => eval_loss layers hubs lay (single id) params) (List.seq 0 n)).
Proof.
  intros a layers hubs lay single T n groups params CR HE TL C P. unfold ScorersModel.weighted_average. set (total := HooksModel.rsum (map fst _)).
  set (f := fun id => eval_loss layers hubs lay (single id) params).
  assert (Et : total = INR n).
  { unfold total. rewrite map_map. cbn [fst]. rewrite <- (seq_length n 0). rewrite <- (Permutation_length P). clear P total. induction groups as [|[b ids] g IH]; [reflexivity|].
    cbn [map concat fst snd]. rewrite ScorersProps.rsum_cons, app_length, plus_INR, IH by (intros b0 i0 H0; apply C; now right). destruct (C b ids (or_introl eq_refl)) as [_ [-> _]]. reflexivity. }
  rewrite Et. rewrite map_map. cbn [fst snd]. unfold mean. rewrite map_length, seq_length. rewrite <- (ScorersProps.rsum_perm _ _ (Permutation_map f P)).
  clear P Et total. unfold Rdiv. induction groups as [|[b ids] g IH]; [cbn; lra|].
  cbn [map concat fst snd]. rewrite ScorersProps.rsum_cons, map_app, ScorersProps.rsum_app, IH by (intros b0 i0 H0; apply C; now right).
  assert (Cb := C b ids (or_introl eq_refl)). destruct (C70_batch_loss a layers hubs lay single T b ids params CR HE TL Cb) as [_ ->]. destruct Cb as [_ [-> [NE _]]]. fold f. unfold mean. rewrite map_length.
  assert (INR (length ids) <> 0%R) by (apply not_0_INR; destruct ids; [congruence|discriminate]). 
  unfold Rdiv. set (s1 := HooksModel.rsum (map f ids)). replace (s1 * / INR (length ids) * INR (length ids))%R with s1 by (field; assumption). ring.
Qed.
Print Assumptions C70_reported_loss.

(** ** Scores *)
(** net.get_input(targets_name), net.get(out_name) and net.get_input(mask_name) after an evaluation pass, for
    time step [t] of sequence [i]: one row of the flattened arrays (scorers.py:42-50) *)
Definition sample_of (layers : list linst) (hubs : list hub) (lay : slices) (b : batch) (params : vec) (input : linst) (targets : string) (mask : option string) (l : linst) (out : string) (t i : nat) : ScorersModel.sample :=
  let values l x := map (value layers hubs lay b (evaluation layers hubs lay b params) l "outputs" x t i) (List.seq 0 (nf (li_out l) x)) in
  ScorersModel.mkSample (values input targets) (values l out) (option_map (values input) mask).
(** What gather_losses_and_scores appends for a scorer (scorers.py:51-53): the rows of a batch, weighted *)
Definition scored (layers : list linst) (hubs : list hub) (lay : slices) (params : vec) (input : linst) (targets : string) (mask : option string) (l : linst) (out : string) (kind : ScorersModel.kind) (b : batch) : R * R :=
  let rows := ScorersProps.rows (sample_of layers hubs lay b params input targets mask l out) (List.seq 0 (b_size b), S (b_time b)) in
  (ScorersModel.weight rows, ScorersModel.call kind (nf (li_out input) targets) rows).
Definition timed (d : list (string * bstruct)) (x : string) : Prop := exists s, In (x, s) d /\ over_time s.

Lemma map_seq_nth {X Y} (f : nat -> Y) (g : X -> Y) (ids : list X) : (forall k id, nth_error ids k = Some id -> f k = g id) -> map f (List.seq 0 (length ids)) = map g ids.
Proof.
  intros H. assert (G : forall n (ids : list X) (f : nat -> Y), (forall k id, nth_error ids k = Some id -> f (n + k) = g id) -> map f (List.seq n (length ids)) = map g ids).
  { clear. intros n ids. revert n. induction ids as [|x ids IH]; intros n f H; [reflexivity|]. cbn. rewrite <- (H 0 x eq_refl), Nat.add_0_r. f_equal. apply IH. intros k id Hk. rewrite <- (H (S k) id Hk). f_equal. lia. }
  now apply (G 0).
Qed.
(** Each scorer reports the score of all sequences at once, however they are grouped into batches. *)
Theorem C70_reported_score : forall a layers hubs lay single T n groups all params input r targets mask l out kind, created a layers hubs lay -> has_parameters layers hubs lay ->
  (forall b ids, In (b, ids) groups -> consists layers hubs lay single T b ids) -> consists layers hubs lay single T all (List.seq 0 n) -> Permutation (concat (map snd groups)) (List.seq 0 n) ->
  layers = input :: r -> timed (li_out input) targets -> (forall x, mask = Some x -> timed (li_out input) x) ->
  In l (tl layers) -> In out (out_names (li_cls l) ++ pred_names (li_cls l)) -> timed (li_out l) out ->
  ScorersModel.aggregate (map (fun g => scored layers hubs lay params input targets mask l out kind (fst g)) groups) =
  ScorersModel.aggregate [scored layers hubs lay params input targets mask l out kind all].
Proof.
  intros a layers hubs lay single T n groups all params input r targets mask l out kind CR HE C CA P El [st [It Ot]] HM Hl Ho [so [Io Oo]].
  set (D := fun t id => sample_of layers hubs lay (single id) params input targets mask l out t 0).
  assert (HN := cr_named _ _ _ _ CR). assert (HI := cr_layers _ _ _ _ CR). assert (Hin : In input layers) by (rewrite El; now left).
  assert (K : forall b ids, consists layers hubs lay single T b ids -> ScorersProps.rows (sample_of layers hubs lay b params input targets mask l out) (List.seq 0 (b_size b), S (b_time b)) = ScorersProps.rows D (ids, S T)).
  { intros b ids [E1 [E2 [_ Q]]]. unfold ScorersProps.rows. cbn [fst snd]. rewrite E1, E2. rewrite !flat_map_concat_map. f_equal. apply map_ext_in. intros t Ht. apply in_seq in Ht. apply map_seq_nth. intros k id Hk.
    destruct (Q k id Hk) as [D1 [D2 [SS PL]]].
    assert (VI : forall x s, In (x, s) (li_out input) -> over_time s -> map (value layers hubs lay b (evaluation layers hubs lay b params) input "outputs" x t k) (List.seq 0 (nf (li_out input) x)) =
                  map (value layers hubs lay (single id) (evaluation layers hubs lay (single id) params) input "outputs" x t 0) (List.seq 0 (nf (li_out input) x))).
    { intros x s Hx Os. apply map_ext_in. intros j Hj. apply in_seq in Hj. assert (N := nf_here a layers HN HI input "outputs" x s Hin Hx). change (buffers_of input "outputs") with (li_out input) in N. symmetry.
      destruct CR as [_ _ HL HZ HS HD]. apply (all_agree a layers hubs lay HN HI HL HZ HS HD HE (single id) b 0 k T params SS PL [input] r El input (or_introl eq_refl) x s t j Hx Os); [|lia|lia]. right. now rewrite El. }
    unfold D, sample_of. f_equal; [exact (VI targets st It Ot)| |].
    - apply map_ext_in. intros j Hj. apply in_seq in Hj. assert (N := nf_here a layers HN HI l "outputs" out so (In_tl _ _ Hl) Io). change (buffers_of l "outputs") with (li_out l) in N. symmetry.
      apply (C70_local a layers hubs lay (single id) b 0 k T params CR HE SS PL l out so t j Hl Io Oo Ho); lia.
    - destruct mask as [x|]; [|reflexivity]. cbn [option_map]. f_equal. destruct (HM x eq_refl) as [s [Hx Os]]. exact (VI x s Hx Os). }
  unfold scored. rewrite (K all _ CA).
  transitivity (ScorersModel.aggregate (map (fun p => (ScorersModel.weight (ScorersProps.rows D p), ScorersModel.call kind (nf (li_out input) targets) (ScorersProps.rows D p))) (map (fun g => (snd g, S T)) groups))).
  - f_equal. rewrite map_map. apply map_ext_in. intros [b ids] Hg. cbn [fst snd]. now rewrite (K b ids (C b ids Hg)).
  - apply ScorersProps.C30_scores; [rewrite map_map; exact P|]. intros p Hp. apply in_map_iff in Hp. destruct Hp as [g [<- _]]. split; [cbn; lia|]. cbn [snd]. intros t j _ Ht. lia.
Qed.
Print Assumptions C70_reported_score.

(** ** Training: without Dropout and BatchNorm the loss and the gradient of a batch are the means of those of its sequences. *)
Definition gradient (layers : list linst) (hubs : list hub) (lay : slices) (b : batch) (params : vec) (k : nat) : R :=
  read (grad_cells layers hubs lay b) (backward layers hubs lay b (forward layers hubs lay b (prepared layers hubs lay b params))) k.
Lemma D_rsum {X} s (f : X -> R -> R) (g : X -> R) xs : (forall x, In x xs -> D s (f x) (g x)) -> D s (fun r => HooksModel.rsum (map (fun x => f x r) xs)) (HooksModel.rsum (map g xs)).
Proof.
  induction xs as [|x xs IH]; intros H; [exact (D_const s 0)|]. cbn [map HooksModel.rsum fold_right]. apply (D_plus s (f x) (fun r => HooksModel.rsum (map (fun x => f x r) xs))); [apply H; now left|apply IH; intros y Hy; apply H; now right].
Qed.
Theorem C70_training : forall a layers hubs lay single T b ids, created a layers hubs lay -> has_parameters layers hubs lay -> timed_losses layers ->
  (forall l, In l (tl layers) -> li_cls l <> CDropout /\ li_cls l <> CBatchNorm) -> consists layers hubs lay single T b ids ->
  (forall params, batch_loss layers hubs lay b params = mean (map (fun id => batch_loss layers hubs lay (single id) params) ids)) /\
  forall params k l p idx, is_element layers hubs lay k l p idx -> In p (par_names l) ->
    smooth_at layers hubs lay b params -> (forall id, In id ids -> smooth_at layers hubs lay (single id) params) ->
    gradient layers hubs lay b params k = mean (map (fun id => gradient layers hubs lay (single id) params k) ids).
Proof.
  intros a layers hubs lay single T b ids CR HE TL ND C.
  assert (K : forall params, batch_loss layers hubs lay b params = mean (map (fun id => batch_loss layers hubs lay (single id) params) ids)).
  { intros params. rewrite <- (proj2 (C69_same_loss a layers hubs lay b params CR ND)). rewrite (proj2 (C70_batch_loss a layers hubs lay single T b ids params CR HE TL C)). f_equal. apply map_ext. intros id.
    apply (C69_same_loss a layers hubs lay (single id) params CR ND). }
  split; [exact K|]. intros params k l p idx He Hp Sb Si. destruct CR as [HN HI HL HZ HS HD].
  assert (G := element_gradient a layers hubs lay HN HI HL HZ HS HD b params k l p idx Sb He Hp). cbv zeta in G.
  apply (D_unique (params k) (fun r => batch_loss layers hubs lay b (NetworkModel.upd k r params))); [exact G|].
  apply (D_ext (params k) (fun r => (HooksModel.rsum (map (fun id => batch_loss layers hubs lay (single id) (NetworkModel.upd k r params)) ids) * / INR (length ids))%R) _
    (HooksModel.rsum (map (fun id => gradient layers hubs lay (single id) params k) ids) * / INR (length ids))%R).
  - intros r. rewrite K. unfold mean. now rewrite map_length.
  - unfold mean. now rewrite map_length.
  - apply D_scal_r. apply (D_rsum (params k) (fun id r => batch_loss layers hubs lay (single id) (NetworkModel.upd k r params))). intros id Hid.
    exact (element_gradient a layers hubs lay HN HI HL HZ HS HD (single id) params k l p idx (Si id Hid) He Hp).
Qed.
Print Assumptions C70_training.
