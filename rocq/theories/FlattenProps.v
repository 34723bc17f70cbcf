(** C64: flattening a buffer before writing to it. *)
From Coq Require Import String Ascii List ZArith QArith Bool Lia Permutation.
From Verif Require Import HubModel HubProofs LayoutModel LayoutProofs LayoutProps BuffersModel BuffersProofs BuffersProps.
From Verif Require Import PyBase PyFacts UtilsModel UtilsProofs NamesModel ArchModel ArchProofs ShapesModel ShapesProofs SetupModel PassShapesModel SetupProofs PassShapesProofs SetupProps InstanceProofs InstanceProps NetLayoutExtra NetLayoutProofs NetLayoutProps.
From Verif Require Import FlattenModel FlattenProofs.
Import ListNotations.
Open Scope string_scope.
Open Scope list_scope.
Open Scope nat_scope.
Local Notation prod := BuffersModel.prod.

(** ** The buffers of a network are hub arrays *)
Lemma scaled1 l : map (fun d : nat * nat => (fst d, snd d * 1)) (c_dims l) = c_dims l.
Proof. fold (scaled 1 l). symmetry. apply c_dims_scaled. Qed.
Lemma hub_view_dims hubs T B k h st lo hi a :
  ls_btype st = h_btype h -> ls_ctx st <= h_ctx h ->
  create_from_buffer_hub st (hub_buffer hubs T B k h) T h lo hi = Some a ->
  hub_array a (lead_shape st T B) (ls_feat st) (h_size h).
Proof.
  intros Eb Hc. unfold create_from_buffer_hub. destruct (hi - lo =? ls_size st) eqn:E; [|discriminate].
  intros [= <-]. unfold hub_array, lead_shape, hub_buffer, hub_shape, c_array. rewrite <- Eb.
  destruct (ls_btype st) as [|[|n]]; unfold slice, split_last, scaled;
    cbn [a_off a_dims slice_dims nth last removelast app skipn Nat.sub c_dims BuffersModel.prod fold_right snd fst map]; rewrite scaled1.
  - reflexivity.
  - rewrite Nat.mul_1_r, Nat.mul_1_l. reflexivity.
  - rewrite !Nat.mul_1_r, !Nat.mul_1_l. match goal with |- (?x, _) :: _ = (?y, _) :: _ => replace x with y by lia end. reflexivity.
Qed.
Lemma hub_array_slice a n lead feat S lo hi : hub_array a (n :: lead) feat S ->
  hub_array (slice 0 lo hi a) ((hi - lo) :: lead) feat S.
Proof.
  unfold hub_array, slice, scaled. cbn [a_dims]. intros ->. reflexivity.
Qed.
Lemma slice_all a n lead feat S : hub_array a (n :: lead) feat S -> slice 0 0 n a = a.
Proof.
  unfold hub_array, slice, scaled. destruct a as [off dims]. cbn [a_off a_dims]. intros ->.
  cbn [c_dims map app fst snd slice_dims nth Nat.mul]. rewrite Nat.sub_0_r. f_equal. lia.
Qed.
Lemma slice_address a lo hi t i : a_dims a <> [] -> address (slice 0 lo hi a) (t :: i) = address a ((lo + t) :: i).
Proof.
  unfold address, slice. cbn [a_off a_dims]. destruct (a_dims a) as [|[n s] r]; [contradiction|].
  cbn [slice_dims dot_strides nth snd]. intros _. lia.
Qed.

(** The lengths of the axes of time and batch. *)
Definition lead_dims (b : bstruct) (T B : nat) : list nat :=
  flat_map (fun d => match d with DT => [T + Z.to_nat (bs_ctx b)] | DB => [B] | _ => [] end) (bs_shape b).
Lemma lead_ok b T B : valid b -> lead_shape (layout_struct b) T B = lead_dims b T B.
Proof.
  intros V. destruct (valid_parts b V) as [k [f [E [_ [BT [FS Hk]]]]]].
  unfold lead_shape, lead_dims, layout_struct. cbn [ls_btype ls_ctx]. rewrite BT, E, flat_map_app.
  replace (flat_map _ (ints f)) with (@nil nat) by (unfold ints; clear; induction f as [|z f IH]; [reflexivity|cbn; auto]).
  destruct k; reflexivity.
Qed.
Lemma shape_parts b T B : valid b -> array_shape b T B = lead_dims b T B ++ fdims b.
Proof. intros V. now rewrite <- (shape_ok b T B V), lead_ok, fdims_ok. Qed.
Lemma nfeatures_ok b : valid b -> nfeatures b = prod (fdims b).
Proof. intros V. rewrite <- (features_ok b V). unfold ls_size. rewrite fdims_ok by exact V. reflexivity. Qed.

(** All dimensions are positive. *)
Definition all_positive (layers : list linst) : Prop :=
  forall l cat x b z, In l layers -> In (x, b) (buffers_of l cat) -> In (DInt z) (bs_shape b) -> (0 < z)%Z.
Lemma positive_nonnegative layers : all_positive layers -> nonnegative layers.
Proof. intros H l cat x b z H1 H2 H3. specialize (H l cat x b z H1 H2 H3). lia. Qed.
Lemma positive_fdims layers l cat x b : all_positive layers -> In l layers -> In (x, b) (buffers_of l cat) -> positive_shape (fdims b).
Proof.
  intros H H1 H2. assert (G := fun z => H l cat x b z H1 H2). unfold positive_shape, fdims. clear -G.
  induction (bs_shape b) as [|d r IH]; [constructor|]. cbn [flat_map]. apply Forall_app. split.
  - destruct d; repeat constructor. match goal with |- 1 <= Z.to_nat ?z => specialize (G z (or_introl eq_refl)) end. lia.
  - apply IH. intros z Hz. apply G. now right.
Qed.
Lemma positive_lead b T B : 1 <= T -> 1 <= B -> positive_shape (lead_dims b T B).
Proof.
  intros HT HB. unfold positive_shape, lead_dims. induction (bs_shape b) as [|d r IH]; [constructor|].
  cbn [flat_map]. apply Forall_app. split; [|exact IH]. destruct d; repeat constructor; lia.
Qed.

(** The hub a buffer is part of. *)
Definition in_hub (hubs : list hub) (lay : slices) (l : linst) (cat x : string) (h : hub) : Prop :=
  exists k sl, dget (path3 (li_name l) cat x) lay = Some (k, sl) /\ nth_error hubs k = Some h.

Section Net.
  Variables (a : karch) (layers : list linst) (hubs : list hub) (lay : slices).
  Hypothesis HN : named a.
  Hypothesis HI : instantiate a = SOk layers.
  Hypothesis HL : create_layout (map layout_layer layers) = LOk (hubs, lay).
  Hypothesis HP : all_positive layers.

  Lemma buffer_place l cat x b : In l layers -> In (x, b) (buffers_of l cat) ->
    exists k h lo hi st, dget (path3 (li_name l) cat x) lay = Some (k, (lo, hi)) /\ nth_error hubs k = Some h /\
      dget (path3 (li_name l) cat x) (stub (map layout_layer layers)) = Some st /\ alike st b /\
      ls_btype st = h_btype h /\ ls_ctx st <= h_ctx h /\ hi = lo + nfeatures b /\ hi <= h_size h.
  Proof.
    intros Hl Hb. assert (HZ := positive_nonnegative _ HP).
    destruct (String.eqb_spec cat "inputs") as [->|N1].
    { destruct (input_slices a layers hubs lay HN HI HL HZ l x b Hl Hb) as [k [h [lo [sti [D [Hk [St [Al [R [Bh [Cx _]]]]]]]]]]].
      exists k, h, lo, (lo + nfeatures b), sti. repeat (split; [assumption|]). split; [lia|]. split; [reflexivity|].
      destruct (lcns_ex layers hubs lay HL) as [lcns Hg]. destruct (input_sources a layers hubs lay HN HI HL HZ l x b Hl Hb) as [NE _].
      destruct (conns l x) as [|c cs] eqn:Ec; [contradiction|].
      assert (Hc : In (source_path c) (map source_path (conns l x))) by (rewrite Ec; now left).
      apply (to_inputs a layers hubs lay HN HI HL lcns l x _ Hg Hl (in_map fst _ _ Hb)) in Hc.
      destruct (sink_slices _ (net_W a layers hubs lay HN HI HL) hubs lay HL lcns _ _ Hg Hc) as [k2 [h2 [lo2 [hi2 [D2 [Hk2 [Le _]]]]]]].
      rewrite D in D2. injection D2 as <- <- <-. rewrite Hk in Hk2. injection Hk2 as <-. lia. }
    destruct (String.eqb_spec cat "input_deltas") as [->|N2].
    { destruct (delta_slices a layers hubs lay HN HI HL HZ l x b Hl Hb) as [k [k' [h [lo [sti [_ [D [Hk [St [Al [R [Bh [Cx _]]]]]]]]]]]]].
      exists k', h, lo, (lo + nfeatures b), sti. repeat (split; [assumption|]). split; [lia|]. split; [reflexivity|].
      destruct (lcns_ex layers hubs lay HL) as [lcns Hg]. destruct (input_sources a layers hubs lay HN HI HL HZ l x b Hl Hb) as [NE _].
      destruct (conns l x) as [|c cs] eqn:Ec; [contradiction|].
      assert (Hc : In (mirror (source_path c)) (map (fun c => mirror (source_path c)) (conns l x))) by (rewrite Ec; now left).
      apply (to_deltas a layers hubs lay HN HI HL lcns l x _ Hg Hl (in_map fst _ _ Hb)) in Hc.
      destruct (sink_slices _ (net_W a layers hubs lay HN HI HL) hubs lay HL lcns _ _ Hg Hc) as [k2 [h2 [lo2 [hi2 [D2 [Hk2 [Le _]]]]]]].
      rewrite D in D2. injection D2 as <- <- <-. rewrite Hk in Hk2. injection Hk2 as <-. lia. }
    assert (Ho : owned cat).
    { unfold owned. unfold buffers_of in Hb. repeat (destruct (String.eqb _ _) eqn:E in Hb; [apply String.eqb_eq in E; subst cat; try contradiction; cbn; tauto|clear E]). destruct Hb. }
    destruct (entry_at layers l cat x b Hl Hb) as [d [st [Hd [Hx Al]]]].
    destruct (owned_source _ (net_W a layers hubs lay HN HI HL) hubs lay HL (layout_layer l) cat d x (in_map _ _ _ Hl) Hd (in_map fst _ _ Hx) Ho)
      as [k [h [i [st' [D [Hk [_ [Hst [Off [Sz [Hbt Hc]]]]]]]]]]].
    destruct (stub_at a layers hubs lay HN HI HL l cat x b Hl Hb) as [st2 [S2 [A2 _]]].
    change (LayoutModel.l_name (layout_layer l)) with (li_name l) in *. rewrite Hst in S2. injection S2 as ->.
    exists k, h, (offset (h_sizes h) i), (offset (h_sizes h) (S i)), st2. repeat (split; [assumption|]). split; [|assumption].
    rewrite Off. f_equal. apply alike_size; [|exact A2]. eapply buffers_valid; eauto.
  Qed.
  Lemma buffer_hub_array l cat x b T B v : In l layers -> In (x, b) (buffers_of l cat) ->
    view layers hubs lay T B l cat x = Some v ->
    exists h, in_hub hubs lay l cat x h /\ hub_array v (lead_dims b T B) (fdims b) (h_size h) /\
      nfeatures b <= h_size h.
  Proof.
    intros Hl Hb Hv. destruct (buffer_place l cat x b Hl Hb) as [k [h [lo [hi [st [D [Hk [St [Al [Bt [Cx [Sz Le]]]]]]]]]]]].
    assert (V := buffers_valid a layers HN HI l cat x b Hl Hb).
    exists h. split; [exists k, (lo, hi); auto|].
    destruct (stub_at a layers hubs lay HN HI HL l cat x b Hl Hb) as [st2 [_ [_ R]]].
    unfold view in Hv. rewrite (view_at layers hubs lay T B _ k h lo hi st D Hk St R) in Hv.
    apply hub_view_dims in Hv; [|exact Bt|exact Cx]. destruct Al as [A1 [A2 A3]].
    assert (E : lead_shape st T B = lead_dims b T B) by (rewrite <- (lead_ok b T B V); unfold lead_shape; now rewrite A1, A3).
    rewrite E, A2, (fdims_ok b V) in Hv. split; [exact Hv|]. lia.
  Qed.
End Net.

(** ** Memory *)
Lemma hub_address a lead feat S i f : hub_array a lead feat S -> length i = length lead ->
  address a (i ++ f) = a_off a + ravel lead i * S + ravel feat f.
Proof.
  unfold hub_array, address. intros -> E. rewrite <- Nat.add_assoc. f_equal. revert i E.
  induction lead as [|n lead IH]; intros i E; destruct i as [|i0 i]; try discriminate.
  - reflexivity.
  - unfold scaled. cbn [c_dims map app fst snd dot_strides]. fold (scaled S lead). injection E as E. rewrite (IH i E).
    unfold ravel. cbn [c_dims dot_strides snd]. lia.
Qed.
Lemma hub_distinct a lead feat S i j : hub_array a lead feat S -> prod feat <= S -> in_range a i -> in_range a j ->
  address a i = address a j -> i = j.
Proof.
  intros H Le Hi Hj E. assert (Sh := hub_array_shape _ _ _ _ H).
  destruct (in_range_split a _ _ i Sh Hi) as [l1 [f1 [-> [A1 [A2 A3]]]]].
  destruct (in_range_split a _ _ j Sh Hj) as [l2 [f2 [-> [B1 [B2 B3]]]]].
  rewrite (hub_address a lead feat S) in E by assumption. rewrite (hub_address a lead feat S) in E by assumption.
  assert (C1 := ravel_lt _ _ A2). assert (C2 := ravel_lt _ _ B2).
  destruct (row_unique S (ravel lead l1) (ravel lead l2) (ravel feat f1) (ravel feat f2)) as [E1 E2]; try lia.
  apply ravel_inj in E1; [|assumption|assumption]. apply ravel_inj in E2; [|assumption|assumption]. congruence.
Qed.
Lemma unravel_ravel shape i : Forall2 lt i shape -> unravel shape (ravel shape i) = i.
Proof.
  induction 1 as [|k n i shape Hk Hi IH]; [reflexivity|]. unfold ravel. cbn [c_dims dot_strides snd unravel]. fold (ravel shape i).
  assert (L := ravel_lt _ _ Hi). assert (prod shape <> 0) by lia.
  rewrite Nat.div_add_l, Nat.div_small by assumption. rewrite (Nat.add_comm (k * prod shape)), Nat.mod_add, Nat.mod_small by assumption.
  f_equal; [lia|exact IH].
Qed.
Lemma ravel_unravel shape k : k < prod shape -> Forall2 lt (unravel shape k) shape /\ ravel shape (unravel shape k) = k.
Proof.
  revert k. induction shape as [|n r IH]; intros k Hk.
  - change (prod []) with 1 in Hk. split; [constructor|]. unfold ravel. cbn. lia.
  - rewrite prod_cons in Hk. assert (prod r <> 0) by nia.
    destruct (IH (k mod prod r)) as [I1 I2]; [now apply Nat.mod_upper_bound|].
    cbn [unravel]. split.
    + constructor; [|exact I1]. apply Nat.div_lt_upper_bound; [assumption|lia].
    + unfold ravel. cbn [c_dims dot_strides snd]. fold (ravel r (unravel r (k mod prod r))). rewrite I2.
      rewrite (Nat.div_mod k (prod r)) at 3 by assumption. lia.
Qed.
Lemma all_indices_nth shape i : Forall2 lt i shape -> nth_error (all_indices shape) (ravel shape i) = Some i.
Proof.
  intros H. apply all_indices_spec in H. apply In_nth_error in H. destruct H as [k Hk].
  assert (E := ravel_all shape 0). apply (f_equal (fun l => nth_error l k)) in E. rewrite nth_error_map, Hk in E. cbn [option_map Nat.add] in E.
  assert (L : k < prod shape). { destruct (le_lt_dec (prod shape) k) as [L|L]; [|exact L].
    assert (X : nth_error (seq 0 (prod shape)) k = None) by (apply nth_error_None; now rewrite seq_length). congruence. }
  rewrite (nth_error_nth' (seq 0 (prod shape)) 0) in E by (now rewrite seq_length). rewrite seq_nth in E by exact L.
  injection E as ->. exact Hk.
Qed.
Lemma all_indices_NoDup shape : NoDup (all_indices shape).
Proof.
  apply (NoDup_map_inv (fun i => 0 + ravel shape i)). rewrite ravel_all. apply seq_NoDup.
Qed.
Lemma all_indices_length shape : length (all_indices shape) = prod shape.
Proof. rewrite <- (map_length (fun i => 0 + ravel shape i)), ravel_all. apply seq_length. Qed.

Section Memory.
  Context {V : Type}.
  Lemma assign_other (m : mem V) out idxs vs q : (forall i, In i idxs -> address out i <> q) -> assign m out idxs vs q = m q.
  Proof.
    revert m vs. induction idxs as [|i idxs IH]; intros m vs H; [reflexivity|]. destruct vs as [|v vs]; [reflexivity|].
    cbn [assign]. rewrite IH by (intros j Hj; apply H; now right). unfold write.
    destruct (Nat.eqb_spec q (address out i)) as [->|]; [|reflexivity]. exfalso. apply (H i); [now left|reflexivity].
  Qed.
  Lemma assign_at (m : mem V) out idxs vs k i v : NoDup (map (address out) idxs) -> nth_error idxs k = Some i ->
    nth_error vs k = Some v -> assign m out idxs vs (address out i) = v.
  Proof.
    revert m vs k. induction idxs as [|j idxs IH]; intros m vs k N Hi Hv; [destruct k; discriminate|].
    cbn [map] in N. inversion N as [|? ? N1 N2]; subst. destruct k as [|k]; destruct vs as [|w vs]; try discriminate; cbn [nth_error] in *.
    - injection Hi as <-. injection Hv as <-. cbn [assign]. rewrite assign_other.
      + unfold write. now rewrite Nat.eqb_refl.
      + intros i Hi E. apply N1. rewrite <- E. now apply in_map.
    - cbn [assign]. now apply (IH _ _ k).
  Qed.

  (** What is read and written through a reshaped array. *)
  Lemma reshaped_memory a lead feat S new (m m' : mem V) used w used' :
    hub_array a lead feat S -> prod feat <= S -> positive_shape (lead ++ feat) -> positive_shape new ->
    run_reshape m used a new (reshape a new) = Some (m', w, used') ->
    (forall i, in_range a i -> address a i < used) ->
    a_shape w = new /\
    (forall i j, in_range a i -> in_range w j -> ravel (a_shape a) i = ravel new j -> m' (address w j) = m (address a i)) /\
    (forall q, q < used -> m' q = m q) /\
    forall values d, length values = prod new ->
    ((exists w', reshape a new = RView w') -> forall i, in_range a i ->
       assign m' w (all_indices new) values (address a i) = nth (ravel (a_shape a) i) values d) /\
    (reshape a new = RCopy -> forall q, q < used -> assign m' w (all_indices new) values q = m q).
  Proof.
    intros H Le P Pn R U. assert (Sh := hub_array_shape _ _ _ _ H). rewrite <- Sh in P.
    assert (Ep : prod (a_shape a) = prod new).
    { unfold reshape in R. destruct (prod (a_shape a) =? prod new) eqn:E; [now apply Nat.eqb_eq in E|discriminate R]. }
    destruct (reshape a new) as [w0| |] eqn:Er; [| |discriminate R].
    - cbn [run_reshape] in R. injection R as <- <- <-. destruct (reshape_sound a new w0 P Pn Er) as [S1 S2].
      split; [exact S1|]. split; [intros i j Hi Hj E; now rewrite (S2 i j Hi Hj E)|]. split; [reflexivity|].
      intros values d Hv. split; [|discriminate]. intros _ i Hi.
      assert (Lt := ravel_lt _ _ Hi). rewrite Ep in Lt.
      destruct (ravel_unravel new (ravel (a_shape a) i) Lt) as [J1 J2]. set (j := unravel new (ravel (a_shape a) i)) in *.
      assert (Hj : in_range w0 j) by (unfold in_range; now rewrite S1).
      rewrite (S2 i j Hi Hj (eq_sym J2)).
      apply (assign_at m w0 (all_indices new) values (ravel (a_shape a) i)).
      + apply NoDup_map_inj; [|apply all_indices_NoDup]. intros j1 j2 H1 H2 E. apply all_indices_spec in H1, H2.
        assert (L1 := ravel_lt _ _ H1). assert (L2 := ravel_lt _ _ H2). rewrite <- Ep in L1, L2.
        destruct (ravel_unravel _ _ L1) as [I1 I2]. destruct (ravel_unravel _ _ L2) as [K1 K2].
        assert (H1' : in_range w0 j1) by (unfold in_range; now rewrite S1).
        assert (H2' : in_range w0 j2) by (unfold in_range; now rewrite S1).
        rewrite <- (S2 _ j1 I1 H1' I2) in E. rewrite <- (S2 _ j2 K1 H2' K2) in E.
        apply (hub_distinct a lead feat S _ _ H Le I1 K1) in E.
        apply (ravel_inj new); [assumption|assumption|]. rewrite <- I2, <- K2. now rewrite E.
      + rewrite <- J2. now apply all_indices_nth.
      + rewrite (nth_error_nth' values d) by (rewrite Hv; exact Lt). reflexivity.
    - cbn [run_reshape] in R. injection R as <- <- <-.
      assert (Sw : a_shape (c_array used new) = new) by (unfold c_array, a_shape; cbn [a_dims]; apply c_dims_shape).
      assert (Aw : forall j, address (c_array used new) j = used + ravel new j) by reflexivity.
      split; [exact Sw|]. split; [|split].
      + intros i j Hi Hj E. rewrite Aw. unfold in_range in Hj. rewrite Sw in Hj. assert (L := ravel_lt _ _ Hj).
        replace (used <=? used + ravel new j) with true by (symmetry; apply Nat.leb_le; lia).
        replace (used + ravel new j <? used + prod new) with true by (symmetry; apply Nat.ltb_lt; lia). cbn [andb].
        replace (used + ravel new j - used) with (ravel (a_shape a) i) by lia. now rewrite unravel_ravel.
      + intros q Hq. replace (used <=? q) with false by (symmetry; apply Nat.leb_gt; exact Hq). reflexivity.
      + intros values d Hv. split; [intros [w' E]; discriminate E|]. intros _ q Hq. rewrite assign_other.
        * replace (used <=? q) with false by (symmetry; apply Nat.leb_gt; exact Hq). reflexivity.
        * intros i _. rewrite Aw. lia.
  Qed.
End Memory.

(** ** The theorems *)
Lemma lead_time b T B : valid b -> leading b = 2 -> lead_dims b T B = [T + Z.to_nat (bs_ctx b); B].
Proof.
  intros V. destruct (valid_parts b V) as [k [f [E [_ [BT [FS Hk]]]]]].
  unfold leading, lead_dims. rewrite E, filter_app, app_length, flat_map_app.
  replace (filter _ (ints f)) with (@nil sdim) by (unfold ints; clear; induction f as [|z f IH]; [reflexivity|cbn; auto]).
  replace (flat_map _ (ints f)) with (@nil nat) by (unfold ints; clear; induction f as [|z f IH]; [reflexivity|cbn; auto]).
  destruct k; cbn; try discriminate. reflexivity.
Qed.
Lemma fdims_nonempty b : valid b -> fdims b <> [].
Proof.
  intros V. destruct (valid_parts b V) as [k [f [E [Nf _]]]]. unfold fdims. rewrite E, flat_map_app.
  destruct f as [|z f]; [contradiction|]. destruct k; discriminate.
Qed.
Lemma removelast_last (l : list nat) : l <> [] -> prod (removelast l) * last l 0 = prod l /\
  (positive_shape l -> positive_shape (removelast l) /\ 1 <= last l 0).
Proof.
  intros N. assert (E := app_removelast_last 0 N). split.
  - rewrite E at 3. rewrite prod_app. unfold prod at 3. cbn [fold_right]. lia.
  - unfold positive_shape. intros P. rewrite E in P. apply Forall_app in P. destruct P as [P1 P2]. split; [exact P1|]. now inversion P2.
Qed.

(** A time slice of an array (such as Ha[:-1]) flattened over time. *)
Lemma slice_flat v T' B feat S lo hi new : hub_array v [T'; B] feat S -> positive_shape feat -> 1 <= B -> lo < hi ->
  positive_shape new -> (exists n2, new = ((hi - lo) * B) :: n2 /\ prod n2 = prod feat) ->
  exists w, reshape (slice 0 lo hi v) new = RView w /\ a_shape w = new /\
    forall t s f j, t < hi - lo -> s < B -> Forall2 lt f feat -> Forall2 lt j new ->
      ravel new j = (t * B + s) * prod feat + ravel feat f -> address w j = address v ((lo + t) :: s :: f).
Proof.
  intros H P HB Hlt Pn [n2 [E2 E]]. assert (Hs := hub_array_slice _ _ _ _ _ lo hi H).
  assert (Sh := hub_array_shape _ _ _ _ Hs).
  assert (Pa : positive_shape ([hi - lo; B] ++ feat)) by (cbn [app]; repeat constructor; [lia|lia|exact P]).
  assert (En : prod new = prod ([hi - lo; B] ++ feat)).
  { rewrite E2, prod_cons. cbn [app]. rewrite !prod_cons, E. lia. }
  destruct (hub_reshape _ _ _ _ new Hs Pa Pn En) as [[_ K] _].
  destruct K as [w Hw].
  { right. right. right. exists [(hi - lo) * B], n2. split; [exact E2|]. unfold prod. cbn [fold_right]. lia. }
  rewrite <- Sh in Pa. destruct (reshape_sound _ _ _ Pa Pn Hw) as [S1 S2]. exists w. split; [exact Hw|]. split; [exact S1|].
  intros t s f j Ht Hs' Hf Hj Ej. assert (N : a_dims v <> []) by (rewrite H; discriminate).
  rewrite <- (slice_address v lo hi t (s :: f) N). symmetry. apply S2.
  - unfold in_range. rewrite Sh. cbn [app]. repeat constructor; assumption.
  - unfold in_range. now rewrite S1.
  - rewrite Sh, Ej. unfold ravel. cbn [app c_dims dot_strides snd]. rewrite prod_cons. fold (ravel feat f). lia.
Qed.

(** C64: flatten_time and flatten_time_and_features give views of the buffers
    of a network and of their time slices (lo = 0 and hi = all steps: the whole
    buffer): row t * B + s is what the buffer holds for time t and sequence s. *)
Theorem C64_flatten_time : forall a layers hubs lay,
  named a -> instantiate a = SOk layers -> create_layout (map layout_layer layers) = LOk (hubs, lay) -> all_positive layers ->
  forall l cat x b T B v lo hi, In l layers -> In (x, b) (buffers_of l cat) -> leading b = 2 -> 1 <= B ->
  view layers hubs lay T B l cat x = Some v -> lo < hi <= T + Z.to_nat (bs_ctx b) ->
  slice 0 0 (T + Z.to_nat (bs_ctx b)) v = v /\
  exists w, flatten_time (slice 0 lo hi v) = RView w /\ a_shape w = ((hi - lo) * B) :: fdims b /\
    forall t s f, t < hi - lo -> s < B -> Forall2 lt f (fdims b) ->
      address w ((t * B + s) :: f) = address v ((lo + t) :: s :: f).
Proof.
  intros a layers hubs lay HN HI HL HP l cat x b T B v lo hi Hl Hb L2 HB Hv Hlt.
  assert (V := buffers_valid a layers HN HI l cat x b Hl Hb).
  destruct (buffer_hub_array a layers hubs lay HN HI HL HP l cat x b T B v Hl Hb Hv) as [h [_ [Ha _]]].
  rewrite (lead_time b T B V L2) in Ha. split; [exact (slice_all _ _ _ _ _ Ha)|].
  assert (P := positive_fdims layers l cat x b HP Hl Hb).
  assert (Sh := hub_array_shape _ _ _ _ (hub_array_slice _ _ _ _ _ lo hi Ha)). cbn [app] in Sh.
  destruct (slice_flat v _ B (fdims b) _ lo hi (((hi - lo) * B) :: fdims b) Ha P HB ltac:(lia)) as [w [W1 [W2 W3]]].
  - constructor; [nia|exact P].
  - exists (fdims b). auto.
  - exists w. split; [|split; [exact W2|]].
    + unfold flatten_time. rewrite Sh. assert (F := fdims_nonempty b V). destruct (fdims b); [contradiction|]. exact W1.
    + intros t s f Ht Hs Hf. apply W3; try assumption.
      * constructor; [nia|exact Hf].
      * unfold ravel. cbn [c_dims dot_strides snd]. reflexivity.
Qed.
Print Assumptions C64_flatten_time.

Theorem C64_flatten_time_and_features : forall a layers hubs lay,
  named a -> instantiate a = SOk layers -> create_layout (map layout_layer layers) = LOk (hubs, lay) -> all_positive layers ->
  forall l cat x b T B v lo hi, In l layers -> In (x, b) (buffers_of l cat) -> leading b = 2 -> 1 <= B ->
  view layers hubs lay T B l cat x = Some v -> lo < hi <= T + Z.to_nat (bs_ctx b) ->
  exists w, flatten_time_and_features (slice 0 lo hi v) = RView w /\ a_shape w = [(hi - lo) * B; nfeatures b] /\
    forall t s f, t < hi - lo -> s < B -> Forall2 lt f (fdims b) ->
      address w [t * B + s; ravel (fdims b) f] = address v ((lo + t) :: s :: f).
Proof.
  intros a layers hubs lay HN HI HL HP l cat x b T B v lo hi Hl Hb L2 HB Hv Hlt.
  assert (V := buffers_valid a layers HN HI l cat x b Hl Hb).
  destruct (buffer_hub_array a layers hubs lay HN HI HL HP l cat x b T B v Hl Hb Hv) as [h [_ [Ha _]]].
  rewrite (lead_time b T B V L2) in Ha.
  assert (P := positive_fdims layers l cat x b HP Hl Hb).
  assert (Sh := hub_array_shape _ _ _ _ (hub_array_slice _ _ _ _ _ lo hi Ha)). cbn [app] in Sh.
  rewrite (nfeatures_ok b V).
  assert (E1 : prod [prod (fdims b)] = prod (fdims b)) by (unfold prod at 1; cbn [fold_right]; lia).
  destruct (slice_flat v _ B (fdims b) _ lo hi [(hi - lo) * B; prod (fdims b)] Ha P HB ltac:(lia)) as [w [W1 [W2 W3]]].
  - constructor; [nia|]. constructor; [now apply prod_pos|constructor].
  - exists [prod (fdims b)]. auto.
  - exists w. split; [|split; [exact W2|]].
    + unfold flatten_time_and_features. rewrite Sh. assert (F := fdims_nonempty b V). destruct (fdims b); [contradiction|]. exact W1.
    + intros t s f Ht Hs Hf. apply W3; try assumption.
      * constructor; [nia|]. constructor; [now apply ravel_lt|constructor].
      * unfold ravel at 1. cbn [c_dims dot_strides snd]. rewrite E1. change (prod []) with 1. lia.
Qed.
Print Assumptions C64_flatten_time_and_features.

(** C64: flatten_all_but_last (also merge_tt, split_add_tt and masks of the
    feature shape) gives a view exactly if there is one row, or the feature axes
    but the last have length 1, or the buffer is alone in its hub; else a copy. *)
Theorem C64_flatten_all_but_last : forall a layers hubs lay,
  named a -> instantiate a = SOk layers -> create_layout (map layout_layer layers) = LOk (hubs, lay) -> all_positive layers ->
  forall l cat x b T B v, In l layers -> In (x, b) (buffers_of l cat) -> 1 <= T -> 1 <= B ->
  view layers hubs lay T B l cat x = Some v ->
  exists h, in_hub hubs lay l cat x h /\ nfeatures b <= h_size h /\
  ((exists w, flatten_all_but_last v = RView w) <->
   prod (lead_dims b T B) = 1 \/ prod (removelast (fdims b)) = 1 \/ h_size h = nfeatures b) /\
  (flatten_all_but_last v = RCopy \/ exists w, flatten_all_but_last v = RView w) /\
  mask_flatten (length (fdims b) + leading b - 1) v = flatten_all_but_last v.
Proof.
  intros a layers hubs lay HN HI HL HP l cat x b T B v Hl Hb HT HB Hv.
  assert (V := buffers_valid a layers HN HI l cat x b Hl Hb).
  destruct (buffer_hub_array a layers hubs lay HN HI HL HP l cat x b T B v Hl Hb Hv) as [h [Hh [Ha Le]]].
  exists h. split; [exact Hh|]. split; [exact Le|].
  assert (P := positive_fdims layers l cat x b HP Hl Hb). assert (PL := positive_lead b T B HT HB).
  assert (F := fdims_nonempty b V). assert (Sh := hub_array_shape _ _ _ _ Ha).
  destruct (removelast_last _ F) as [R1 R2]. destruct (R2 P) as [R3 R4].
  assert (Rl : removelast (lead_dims b T B ++ fdims b) = lead_dims b T B ++ removelast (fdims b)) by now apply removelast_app.
  assert (Ll : last (lead_dims b T B ++ fdims b) 0 = last (fdims b) 0).
  { destruct (fdims b) as [|d r] eqn:E; [contradiction|]. clear -r. induction (lead_dims b T B) as [|n k IH]; [reflexivity|].
    cbn [app]. rewrite <- IH. cbn [last]. destruct k; reflexivity. }
  assert (Ef : flatten_all_but_last v = reshape v [prod (lead_dims b T B) * prod (removelast (fdims b)); last (fdims b) 0]).
  { unfold flatten_all_but_last. rewrite Sh. destruct (lead_dims b T B ++ fdims b) as [|n r] eqn:E.
    - destruct (lead_dims b T B); [|discriminate]. cbn [app] in E. congruence.
    - rewrite Rl, Ll, prod_app. reflexivity. }
  assert (P1 : 1 <= prod (lead_dims b T B)) by now apply prod_pos. assert (P2 : 1 <= prod (removelast (fdims b))) by now apply prod_pos.
  rewrite Ef. destruct (hub_reshape v _ _ _ [prod (lead_dims b T B) * prod (removelast (fdims b)); last (fdims b) 0] Ha) as [K1 K2].
  - apply Forall_app. split; assumption.
  - constructor; [nia|]. constructor; [exact R4|constructor].
  - unfold prod at 1. cbn [fold_right]. rewrite prod_app, <- R1. nia.
  - split; [|split; [exact K2|]].
    + rewrite K1. rewrite (nfeatures_ok b V). split.
      * intros [H|[H|[H|[n1 [n2 [H1 H2]]]]]]; [now left|right; left; nia|right; right; exact H|].
        destruct n1 as [|y [|z n1]].
        -- left. now symmetry.
        -- injection H1 as H1 _. right. left. unfold prod in H2 at 1. cbn [fold_right] in H2. nia.
        -- injection H1 as H0 H1 H3. destruct n1; [|discriminate]. unfold prod in H2 at 1. cbn [fold_right] in H2. right. left. nia.
      * intros [H|[H|H]]; [now left| |right; right; left; exact H].
        right. right. right. exists [prod (lead_dims b T B) * prod (removelast (fdims b))], [last (fdims b) 0]. split; [reflexivity|].
        unfold prod at 1. cbn [fold_right]. nia.
    + unfold mask_flatten. rewrite Sh.
      assert (EL : length (lead_dims b T B) = leading b) by (rewrite <- (lead_ok b T B V); now apply leading_ok).
      assert (N : length (fdims b) + leading b - 1 = length (lead_dims b T B ++ removelast (fdims b))).
      { rewrite app_length, EL. assert (X := app_removelast_last 0 F). apply (f_equal (@length nat)) in X. rewrite app_length in X. cbn [length] in X. lia. }
      assert (Ea : lead_dims b T B ++ fdims b = (lead_dims b T B ++ removelast (fdims b)) ++ [last (fdims b) 0]).
      { rewrite <- app_assoc. f_equal. now apply app_removelast_last. }
      rewrite N, Ea. rewrite firstn_app, skipn_app, firstn_all, skipn_all, Nat.sub_diag. cbn [firstn skipn app]. rewrite app_nil_r, prod_app.
      f_equal. f_equal. unfold prod at 1. cbn [fold_right]. f_equal. lia.
Qed.
Print Assumptions C64_flatten_all_but_last.

(** C64: what is read through a flattened buffer is always the content of the
    buffer; what is written arrives in it exactly if it is a view (a copy is
    outside the memory of the network). *)
Theorem C64_memory : forall a layers hubs lay,
  named a -> instantiate a = SOk layers -> create_layout (map layout_layer layers) = LOk (hubs, lay) -> all_positive layers ->
  forall l cat x b T B v u, In l layers -> In (x, b) (buffers_of l cat) -> 1 <= T -> 1 <= B ->
  view layers hubs lay T B l cat x = Some v ->
  u = v \/ leading b = 2 /\ (exists lo hi, lo < hi <= T + Z.to_nat (bs_ctx b) /\ u = slice 0 lo hi v) ->
  forall V (m m' : mem V) used new w used', positive_shape new ->
  run_reshape m used u new (reshape u new) = Some (m', w, used') -> (forall i, in_range u i -> address u i < used) ->
  a_shape w = new /\
  (forall i j, in_range u i -> Forall2 lt j new -> ravel (a_shape u) i = ravel new j -> m' (address w j) = m (address u i)) /\
  forall values d, length values = prod new ->
    ((exists w', reshape u new = RView w') -> forall i, in_range u i ->
       assign m' w (all_indices new) values (address u i) = nth (ravel (a_shape u) i) values d) /\
    (reshape u new = RCopy -> forall q, q < used -> assign m' w (all_indices new) values q = m q).
Proof.
  intros a layers hubs lay HN HI HL HP l cat x b T B v u Hl Hb HT HB Hv Hu V m m' used new w used' Pn R U.
  assert (Vb := buffers_valid a layers HN HI l cat x b Hl Hb).
  destruct (buffer_hub_array a layers hubs lay HN HI HL HP l cat x b T B v Hl Hb Hv) as [h [_ [Ha Le]]].
  assert (P := positive_fdims layers l cat x b HP Hl Hb). assert (PL := positive_lead b T B HT HB).
  assert (Hub : exists lead, hub_array u lead (fdims b) (h_size h) /\ positive_shape lead).
  { destruct Hu as [->|[L2 [lo [hi [Hlt ->]]]]]; [eauto|]. rewrite (lead_time b T B Vb L2) in Ha.
    eexists. split; [exact (hub_array_slice _ _ _ _ _ lo hi Ha)|]. repeat constructor; lia. }
  destruct Hub as [lead [Hub PLd]]. rewrite (nfeatures_ok b Vb) in Le.
  destruct (reshaped_memory u lead (fdims b) (h_size h) new m m' used w used' Hub Le) as [K1 [K2 [K3 K4]]]; try assumption.
  { apply Forall_app. split; assumption. }
  split; [exact K1|]. split; [|exact K4]. intros i j Hi Hj E. apply K2; try assumption. unfold in_range. now rewrite K1.
Qed.
Print Assumptions C64_memory.

(** ** Examples and counterexamples *)
Definition all_positive_b (layers : list linst) : bool :=
  forallb (fun l => forallb (fun e => forallb (fun d => match d with DInt z => (0 <? z)%Z | _ => true end) (bs_shape (snd e)))
    (li_in l ++ li_out l ++ li_params l ++ li_int l)) layers.
Lemma all_positive_b_ok layers : all_positive_b layers = true -> all_positive layers.
Proof.
  unfold all_positive_b. rewrite forallb_forall. intros H l cat x b z Hl Hb Hz.
  assert (G := H _ Hl). rewrite forallb_forall in G.
  assert (I : In (x, b) (li_in l ++ li_out l ++ li_params l ++ li_int l)).
  { rewrite !in_app_iff. unfold buffers_of in Hb. repeat (destruct (String.eqb _ _); [tauto|]). destruct Hb. }
  apply G in I. cbn [snd] in I. rewrite forallb_forall in I. apply I in Hz. now apply Z.ltb_lt.
Qed.
Definition layer_of (a : karch) (name : string) : linst :=
  match find (fun l => String.eqb (li_name l) name) (layers_of a) with
  | Some l => l
  | None => mkInst CInput "" [] [] [] [] no_cfg [] []
  end.
Definition view_of (a : karch) (T B : nat) (name cat x : string) : arr :=
  match view (layers_of a) (fst (layout_of a)) (snd (layout_of a)) T B (layer_of a name) cat x with
  | Some v => v
  | None => mkArr 0 []
  end.

(** The outputs of BN and Drop have the shape (T, B, 2, 3); they go to FC. *)
Definition norm_net : karch :=
  [entry "Input" "Input" [("default", ["BN"; "Drop"])] [("out_shapes", KDict [("default", tb_shape [2%Z; 3%Z])])];
   entry "BN" "BatchNorm" [("default", ["FC"])] [];
   entry "Drop" "Dropout" [("default", ["FC"])] [];
   entry "FC" "FullyConnected" [("default", [])] [("size", KInt 2)]].
(** The output of A has the shape (T, B, 2, 3); it goes to Out, a SoftmaxCE
    layer, and to FC, as does the output of B. *)
Definition softmax_net : karch :=
  [entry "Input" "Input" [("default", ["A"; "B"]); ("targets", ["Out.targets"])]
     [("out_shapes", KDict [("default", tb_shape [2%Z; 3%Z]); ("targets", tb_shape [2%Z; 1%Z])])];
   entry "A" "Dropout" [("default", ["Out"; "FC"])] [];
   entry "B" "Dropout" [("default", ["FC"])] [];
   entry "FC" "FullyConnected" [("default", [])] [("size", KInt 2)];
   entry "Out" "SoftmaxCE" [("loss", ["Loss"])] [];
   entry "Loss" "Loss" [] []].
Ltac net_named := constructor; [apply nodup_b_ok; reflexivity|];
  let n := fresh "n" in let r := fresh "r" in let kw := fresh "kw" in let H := fresh "H" in let E := fresh "E" in
  intros n r kw H E; cbn [In norm_net softmax_net entry] in H;
  repeat (destruct H as [H|H]; [injection H as <- <- <-; try discriminate E; apply names_b_ok; reflexivity|]); destruct H.
Lemma norm_net_named : named norm_net.
Proof. net_named. Qed.
Lemma softmax_net_named : named softmax_net.
Proof. net_named. Qed.
Lemma norm_net_made : instantiate norm_net = SOk (layers_of norm_net) /\
  create_layout (map layout_layer (layers_of norm_net)) = LOk (fst (layout_of norm_net), snd (layout_of norm_net)) /\
  all_positive (layers_of norm_net).
Proof. split; [vm_compute; reflexivity|]. split; [vm_compute; reflexivity|]. apply all_positive_b_ok. vm_compute. reflexivity. Qed.
Lemma softmax_net_made : instantiate softmax_net = SOk (layers_of softmax_net) /\
  create_layout (map layout_layer (layers_of softmax_net)) = LOk (fst (layout_of softmax_net), snd (layout_of softmax_net)) /\
  all_positive (layers_of softmax_net).
Proof. split; [vm_compute; reflexivity|]. split; [vm_compute; reflexivity|]. apply all_positive_b_ok. vm_compute. reflexivity. Qed.

(** The hypotheses of the theorems hold, for the output of BN with 2 time steps
    of 2 sequences: 6 of 12 features of its hub.  Flattened over time it is a
    view with the strides 12, 3, 1; with flatten_all_but_last it is a copy. *)
Example C64_example :
  named norm_net /\ instantiate norm_net = SOk (layers_of norm_net) /\
  create_layout (map layout_layer (layers_of norm_net)) = LOk (fst (layout_of norm_net), snd (layout_of norm_net)) /\
  all_positive (layers_of norm_net) /\
  view (layers_of norm_net) (fst (layout_of norm_net)) (snd (layout_of norm_net)) 2 2 (layer_of norm_net "BN") "outputs" "default" =
    Some (view_of norm_net 2 2 "BN" "outputs" "default") /\
  a_dims (view_of norm_net 2 2 "BN" "outputs" "default") = [(2, 24); (2, 12); (2, 3); (3, 1)] /\
  (exists w, flatten_time (view_of norm_net 2 2 "BN" "outputs" "default") = RView w /\ a_dims w = [(4, 12); (2, 3); (3, 1)]) /\
  (exists w, flatten_time_and_features (view_of norm_net 2 2 "BN" "outputs" "default") = RView w /\ a_dims w = [(4, 12); (6, 1)]) /\
  flatten_all_but_last (view_of norm_net 2 2 "BN" "outputs" "default") = RCopy /\
  (exists w, flatten_all_but_last (view_of norm_net 1 1 "BN" "outputs" "default") = RView w) /\
  (exists w, flatten_all_but_last (view_of norm_net 2 2 "BN" "internals" "x_hat") = RView w).
Proof.
  destruct norm_net_made as [H1 [H2 H3]]. split; [apply norm_net_named|]. split; [exact H1|]. split; [exact H2|]. split; [exact H3|].
  split; [vm_compute; reflexivity|]. split; [vm_compute; reflexivity|].
  split; [eexists; split; vm_compute; reflexivity|]. split; [eexists; split; vm_compute; reflexivity|].
  split; [vm_compute; reflexivity|]. split; [eexists; vm_compute; reflexivity|]. eexists; vm_compute; reflexivity.
Qed.

(** "Whatever a layer writes to the flattened array arrives in the buffer". *)
Definition writes_arrive (c : cls) (cat x : string) : Prop :=
  forall a layers hubs lay,
  named a -> instantiate a = SOk layers -> create_layout (map layout_layer layers) = LOk (hubs, lay) -> all_positive layers ->
  forall l T B v, In l layers -> li_cls l = c -> 1 <= T -> 1 <= B -> view layers hubs lay T B l cat x = Some v ->
  forall (m m' : mem Z) used new w used' values, new = [prod (removelast (a_shape v)); last (a_shape v) 0] ->
  run_reshape m used v new (flatten_all_but_last v) = Some (m', w, used') -> (forall i, in_range v i -> address v i < used) ->
  length values = prod new ->
  forall i, in_range v i -> assign m' w (all_indices new) values (address v i) = nth (ravel (a_shape v) i) values 0%Z.

Lemma layer_of_In a name : existsb (fun l => String.eqb (li_name l) name) (layers_of a) = true -> In (layer_of a name) (layers_of a).
Proof.
  unfold layer_of. intros H. destruct (find _ (layers_of a)) as [l|] eqn:E; [now apply find_some in E|].
  apply existsb_exists in H. destruct H as [l [H1 H2]]. apply (find_none _ _ E) in H1. congruence.
Qed.
Lemma nth_repeat_lt {A} (x d : A) n k : k < n -> nth k (repeat x n) d = x.
Proof. revert k. induction n as [|n IH]; intros k H; [lia|]. destruct k; [reflexivity|]. cbn. apply IH. lia. Qed.
Lemma copy_loses a layers hubs lay l c cat x T B v i :
  named a -> instantiate a = SOk layers -> create_layout (map layout_layer layers) = LOk (hubs, lay) -> all_positive layers ->
  In l layers -> li_cls l = c -> 1 <= T -> 1 <= B -> view layers hubs lay T B l cat x = Some v ->
  flatten_all_but_last v = RCopy -> a_shape v <> [] -> in_range v i -> ~ writes_arrive c cat x.
Proof.
  intros HN HI HL HP Hl Hc HT HB Hv F Ne Hi W. set (new := [prod (removelast (a_shape v)); last (a_shape v) 0]).
  set (used := S (list_max (map (address v) (all_indices (a_shape v))))).
  assert (U : forall i, in_range v i -> address v i < used).
  { intros j Hj. apply all_indices_spec in Hj. apply (in_map (address v)) in Hj. unfold used. apply Nat.lt_succ_r.
    assert (X := proj1 (list_max_le (map (address v) (all_indices (a_shape v))) _) (le_n _)). rewrite Forall_forall in X. now apply X. }
  destruct (run_reshape (fun _ => 0%Z) used v new RCopy) as [[[m' w] used']|] eqn:E; [|discriminate E].
  assert (Y := W _ _ _ _ HN HI HL HP l T B v Hl Hc HT HB Hv (fun _ => 0%Z) m' used new w used' (repeat 1%Z (prod new)) eq_refl).
  rewrite F in Y. specialize (Y E U (repeat_length _ _) i Hi). cbn [run_reshape] in E. injection E as <- <- <-.
  assert (En : prod new = prod (a_shape v)).
  { unfold new. destruct (removelast_last _ Ne) as [R _]. rewrite <- R. unfold prod at 1. cbn [fold_right]. lia. }
  rewrite assign_other in Y.
  - rewrite nth_repeat_lt in Y; [|rewrite En; now apply ravel_lt].
    match type of Y with context [if ?b then _ else _] => destruct b end; discriminate Y.
  - intros j _. change (address (c_array used new) j) with (used + ravel new j). assert (U' := U i Hi). lia.
Qed.

(** C64 does not hold for all flattening: a BatchNorm layer writes its outputs
    to a copy (batch_normalization_layer.py:62, 104-105), a SoftmaxCE layer its
    input deltas (softmax_ce_layer.py:106, 114). *)
Theorem C64_batch_norm_refuted : ~ writes_arrive CBatchNorm "outputs" "default".
Proof.
  destruct norm_net_made as [H1 [H2 H3]].
  apply (copy_loses norm_net _ _ _ (layer_of norm_net "BN") CBatchNorm "outputs" "default" 2 2
    (view_of norm_net 2 2 "BN" "outputs" "default") [0; 0; 0; 0] norm_net_named H1 H2 H3).
  - apply layer_of_In. vm_compute. reflexivity.
  - vm_compute. reflexivity.
  - lia.
  - lia.
  - vm_compute. reflexivity.
  - vm_compute. reflexivity.
  - vm_compute. discriminate.
  - apply all_indices_spec. vm_compute. now left.
Qed.
Print Assumptions C64_batch_norm_refuted.

Theorem C64_softmax_refuted : ~ writes_arrive CSoftmaxCE "input_deltas" "default".
Proof.
  destruct softmax_net_made as [H1 [H2 H3]].
  apply (copy_loses softmax_net _ _ _ (layer_of softmax_net "Out") CSoftmaxCE "input_deltas" "default" 2 2
    (view_of softmax_net 2 2 "Out" "input_deltas" "default") [0; 0; 0; 0] softmax_net_named H1 H2 H3).
  - apply layer_of_In. vm_compute. reflexivity.
  - vm_compute. reflexivity.
  - lia.
  - lia.
  - vm_compute. reflexivity.
  - vm_compute. reflexivity.
  - vm_compute. discriminate.
  - apply all_indices_spec. vm_compute. now left.
Qed.
Print Assumptions C64_softmax_refuted.
