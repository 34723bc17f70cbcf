(** C63: the buffers of a network built from an architecture. *)
From Coq Require Import String Ascii List ZArith QArith Bool Lia Permutation.
From Verif Require Import HubModel HubProofs LayoutModel LayoutProofs LayoutProps BuffersModel BuffersProofs BuffersProps.
From Verif Require Import PyBase PyFacts UtilsModel UtilsProofs NamesModel ArchModel ArchProofs ShapesModel ShapesProofs SetupModel PassShapesModel SetupProofs PassShapesProofs SetupProps InstanceProofs InstanceProps NetLayoutExtra NetLayoutProofs.
Import ListNotations.
Open Scope string_scope.
Open Scope list_scope.
Open Scope nat_scope.

(** The buffers of a layer in each category; the deltas and gradients have the
    shapes of the values they belong to. *)
Definition buffers_of (l : linst) (cat : string) : list (string * bstruct) :=
  if String.eqb cat "inputs" then li_in l
  else if String.eqb cat "input_deltas" then li_in l
  else if String.eqb cat "outputs" then li_out l
  else if String.eqb cat "output_deltas" then li_out l
  else if String.eqb cat "parameters" then li_params l
  else if String.eqb cat "gradients" then li_params l
  else if String.eqb cat "internals" then li_int l else [].

(** The shape of the array for [T] time steps and [B] sequences. *)
Definition array_shape (b : bstruct) (T B : nat) : list nat :=
  map (fun d => match d with DT => T + Z.to_nat (bs_ctx b) | DB => B | DInt z => Z.to_nat z | _ => 0 end) (bs_shape b).
(** Number of features: the product of all dimensions but time and batch. *)
Definition nfeatures (b : bstruct) : nat :=
  fold_right Nat.mul 1 (map (fun d => match d with DInt z => Z.to_nat z | _ => 1 end) (bs_shape b)).

(** No dimension is negative. *)
Definition nonnegative (layers : list linst) : Prop :=
  forall l cat x b z, In l layers -> In (x, b) (buffers_of l cat) -> In (DInt z) (bs_shape b) -> (0 <= z)%Z.

(** The delta buffer of a buffer. *)
Definition delta_of (cat x : string) : string * string :=
  if String.eqb cat "inputs" then ("input_deltas", x)
  else if String.eqb cat "outputs" then ("output_deltas", x)
  else if String.eqb cat "parameters" then ("gradients", x)
  else (cat, ("d" ++ x)%string).

Lemma dims_int_nat f : map dim_nat (ints f) = map Z.to_nat f.
Proof. unfold ints. rewrite map_map. reflexivity. Qed.
Lemma valid_parts b : valid b -> exists k f, bs_shape b = prefix k ++ ints f /\ f <> [] /\
  buffer_type (bs_shape b) = match k with Fixed => 0 | Batch => 1 | Time => 2 end /\ feature_shape (bs_shape b) = ints f /\
  (bs_ctx b <> 0%Z -> k = Time).
Proof.
  unfold valid. intros V. apply structure_valid_spec in V. destruct V as [k [f [c [[E Nf] [[= <-] [Hc Hk]]]]]].
  exists k, f. split; [exact E|]. split; [exact Nf|].
  assert (N1 : ~ In DT (ints f)) by (apply not_in_ints; discriminate).
  assert (N2 : ~ In DB (ints f)) by (apply not_in_ints; discriminate).
  assert (BT : buffer_type (prefix k ++ ints f) = match k with Fixed => 0 | Batch => 1 | Time => 2 end).
  { unfold buffer_type. destruct k; cbn [prefix app].
    - destruct (ShapesModel.dmem DT (ints f)) eqn:D1; [apply dmem_In in D1; contradiction|].
      destruct (ShapesModel.dmem DB (ints f)) eqn:D2; [apply dmem_In in D2; contradiction|]. reflexivity.
    - destruct (ShapesModel.dmem DT (DB :: ints f)) eqn:D1; [apply dmem_In in D1; destruct D1; [discriminate|contradiction]|]. reflexivity.
    - reflexivity. }
  rewrite E. split; [exact BT|]. split; [|exact Hk].
  unfold feature_shape. rewrite BT. destruct k; reflexivity.
Qed.
Lemma shape_ok b T B : valid b -> lead_shape (layout_struct b) T B ++ ls_feat (layout_struct b) = array_shape b T B.
Proof.
  intros V. destruct (valid_parts b V) as [k [f [E [_ [BT [FS Hk]]]]]].
  unfold lead_shape, array_shape, layout_struct. cbn [ls_btype ls_feat ls_ctx]. rewrite BT, FS, dims_int_nat, E, map_app.
  unfold ints. rewrite map_map. destruct k; reflexivity.
Qed.
Lemma features_ok b : valid b -> ls_size (layout_struct b) = nfeatures b.
Proof.
  intros V. destruct (valid_parts b V) as [k [f [E [_ [BT [FS Hk]]]]]].
  unfold ls_size, layout_struct, nfeatures. cbn [ls_feat]. rewrite FS, dims_int_nat, E, map_app.
  unfold ints. rewrite map_map. destruct k; cbn [prefix map app fold_right]; rewrite ?Nat.mul_1_l; reflexivity.
Qed.
Lemma nfeatures_shape b k f : bs_shape b = prefix k ++ ints f -> nfeatures b = fold_right Nat.mul 1 (map Z.to_nat f).
Proof.
  intros E. unfold nfeatures. rewrite E, map_app. unfold ints. rewrite map_map. destruct k; cbn [prefix map app fold_right]; rewrite ?Nat.mul_1_l; reflexivity.
Qed.

(** The array of a buffer in memory. *)
Definition view (layers : list linst) (hubs : list hub) (lay : slices) (T B : nat) (l : linst) (cat x : string) : option arr :=
  array_view (map layout_layer layers) hubs lay T B (path3 (li_name l) cat x).

Section Net.
  Variables (a : karch) (layers : list linst) (hubs : list hub) (lay : slices).
  Hypothesis HN : named a.
  Hypothesis HI : instantiate a = SOk layers.
  Hypothesis HL : create_layout (map layout_layer layers) = LOk (hubs, lay).
  Let ls := map layout_layer layers.

  Lemma net_W : wf_layers ls.
  Proof. exact (net_wf _ _ _ HN HI HL). Qed.
  Lemma net_sound l : In l layers -> sound_layer l.
  Proof. intros Hl. destruct (instantiate_names _ _ HN HI) as [_ [_ H]]. now apply H. Qed.
  Lemma net_layer l : In l layers -> In (layout_layer l) ls.
  Proof. apply in_map. Qed.
  Lemma net_unique l l' : In l layers -> In l' layers -> li_name l = li_name l' -> l = l'.
  Proof.
    intros Hl Hl' E. destruct (instantiate_names _ _ HN HI) as [N1 _].
    clear -N1 Hl Hl' E. induction layers as [|x r IH]; [destruct Hl|].
    cbn [map] in N1. inversion_clear N1 as [|? ? X Y].
    destruct Hl as [->|Hl], Hl' as [->|Hl']; auto; exfalso; apply X.
    - rewrite E. now apply in_map.
    - rewrite <- E. now apply in_map.
  Qed.
  Lemma buffers_valid l cat x b : In l layers -> In (x, b) (buffers_of l cat) -> valid b.
  Proof.
    intros Hl Hb. assert (S := net_sound l Hl). unfold buffers_of in Hb.
    repeat (destruct (String.eqb _ _); [first [now apply (sl_vin _ S x)|now apply (sl_vout _ S x)|now apply (sl_vparams _ S x)|now apply (sl_vint _ S x)]|]).
    destruct Hb.
  Qed.
  Definition alike (st : lstruct) (b : bstruct) : Prop :=
    ls_btype st = ls_btype (layout_struct b) /\ ls_feat st = ls_feat (layout_struct b) /\ ls_ctx st = ls_ctx (layout_struct b).
  Lemma entry_at l cat x b : In l layers -> In (x, b) (buffers_of l cat) ->
    exists d st, In (cat, d) (cat_entries (layout_layer l)) /\ In (x, st) d /\ alike st b.
  Proof.
    intros Hl Hb. unfold buffers_of in Hb. unfold alike.
    assert (F : forall d, In (x, b) d -> In (x, layout_struct b) (layout_dict d)) by (intros d Hd; apply layout_dict_In; eauto).
    destruct (String.eqb_spec cat "inputs") as [->|].
    { exists (sorted_entries (layout_dict (li_in l))), (layout_struct b). split; [cbn; tauto|]. split; [apply sorted_entries_In; auto|auto]. }
    destruct (String.eqb_spec cat "input_deltas") as [->|].
    { exists (backward_entries (sorted_entries (layout_dict (li_in l)))), (backward_only (layout_struct b)). split; [cbn; tauto|].
      split; [|auto]. apply backward_entries_In. exists (layout_struct b). split; [apply sorted_entries_In; auto|reflexivity]. }
    destruct (String.eqb_spec cat "outputs") as [->|].
    { exists (layout_dict (li_out l)), (layout_struct b). split; [cbn; tauto|]. auto. }
    destruct (String.eqb_spec cat "output_deltas") as [->|].
    { exists (backward_entries (layout_dict (li_out l))), (backward_only (layout_struct b)). split; [cbn; tauto|].
      split; [|auto]. apply backward_entries_In. exists (layout_struct b). auto. }
    destruct (String.eqb_spec cat "parameters") as [->|].
    { exists (layout_dict (li_params l)), (layout_struct b). split; [cbn; tauto|]. auto. }
    destruct (String.eqb_spec cat "gradients") as [->|].
    { exists (backward_entries (layout_dict (li_params l))), (backward_only (layout_struct b)). split; [cbn; tauto|].
      split; [|auto]. apply backward_entries_In. exists (layout_struct b). auto. }
    destruct (String.eqb_spec cat "internals") as [->|]; [|destruct Hb].
    exists (layout_dict (li_int l)), (layout_struct b). split; [cbn; tauto|]. auto.
  Qed.
  Lemma stub_at l cat x b : In l layers -> In (x, b) (buffers_of l cat) ->
    exists st, dget (path3 (li_name l) cat x) (stub ls) = Some st /\ alike st b /\
      smem (path3 (li_name l) cat x) ["parameters"; "gradients"] = false.
  Proof.
    intros Hl Hb. destruct (entry_at l cat x b Hl Hb) as [d [st [Hd [Hx Ha]]]].
    exists st. split; [|split; [exact Ha|]].
    - apply In_dget; [apply stub_NoDup, net_W|]. apply stub_In. exists (layout_layer l), cat, d, x.
      split; [now apply net_layer|]. auto.
    - apply (not_root ls net_W (layout_layer l) cat d x); [now apply net_layer|exact Hd|now apply (in_map fst) in Hx].
  Qed.
  Lemma alike_shape st b T B : valid b -> alike st b -> lead_shape st T B ++ ls_feat st = array_shape b T B.
  Proof.
    intros V [H1 [H2 H3]]. rewrite <- (shape_ok b T B V). unfold lead_shape. rewrite H1, H2, H3. reflexivity.
  Qed.
  Lemma alike_size st b : valid b -> alike st b -> ls_size st = nfeatures b.
  Proof. intros V [H1 [H2 H3]]. rewrite <- (features_ok b V). unfold ls_size. now rewrite H2. Qed.

  (** ** The sources of an input *)
  Definition conns (l : linst) (n : string) : list connection := filter (fun c => String.eqb (c_in c) n) (li_incoming l).
  Definition source_path (c : connection) : string :=
    match npath [c_start c; "outputs"; c_out c] with LOk p => p | LErr _ => "" end.

  Lemma net_cns : exists cns, collect_all_connections (raw_of a) = Some cns.
  Proof. destruct (instantiate_made _ _ HI) as [cns [order [HC _]]]. eauto. Qed.
  Lemma incoming_NoDup l : In l layers -> NoDup (li_incoming l).
  Proof.
    intros Hl. destruct (instantiate_made _ _ HI) as [cns [order [_ [_ [_ [_ H]]]]]].
    destruct (H l Hl) as [pre [r [kw [ty [c [ins [_ [_ [_ [_ [_ Hm]]]]]]]]]]].
    destruct (make_layer_name _ _ _ _ _ _ _ Hm) as [_ [_ [-> _]]]. apply NoDup_nodup.
  Qed.
  Lemma output_path l' c s : In l' layers -> li_name l' = c_start c -> output_of l' (c_out c) s ->
    exists cat x, out_ref (c_out c) (cat, x) /\ In (x, s) (buffers_of l' cat) /\ source_path c = path3 (li_name l') cat x.
  Proof.
    intros Hl' E4 E6. destruct (instantiate_names _ _ HN HI) as [_ [N2 _]].
    assert (Co : component "outputs") by (apply category_component; cbn; tauto).
    assert (S := net_sound _ Hl').
    unfold source_path. rewrite <- E4. destruct E6 as [x s Hx|x s Hx|x s Hx].
    - assert (Cx : component x).
      { destruct (sl_out _ S) as [_ F]. rewrite Forall_forall in F. apply F. now apply (in_map fst) in Hx. }
      exists "outputs", x. split; [now constructor|]. split; [exact Hx|]. now rewrite (npath3 _ _ _ (N2 _ Hl') Co Cx).
    - assert (Cx : component x).
      { destruct (sl_int _ S) as [_ F]. rewrite Forall_forall in F. apply F. now apply (in_map fst) in Hx. }
      exists "internals", x. split; [exact (out_internal x Cx)|]. split; [exact Hx|].
      assert (Ci : component "internals") by (apply category_component; cbn; tauto).
      assert (Y := npath_dotdot _ _ _ _ (N2 _ Hl') Co Ci Cx).
      change (dotdot_path "internals" x) with ("..internals." ++ x)%string in Y. now rewrite Y.
    - assert (Cx : component x).
      { destruct (sl_params _ S) as [_ F]. rewrite Forall_forall in F. apply F. now apply (in_map fst) in Hx. }
      exists "parameters", x. split; [exact (out_parameter x Cx)|]. split; [exact Hx|].
      assert (Ci : component "parameters") by (apply category_component; cbn; tauto).
      assert (Y := npath_dotdot _ _ _ _ (N2 _ Hl') Co Ci Cx).
      change (dotdot_path "parameters" x) with ("..parameters." ++ x)%string in Y. now rewrite Y.
  Qed.
  (** What is known about one connection. *)
  Lemma con_source l c : In l layers -> In c (li_incoming l) ->
    exists l' cat x s, In l' layers /\ li_name l' = c_start c /\ In c (li_outgoing l') /\ c_end c = li_name l /\
      out_ref (c_out c) (cat, x) /\ In (x, s) (buffers_of l' cat) /\ output_of l' (c_out c) s /\
      source_path c = path3 (li_name l') cat x.
  Proof.
    intros Hl Hc. destruct net_cns as [cns HC]. destruct (C62_connections _ _ _ HN HI HC) as [K1 K2].
    apply (K1 _ _ Hl) in Hc. destruct Hc as [Hc Ee]. destruct (K2 _ Hc) as [pre [le [post [l' [E1 [E2 [E3 [E4 [E5 [s E6]]]]]]]]]].
    assert (Hl' : In l' layers) by (rewrite E1; apply in_or_app; now left).
    destruct (output_path _ _ _ Hl' E4 E6) as [cat [x [X1 [X2 X3]]]]. exists l', cat, x, s.
    split; [exact Hl'|]. split; [exact E4|]. split; [apply (K1 _ _ Hl'); auto|]. auto 8.
  Qed.

  Lemma out_ref_back o o' p : out_ref o p -> out_ref o' p -> o = o'.
  Proof. intros H1 H2. inversion H1; subst; inversion H2; subst; reflexivity. Qed.
  Lemma ref_comp l' cat x s : In l' layers -> In (x, s) (buffers_of l' cat) -> component (li_name l') /\ component cat /\ component x.
  Proof.
    intros Hl' Hx. destruct (entry_at _ _ _ _ Hl' Hx) as [d [st [Hd [Hs _]]]].
    exact (entry_comp ls net_W (layout_layer l') cat d x (net_layer _ Hl') Hd (in_map fst _ _ Hs)).
  Qed.
  Lemma source_path_inj l n c c' : In l layers -> In c (conns l n) -> In c' (conns l n) -> source_path c = source_path c' -> c = c'.
  Proof.
    intros Hl Hc Hc' E. apply filter_In in Hc, Hc'. destruct Hc as [Hc E1], Hc' as [Hc' E2].
    apply String.eqb_eq in E1, E2.
    destruct (con_source _ _ Hl Hc) as [l1 [cat1 [x1 [s1 [A1 [A2 [A3 [A4 [A5 [A6 [A7 A8]]]]]]]]]]].
    destruct (con_source _ _ Hl Hc') as [l2 [cat2 [x2 [s2 [B1 [B2 [B3 [B4 [B5 [B6 [B7 B8]]]]]]]]]]].
    rewrite A8, B8 in E. destruct (ref_comp _ _ _ _ A1 A6) as [C1 [C2 C3]]. destruct (ref_comp _ _ _ _ B1 B6) as [D1 [D2 D3]].
    apply path3_inj in E; try assumption. destruct E as [F1 [F2 F3]]. subst cat2 x2.
    assert (F4 := out_ref_back _ _ _ A5 B5). destruct c, c'. cbn in *. congruence.
  Qed.
  Lemma source_paths_NoDup l n : In l layers -> NoDup (map source_path (conns l n)).
  Proof.
    intros Hl. apply NoDup_map_inj; [intros c c'; now apply (source_path_inj l n)|].
    apply NoDup_filter. now apply incoming_NoDup.
  Qed.

  Lemma net_connected l n s : In l layers -> In n (map fst (li_in l)) ->
    (connected ls (layout_layer l) n s <-> In s (map source_path (conns l n))).
  Proof.
    intros Hl Hn. destruct net_cns as [cns HC]. destruct (C62_connections _ _ _ HN HI HC) as [K1 K2].
    rewrite in_map_iff. split.
    - intros [k [c [cat [y [Hk [Hc [Ho [Ee [Ei ->]]]]]]]]].
      apply in_map_iff in Hk. destruct Hk as [l' [<- Hl']]. cbn [layout_layer LayoutModel.l_outgoing] in Hc.
      apply in_map_iff in Hc. destruct Hc as [c0 [<- Hc]]. cbn [layout_conn c_output LayoutModel.c_end c_input layout_layer LayoutModel.l_name] in *.
      assert (Hi : In c0 (li_incoming l)). { apply (K1 _ _ Hl). apply (K1 _ _ Hl') in Hc. tauto. }
      exists c0. split.
      + destruct (con_source _ _ Hl Hi) as [l1 [cat1 [x1 [s1 [A1 [A2 [A3 [A4 [A5 [A6 [A7 A8]]]]]]]]]]]. rewrite A8.
        apply (K1 _ _ Hl') in Hc. assert (l1 = l') by (apply net_unique; [assumption|assumption|]; destruct Hc; congruence). subst l1.
        assert (E := out_ref_fun _ _ _ A5 Ho). congruence.
      + apply filter_In. split; [exact Hi|]. now apply String.eqb_eq.
    - intros [c [<- Hc]]. apply filter_In in Hc. destruct Hc as [Hc E]. apply String.eqb_eq in E.
      destruct (con_source _ _ Hl Hc) as [l1 [cat1 [x1 [s1 [A1 [A2 [A3 [A4 [A5 [A6 [A7 A8]]]]]]]]]]].
      exists (layout_layer l1), (layout_conn c), cat1, x1. split; [now apply net_layer|].
      split; [cbn [layout_layer LayoutModel.l_outgoing]; now apply in_map|]. cbn. auto.
  Qed.

  (** ** Sizes and scaling of the sources *)
  Lemma sum_lasts fixed lasts : Forall (fun z => 0 <= z)%Z lasts ->
    fold_right Nat.mul 1 (map Z.to_nat (fixed ++ [ShapesProofs.sum lasts])) =
    BuffersModel.sum (map (fun z => fold_right Nat.mul 1 (map Z.to_nat (fixed ++ [z]))) lasts).
  Proof.
    assert (E : forall z, fold_right Nat.mul 1 (map Z.to_nat (fixed ++ [z])) = fold_right Nat.mul 1 (map Z.to_nat fixed) * Z.to_nat z).
    { intros z. rewrite map_app. cbn [map]. induction (map Z.to_nat fixed) as [|m r IH]; cbn [app fold_right]; [lia|]. rewrite IH. lia. }
    intros F. rewrite E. rewrite (map_ext _ _ E). generalize (fold_right Nat.mul 1 (map Z.to_nat fixed)) as p. intros p.
    assert (G : Z.to_nat (ShapesProofs.sum lasts) = BuffersModel.sum (map Z.to_nat lasts) /\ (0 <= ShapesProofs.sum lasts)%Z).
    { unfold ShapesProofs.sum, BuffersModel.sum. induction F as [|z r Hz F IH]; cbn [fold_right map]; [split; [reflexivity|lia]|]. destruct IH. split; lia. }
    destruct G as [-> _]. unfold BuffersModel.sum. clear F. induction lasts as [|z r IH]; cbn [fold_right map]; nia.
  Qed.

  Hypothesis HZ : nonnegative layers.
  Lemma input_sources l n b : In l layers -> In (n, b) (li_in l) ->
    conns l n <> [] /\ bs_ctx b = 0%Z /\
    (forall c, In c (conns l n) -> exists st, dget (source_path c) (stub ls) = Some st /\ ls_btype st = ls_btype (layout_struct b)) /\
    nfeatures b = BuffersModel.sum (map (fun c => BuffersProofs.features ls (source_path c)) (conns l n)).
  Proof.
    intros Hl Hb. destruct (C62_inputs _ _ _ _ _ HN HI Hl Hb) as [sources [k [fixed [lasts [F [NE [C [E Ec]]]]]]]].
    change (filter (fun c => String.eqb (c_in c) n) (li_incoming l)) with (conns l n) in F.
    assert (G : Forall2 (fun c s => exists l' cat x st, In l' layers /\ In (x, s) (buffers_of l' cat) /\ dget (source_path c) (stub ls) = Some st /\ alike st s) (conns l n) sources).
    { eapply Forall2_imp; [|exact F]. intros c s _ [l' [H1 [H2 H3]]].
      destruct (output_path _ _ _ H1 H2 H3) as [cat [x [X1 [X2 X3]]]]. destruct (stub_at _ _ _ _ H1 X2) as [st [Y1 [Y2 _]]].
      exists l', cat, x, st. rewrite X3. auto. }
    assert (V : valid b) by exact (buffers_valid l "inputs" n b Hl Hb).
    assert (BT : forall b' z, valid b' -> bs_shape b' = prefix k ++ ints (fixed ++ [z]) -> ls_btype (layout_struct b') = match k with Fixed => 0 | Batch => 1 | Time => 2 end).
    { intros b' z V' E'. destruct (valid_parts b' V') as [k' [f' [E'' [_ [B' [_ _]]]]]]. cbn [layout_struct ls_btype]. rewrite B'.
      rewrite E' in E''. clear -E''. destruct k, k'; try reflexivity; exfalso; cbn [prefix app] in E'';
        destruct fixed; destruct f'; discriminate E''. }
    split; [|split; [exact Ec|split]].
    - intros X. rewrite X in F. inversion F; subst. contradiction.
    - intros c Hc. unfold compatible in C.
      assert (X : forall cs ss ns, Forall2 (fun c s => exists l' cat x st, In l' layers /\ In (x, s) (buffers_of l' cat) /\ dget (source_path c) (stub ls) = Some st /\ alike st s) cs ss ->
         map bs_shape ss = map (fun n => prefix k ++ ints (fixed ++ [n])) ns -> In c cs ->
         exists st, dget (source_path c) (stub ls) = Some st /\ ls_btype st = match k with Fixed => 0 | Batch => 1 | Time => 2 end).
      { intros cs ss ns FF. revert ns. induction FF as [|c0 s0 cs ss Hx FF IH]; intros ns Es Hin; [destruct Hin|].
        destruct ns as [|z ns]; [discriminate|]. cbn [map] in Es. injection Es as Es1 Es2. destruct Hin as [<-|Hin]; [|eauto].
        destruct Hx as [l' [cat [x [st [H1 [H2 [H3 H4]]]]]]]. exists st. split; [exact H3|].
        destruct H4 as [H4 _]. rewrite H4. apply (BT s0 z); [eapply buffers_valid; eauto|exact Es1]. }
      rewrite (BT b (ShapesProofs.sum lasts) V E). eapply X; eauto.
    - rewrite (nfeatures_shape b k _ E). unfold compatible in C.
      assert (X : forall cs ss ns, Forall2 (fun c s => exists l' cat x st, In l' layers /\ In (x, s) (buffers_of l' cat) /\ dget (source_path c) (stub ls) = Some st /\ alike st s) cs ss ->
         map bs_shape ss = map (fun n => prefix k ++ ints (fixed ++ [n])) ns ->
         Forall (fun z => 0 <= z)%Z ns /\
         map (fun z => fold_right Nat.mul 1 (map Z.to_nat (fixed ++ [z]))) ns = map (fun c => BuffersProofs.features ls (source_path c)) cs).
      { intros cs ss ns FF. revert ns. induction FF as [|c0 s0 cs ss Hx FF IH]; intros ns Es.
        - destruct ns; [|discriminate]. split; [constructor|reflexivity].
        - destruct ns as [|z ns]; [discriminate|]. cbn [map] in Es. injection Es as Es1 Es2. destruct (IH _ Es2) as [I1 I2].
          destruct Hx as [l' [cat [x [st [H1 [H2 [H3 H4]]]]]]]. split.
          + constructor; [|exact I1]. apply (HZ l' cat x s0 z H1 H2). rewrite Es1. apply in_or_app. right. unfold ints.
            apply in_map, in_or_app. right. now left.
          + cbn [map]. f_equal; [|exact I2]. unfold BuffersProofs.features. rewrite H3.
            assert (V0 := buffers_valid _ _ _ _ H1 H2). rewrite (alike_size _ _ V0 H4). now rewrite (nfeatures_shape _ _ _ Es1). }
      destruct (X _ _ _ G C) as [X1 X2]. rewrite (sum_lasts _ _ X1), X2. reflexivity.
  Qed.

  Lemma to_inputs lcns l n s : get_connections ls = LOk lcns -> In l layers -> In n (map fst (li_in l)) ->
    (In (s, path3 (li_name l) "inputs" n) lcns <-> In s (map source_path (conns l n))).
  Proof.
    intros Hg Hl Hn. rewrite <- (net_connected l n s Hl Hn).
    apply (to_input ls net_W lcns (layout_layer l) n s Hg (net_layer _ Hl)).
    cbn [layout_layer LayoutModel.l_in]. now rewrite layout_dict_names.
  Qed.
  Lemma sink_at lcns l n : In l layers -> In n (map fst (li_in l)) -> get_connections ls = LOk lcns ->
    component (li_name l) /\ component n /\ fwd_sink ls (path3 (li_name l) "inputs" n) /\
    mirror (path3 (li_name l) "inputs" n) = path3 (li_name l) "input_deltas" n.
  Proof.
    intros Hl Hn Hg. apply in_map_iff in Hn. destruct Hn as [[n' b] [En Hb]]. cbn [fst] in En. subst n'.
    destruct (ref_comp l "inputs" n b Hl Hb) as [C1 [_ C2]]. split; [exact C1|]. split; [exact C2|]. split.
    - right. exists (layout_layer l), n. split; [now apply net_layer|]. split; [|reflexivity].
      cbn [layout_layer LayoutModel.l_in]. rewrite layout_dict_names. now apply (in_map fst) in Hb.
    - now apply mirror_inputs.
  Qed.
  Lemma to_deltas lcns l n s : get_connections ls = LOk lcns -> In l layers -> In n (map fst (li_in l)) ->
    (In (s, path3 (li_name l) "input_deltas" n) lcns <-> In s (map (fun c => mirror (source_path c)) (conns l n))).
  Proof.
    intros Hg Hl Hn. destruct (sink_at lcns l n Hl Hn Hg) as [C1 [C2 [Fs Em]]].
    assert (Fw : forall s, In s (map source_path (conns l n)) -> fwd ls s).
    { intros s0 H0. apply (to_inputs lcns) in H0; try assumption. destruct (In_cns ls net_W lcns Hg _ _ H0) as [G|[s' [t' [G [_ E]]]]].
      - now apply (fcon_fwd ls net_W) in G.
      - exfalso. apply (fcon_fwd ls net_W) in G. destruct G as [_ G]. apply (mirror_sink_not_fwd ls net_W t' G). now rewrite <- E. }
    rewrite <- (map_map source_path mirror), in_map_iff. split.
    - intros Hs. destruct (In_cns ls net_W lcns Hg _ _ Hs) as [G|[s' [t' [G [E1 E2]]]]].
      + exfalso. apply (fcon_fwd ls net_W) in G. destruct G as [_ G]. rewrite <- Em in G. now apply (mirror_sink_not_fwd ls net_W _ Fs).
      + exists s'. split; [now symmetry|]. rewrite <- Em in E2.
        assert (Ft := proj2 (fcon_fwd ls net_W _ _ G)). apply (mirror_sink_inj ls net_W _ _ Fs Ft) in E2. subst t'.
        apply (to_inputs lcns); try assumption. now apply (fcon_In ls net_W lcns Hg).
    - intros [s' [<- Hs]]. rewrite <- Em. apply (proj1 (cns_mirror ls net_W lcns Hg s' _ (Fw _ Hs) Fs)).
      now apply (to_inputs lcns).
  Qed.

  (** ** Views *)
  Lemma lay_mirror p k sl : fwd ls p -> dget p lay = Some (k, sl) -> exists k', dget (mirror p) lay = Some (k', sl).
  Proof.
    intros F H. destruct (create_layout_parts _ _ _ HL) as [fos [cns [hubs0 [Hf [Hc [Hh [Eh El]]]]]]].
    assert (Sub : forall p v, dget p (fill (layout_entries (lhubs hubs0)) []) = Some v -> dget p lay = Some v).
    { intros q v Hq. rewrite El. now apply default_other, default_other. }
    destruct (layout_total ls net_W fos Hf cns Hc hubs0 Hh _ (proj1 (fwd_stub ls net_W cns Hc _ F))) as [k0 [sl0 D]].
    assert (E := Sub _ _ D). rewrite H in E. injection E as <- <-.
    destruct (layout_mirror ls net_W fos Hf cns Hc hubs0 Hh p k sl (or_introl F) D) as [k' D']. exists k'. now apply Sub.
  Qed.
  Lemma lcns_ex : exists lcns, get_connections ls = LOk lcns.
  Proof. destruct (create_layout_parts _ _ _ HL) as [fos [cns [hubs0 [Hf [Hc _]]]]]. eauto. Qed.

  Lemma view_at T B p k h lo hi st : dget p lay = Some (k, (lo, hi)) -> nth_error hubs k = Some h ->
    dget p (stub ls) = Some st -> smem p ["parameters"; "gradients"] = false ->
    array_view ls hubs lay T B p = create_from_buffer_hub st (hub_buffer hubs T B k h) T h lo hi.
  Proof.
    intros D Hk St R. unfold array_view. rewrite D, Hk. unfold struct_at. rewrite R, St. reflexivity.
  Qed.
  Lemma fwd_source lcns l n s : get_connections ls = LOk lcns -> In l layers -> In n (map fst (li_in l)) ->
    In s (map source_path (conns l n)) -> fwd ls s.
  Proof.
    intros Hg Hl Hn H0. destruct (sink_at lcns l n Hl Hn Hg) as [C1 [C2 [Fs Em]]].
    apply (to_inputs lcns) in H0; try assumption. destruct (In_cns ls net_W lcns Hg _ _ H0) as [G|[s' [t' [G [_ E]]]]].
    - exact (proj1 (fcon_fwd ls net_W _ _ G)).
    - exfalso. apply (fcon_fwd ls net_W) in G. destruct G as [_ G]. apply (mirror_sink_not_fwd ls net_W t' G). now rewrite <- E.
  Qed.

  (** The position of the part that comes in through one connection. *)
  Definition off (l : linst) (n : string) (c : connection) : nat :=
    match dget (source_path c) lay, dget (path3 (li_name l) "inputs" n) lay with
    | Some (_, (lo', _)), Some (_, (lo, _)) => lo' - lo
    | _, _ => 0
    end.

  Lemma same_addresses T B k h t lo hi sti s lo' hi' st v w :
    dget t lay = Some (k, (lo, hi)) -> nth_error hubs k = Some h -> dget t (stub ls) = Some sti ->
    smem t ["parameters"; "gradients"] = false -> ls_btype sti = h_btype h -> ls_ctx sti = 0 ->
    dget s lay = Some (k, (lo', hi')) -> dget s (stub ls) = Some st -> smem s ["parameters"; "gradients"] = false ->
    ls_btype st = h_btype h -> ls_ctx st <= h_ctx h -> lo <= lo' ->
    array_view ls hubs lay T B t = Some v -> array_view ls hubs lay T B s = Some w ->
    forall lead f g, length lead = length (lead_shape sti T B) ->
      ravel (ls_feat sti) f = (lo' - lo) + ravel (ls_feat st) g -> address v (lead ++ f) = address w (lead ++ g).
  Proof.
    intros D Hk St R Bt Cx D' St' R' Bt' Cx' Le V W lead f g Ll E.
    rewrite (view_at T B t k h lo hi sti D Hk St R) in V. rewrite (view_at T B s k h lo' hi' st D' Hk St' R') in W.
    destruct (view_spec _ _ _ _ _ _ _ _ _ Bt ltac:(lia) V) as [_ [_ A1]].
    destruct (view_spec _ _ _ _ _ _ _ _ _ Bt' Cx' W) as [_ [_ A2]].
    rewrite A1 by exact Ll. rewrite A2.
    - rewrite E. lia.
    - rewrite Ll. unfold lead_shape. rewrite Bt, Bt'. destruct (h_btype h) as [|[|?]]; reflexivity.
  Qed.

  Lemma input_slices l n b : In l layers -> In (n, b) (li_in l) ->
    exists k h lo sti, dget (path3 (li_name l) "inputs" n) lay = Some (k, (lo, lo + nfeatures b)) /\ nth_error hubs k = Some h /\
      dget (path3 (li_name l) "inputs" n) (stub ls) = Some sti /\ alike sti b /\
      smem (path3 (li_name l) "inputs" n) ["parameters"; "gradients"] = false /\
      ls_btype sti = h_btype h /\ ls_ctx sti = 0 /\
      (forall c, In c (conns l n) -> exists lo' st, dget (source_path c) lay = Some (k, (lo', lo' + ls_size st)) /\
         dget (source_path c) (stub ls) = Some st /\ smem (source_path c) ["parameters"; "gradients"] = false /\
         ls_btype st = h_btype h /\ ls_ctx st <= h_ctx h /\ lo <= lo' /\ lo' + ls_size st <= lo + nfeatures b) /\
      (forall pos, lo <= pos < lo + nfeatures b -> exists c lo' hi', In c (conns l n) /\
         dget (source_path c) lay = Some (k, (lo', hi')) /\ lo' <= pos < hi') /\
      (forall c c' lo1 hi1 lo2 hi2 pos, In c (conns l n) -> In c' (conns l n) -> dget (source_path c) lay = Some (k, (lo1, hi1)) ->
         dget (source_path c') lay = Some (k, (lo2, hi2)) -> lo1 <= pos < hi1 -> lo2 <= pos < hi2 -> c = c').
  Proof.
    intros Hl Hb. assert (Hn : In n (map fst (li_in l))) by (now apply (in_map fst) in Hb).
    destruct lcns_ex as [lcns Hg]. destruct (input_sources l n b Hl Hb) as [NE [Ec [Bt Sz]]].
    destruct (conns l n) as [|c0 cr] eqn:Ecs; [contradiction|]. rewrite <- Ecs in *. clear NE.
    assert (H0 : In c0 (conns l n)) by (rewrite Ecs; now left).
    assert (TI := fun s => to_inputs lcns l n s Hg Hl Hn).
    assert (I0 : In (source_path c0, path3 (li_name l) "inputs" n) lcns) by (apply TI; now apply in_map).
    destruct (stub_at l "inputs" n b Hl Hb) as [sti [St [Al R]]].
    assert (V : valid b) by exact (buffers_valid l "inputs" n b Hl Hb).
    assert (Cx : ls_ctx sti = 0). { destruct Al as [_ [_ ->]]. cbn [layout_struct ls_ctx]. rewrite Ec. reflexivity. }
    assert (Bt' : forall s st, In (s, path3 (li_name l) "inputs" n) lcns -> dget s (stub ls) = Some st -> ls_btype st = ls_btype sti).
    { intros s st Hs Hst. apply TI, in_map_iff in Hs. destruct Hs as [c [<- Hc]]. destruct (Bt c Hc) as [st' [E1 E2]].
      rewrite Hst in E1. injection E1 as <-. destruct Al as [-> _]. exact E2. }
    destruct (sink_rows ls net_W hubs lay HL lcns _ sti _ Hg I0 St R Cx Bt') as [srcs [ND [Srcs SR]]].
    assert (P : Permutation srcs (map source_path (conns l n))).
    { apply NoDup_Permutation; [exact ND|now apply source_paths_NoDup|]. intros s. rewrite Srcs. apply TI. }
    assert (Sum : ls_size sti = BuffersModel.sum (map (BuffersProofs.features ls) srcs)).
    { rewrite (alike_size _ _ V Al), Sz. rewrite <- (map_map source_path (BuffersProofs.features ls)).
      apply (Permutation_map (BuffersProofs.features ls)) in P. unfold BuffersModel.sum. clear -P. induction P; cbn [fold_right]; lia. }
    destruct (SR 0 0) as [_ [Ex _]]. destruct (Ex Sum) as [v Hv].
    destruct (sink_slices ls net_W hubs lay HL lcns _ _ Hg I0) as [k [h [lo [hi [D [Hk [Hlo [Ss [Cov Dis]]]]]]]]].
    assert (Bh : ls_btype sti = h_btype h).
    { destruct (Ss _ I0) as [lo' [st [_ [X [_ [Y _]]]]]]. rewrite <- Y. symmetry. now apply (Bt' _ _ I0). }
    rewrite (view_at 0 0 _ k h lo hi sti D Hk St R) in Hv.
    destruct (view_spec _ _ _ _ _ _ _ _ _ Bh ltac:(lia) Hv) as [Hi _].
    rewrite (alike_size _ _ V Al) in Hi. assert (hi = lo + nfeatures b) by lia. subst hi.
    exists k, h, lo, sti. split; [exact D|]. split; [exact Hk|]. split; [exact St|]. split; [exact Al|].
    split; [exact R|]. split; [exact Bh|]. split; [exact Cx|]. split; [|split].
    - intros c Hc. apply Ss. apply TI. now apply in_map.
    - intros pos Hp. destruct (Cov pos Hp) as [s [lo' [hi' [Hs [E1 E2]]]]]. apply TI, in_map_iff in Hs. destruct Hs as [c [<- Hc]].
      exists c, lo', hi'. auto.
    - intros c c' lo1 hi1 lo2 hi2 pos Hc Hc' E1 E2 P1 P2. apply (source_path_inj l n c c' Hl Hc Hc').
      eapply Dis; eauto; apply TI; now apply in_map.
  Qed.

  Lemma input_view l n b T B : In l layers -> In (n, b) (li_in l) ->
    exists v, view layers hubs lay T B l "inputs" n = Some v /\ a_shape v = array_shape b T B.
  Proof.
    intros Hl Hb. destruct (input_slices l n b Hl Hb) as [k [h [lo [sti [D [Hk [St [Al [R [Bh [Cx _]]]]]]]]]]].
    assert (V : valid b) by exact (buffers_valid l "inputs" n b Hl Hb).
    unfold view. fold ls. rewrite (view_at T B _ k h lo _ sti D Hk St R).
    destruct (create_from_buffer_hub sti (hub_buffer hubs T B k h) T h lo (lo + nfeatures b)) as [v|] eqn:E.
    - exists v. split; [reflexivity|]. destruct (view_spec _ _ _ _ _ _ _ _ _ Bh ltac:(lia) E) as [_ [-> _]]. now apply alike_shape.
    - exfalso. unfold create_from_buffer_hub in E. replace (_ =? ls_size sti) with true in E; [discriminate|].
      symmetry. apply Nat.eqb_eq. rewrite (alike_size _ _ V Al). lia.
  Qed.

  (** The deltas of an input: the same slice of another hub. *)
  Lemma delta_slices l n b : In l layers -> In (n, b) (li_in l) ->
    exists k k' h lo sti, dget (path3 (li_name l) "inputs" n) lay = Some (k, (lo, lo + nfeatures b)) /\
      dget (path3 (li_name l) "input_deltas" n) lay = Some (k', (lo, lo + nfeatures b)) /\ nth_error hubs k' = Some h /\
      dget (path3 (li_name l) "input_deltas" n) (stub ls) = Some sti /\ alike sti b /\
      smem (path3 (li_name l) "input_deltas" n) ["parameters"; "gradients"] = false /\
      ls_btype sti = h_btype h /\ ls_ctx sti = 0 /\
      (forall c, In c (conns l n) -> exists lo' st, dget (source_path c) lay = Some (k, (lo', lo' + ls_size st)) /\
         dget (mirror (source_path c)) lay = Some (k', (lo', lo' + ls_size st)) /\
         dget (mirror (source_path c)) (stub ls) = Some st /\ smem (mirror (source_path c)) ["parameters"; "gradients"] = false /\
         ls_btype st = h_btype h /\ ls_ctx st <= h_ctx h /\ lo <= lo').
  Proof.
    intros Hl Hb. assert (Hn : In n (map fst (li_in l))) by (now apply (in_map fst) in Hb).
    destruct lcns_ex as [lcns Hg]. destruct (input_sources l n b Hl Hb) as [NE [Ec [Bt _]]].
    destruct (input_slices l n b Hl Hb) as [k [h0 [lo [sti0 [D [Hk0 [St0 [Al0 [R0 [Bh0 [Cx0 [Ss0 _]]]]]]]]]]]].
    destruct (conns l n) as [|c0 cr] eqn:Ecs; [contradiction|]. rewrite <- Ecs in *. clear NE.
    assert (H0 : In c0 (conns l n)) by (rewrite Ecs; now left).
    destruct (sink_at lcns l n Hl Hn Hg) as [C1 [C2 [Fs Em]]].
    assert (TD := fun s => to_deltas lcns l n s Hg Hl Hn).
    assert (I0 : In (mirror (source_path c0), path3 (li_name l) "input_deltas" n) lcns).
    { apply TD. now apply (in_map (fun c => mirror (source_path c))). }
    destruct (stub_at l "input_deltas" n b Hl Hb) as [sti [St [Al R]]].
    assert (Cx : ls_ctx sti = 0). { destruct Al as [_ [_ ->]]. cbn [layout_struct ls_ctx]. rewrite Ec. reflexivity. }
    destruct (sink_slices ls net_W hubs lay HL lcns _ _ Hg I0) as [k' [h [lo1 [hi1 [D' [Hk [Hlo [Ss _]]]]]]]].
    assert (Fi : fwd ls (path3 (li_name l) "inputs" n)).
    { apply (fwd_in ls (layout_layer l) n); [now apply net_layer|]. cbn [layout_layer LayoutModel.l_in]. now rewrite layout_dict_names. }
    destruct (lay_mirror _ _ _ Fi D) as [k2 D2]. rewrite Em, D' in D2. injection D2 as <- -> ->.
    assert (Each : forall c, In c (conns l n) -> exists lo' st, dget (source_path c) lay = Some (k, (lo', lo' + ls_size st)) /\
         dget (mirror (source_path c)) lay = Some (k', (lo', lo' + ls_size st)) /\
         dget (mirror (source_path c)) (stub ls) = Some st /\ smem (mirror (source_path c)) ["parameters"; "gradients"] = false /\
         ls_btype st = h_btype h /\ ls_ctx st <= h_ctx h /\ lo <= lo' /\ ls_btype st = ls_btype (layout_struct b)).
    { intros c Hc. assert (Fc : fwd ls (source_path c)) by (apply (fwd_source lcns l n); auto; now apply in_map).
      destruct (Ss0 c Hc) as [lo' [st [X1 [X2 [X3 [X4 [X5 [X6 X7]]]]]]]].
      destruct (Ss (mirror (source_path c))) as [lo2 [st2 [Y1 [Y2 [Y3 [Y4 [Y5 [Y6 Y7]]]]]]]].
      { apply TD. now apply (in_map (fun c => mirror (source_path c))). }
      destruct (mirror_struct ls net_W _ _ _ Fc X2 Y2) as [M1 M2].
      assert (ES : ls_size st2 = ls_size st) by (unfold ls_size; now rewrite M2).
      destruct (lay_mirror _ _ _ Fc X1) as [k3 D3]. rewrite Y1 in D3. injection D3 as <- -> _.
      exists lo', st2. rewrite ES in *. split; [exact X1|]. split; [exact Y1|]. split; [exact Y2|]. split; [exact Y3|].
      split; [exact Y4|]. split; [exact Y5|]. split; [exact X6|]. destruct (Bt c Hc) as [st' [Z1 Z2]]. congruence. }
    exists k, k', h, lo, sti. split; [exact D|]. split; [exact D'|]. split; [exact Hk|]. split; [exact St|]. split; [exact Al|].
    split; [exact R|]. split.
    { destruct (Each c0 H0) as [lo' [st [_ [_ [_ [_ [Y4 [_ [_ Y8]]]]]]]]]. destruct Al as [-> _]. congruence. }
    split; [exact Cx|]. intros c Hc. destruct (Each c Hc) as [lo' [st H]]. exists lo', st. tauto.
  Qed.
  Lemma delta_view l n b T B : In l layers -> In (n, b) (li_in l) ->
    exists v, view layers hubs lay T B l "input_deltas" n = Some v /\ a_shape v = array_shape b T B.
  Proof.
    intros Hl Hb. destruct (delta_slices l n b Hl Hb) as [k [k' [h [lo [sti [_ [D [Hk [St [Al [R [Bh [Cx _]]]]]]]]]]]]].
    assert (V : valid b) by exact (buffers_valid l "inputs" n b Hl Hb).
    unfold view. fold ls. rewrite (view_at T B _ k' h lo _ sti D Hk St R).
    destruct (create_from_buffer_hub sti (hub_buffer hubs T B k' h) T h lo (lo + nfeatures b)) as [v|] eqn:E.
    - exists v. split; [reflexivity|]. destruct (view_spec _ _ _ _ _ _ _ _ _ Bh ltac:(lia) E) as [_ [-> _]]. now apply alike_shape.
    - exfalso. unfold create_from_buffer_hub in E. replace (_ =? ls_size sti) with true in E; [discriminate|].
      symmetry. apply Nat.eqb_eq. rewrite (alike_size _ _ V Al). lia.
  Qed.

  (** ** Parameters *)
  Lemma param_fixed l p b : In l layers -> In (p, b) (li_params l) -> ls_btype (layout_struct b) = 0.
  Proof.
    intros Hl Hb. destruct (instantiate_made _ _ HI) as [cns [order [_ [_ [_ [_ H]]]]]].
    destruct (made_extra _ _ _ _ (H l Hl)) as [F _]. unfold all_fixed in F.
    destruct (F p b Hb) as [dims E]. cbn [layout_struct ls_btype]. rewrite E. fold (ints dims).
    unfold buffer_type. destruct (ShapesModel.dmem DT (ints dims)) eqn:D1; [apply dmem_In in D1; apply not_in_ints in D1; [destruct D1|discriminate]|].
    destruct (ShapesModel.dmem DB (ints dims)) eqn:D2; [apply dmem_In in D2; apply not_in_ints in D2; [destruct D2|discriminate]|]. reflexivity.
  Qed.
  Lemma root_hub root l p b k sl : root = "parameters" \/ root = "gradients" -> In l layers -> In (p, b) (li_params l) ->
    dget (path3 (li_name l) root p) lay = Some (k, sl) -> exists h, nth_error hubs k = Some h /\ h_btype h = 0.
  Proof.
    intros Hr Hl Hb D. assert (Hb' : In (p, b) (buffers_of l root)) by (destruct Hr as [->| ->]; exact Hb).
    destruct (entry_at l root p b Hl Hb') as [d [st [Hd [Hx [Bt _]]]]].
    destruct (owned_source ls net_W hubs lay HL (layout_layer l) root d p (net_layer _ Hl) Hd (in_map fst _ _ Hx)) as [k' [h [i [st' [D' [Hk [_ [Hst [_ [_ [Hbt _]]]]]]]]]]].
    { unfold owned. destruct Hr as [->| ->]; cbn; tauto. }
    change (LayoutModel.l_name (layout_layer l)) with (li_name l) in D', Hst. rewrite D in D'. injection D' as -> _. exists h. split; [exact Hk|].
    rewrite <- Hbt. destruct (stub_at l root p b Hl Hb') as [st2 [S2 [[A2 _] _]]]. rewrite Hst in S2. injection S2 as ->.
    rewrite A2. now apply (param_fixed l p).
  Qed.
  Lemma root_view root k h sl T B : root = "parameters" \/ root = "gradients" -> dget root lay = Some (k, sl) ->
    nth_error hubs k = Some h -> h_btype h = 0 ->
    exists v, array_view ls hubs lay T B root = Some v /\ a_shape v = [snd sl - fst sl] /\
      forall i, address v [i] = hub_base hubs T B k + (fst sl + i).
  Proof.
    intros Hr D Hk Hb. destruct sl as [lo hi]. cbn [fst snd].
    set (st := mkStruct 0 [hi - lo] 0 (String.eqb root "gradients")).
    assert (E : array_view ls hubs lay T B root = create_from_buffer_hub st (hub_buffer hubs T B k h) T h lo hi).
    { unfold array_view. rewrite D, Hk. unfold struct_at. destruct Hr as [->| ->]; reflexivity. }
    rewrite E. destruct (create_from_buffer_hub st (hub_buffer hubs T B k h) T h lo hi) as [v|] eqn:V.
    - exists v. split; [reflexivity|].
      destruct (view_spec hubs T B k h st lo hi v (eq_sym Hb) ltac:(cbn; lia) V) as [_ [Sh A]]. split; [exact Sh|].
      intros i. assert (X := A [] [i] eq_refl). cbn [app] in X. rewrite X. unfold ravel, lead_row, st. rewrite Hb.
      cbn -[hub_base]. lia.
    - exfalso. unfold create_from_buffer_hub in V. replace (hi - lo =? ls_size st) with true in V; [discriminate|].
      symmetry. apply Nat.eqb_eq. unfold ls_size, st. cbn. lia.
  Qed.
End Net.

(** ** The theorems *)

(** The sizes of the feature axes and the number of the other axes. *)
Definition fdims (b : bstruct) : list nat :=
  flat_map (fun d => match d with DInt z => [Z.to_nat z] | _ => [] end) (bs_shape b).
Definition leading (b : bstruct) : nat :=
  length (filter (fun d => match d with DInt _ => false | _ => true end) (bs_shape b)).
Lemma fdims_ok b : valid b -> ls_feat (layout_struct b) = fdims b.
Proof.
  intros V. destruct (valid_parts b V) as [k [f [E [_ [BT [FS Hk]]]]]].
  unfold layout_struct, fdims. cbn [ls_feat]. rewrite FS, dims_int_nat, E, flat_map_app.
  replace (flat_map _ (prefix k)) with (@nil nat) by (destruct k; reflexivity). cbn [app].
  unfold ints. clear. induction f as [|z f IH]; [reflexivity|]. cbn [map flat_map app]. f_equal; exact IH.
Qed.
Lemma leading_ok b T B : valid b -> length (lead_shape (layout_struct b) T B) = leading b.
Proof.
  intros V. destruct (valid_parts b V) as [k [f [E [_ [BT [FS Hk]]]]]].
  unfold leading. rewrite E, filter_app, app_length.
  replace (filter _ (ints f)) with (@nil sdim) by (unfold ints; clear; induction f as [|z f IH]; [reflexivity|cbn; auto]).
  unfold lead_shape, layout_struct. cbn [ls_btype]. rewrite BT. destruct k; reflexivity.
Qed.

(** Buffer [x] of category [cat] of layer [l'], with structure [s], is what
    connection [c] takes its values from. *)
Definition source_of (layers : list linst) (c : connection) (l' : linst) (cat x : string) (s : bstruct) : Prop :=
  In l' layers /\ li_name l' = c_start c /\ out_ref (c_out c) (cat, x) /\ In (x, s) (buffers_of l' cat).

(** C63: every buffer of every layer gets an array of the shape its structure says. *)
Theorem C63_views : forall a layers hubs lay,
  named a -> instantiate a = SOk layers -> create_layout (map layout_layer layers) = LOk (hubs, lay) -> nonnegative layers ->
  forall l cat x b T B, In l layers -> In (x, b) (buffers_of l cat) ->
  exists v, view layers hubs lay T B l cat x = Some v /\ a_shape v = array_shape b T B.
Proof.
  intros a layers hubs lay HN HI HL HZ l cat x b T B Hl Hb.
  destruct (String.eqb_spec cat "inputs") as [->|N1]; [exact (input_view a layers hubs lay HN HI HL HZ l x b T B Hl Hb)|].
  destruct (String.eqb_spec cat "input_deltas") as [->|N2]; [exact (delta_view a layers hubs lay HN HI HL HZ l x b T B Hl Hb)|].
  assert (Ho : owned cat).
  { unfold owned. unfold buffers_of in Hb. repeat (destruct (String.eqb _ _) eqn:E in Hb; [apply String.eqb_eq in E; subst cat; try contradiction; cbn; tauto|clear E]). destruct Hb. }
  destruct (entry_at layers l cat x b Hl Hb) as [d [st [Hd [Hx Al]]]].
  destruct (owned_view _ (net_W a layers hubs lay HN HI HL) hubs lay HL (layout_layer l) cat d x T B (in_map _ _ _ Hl) Hd (in_map fst _ _ Hx) Ho) as [v [st' [E1 [E2 E3]]]].
  exists v. split; [exact E1|]. rewrite E3.
  destruct (stub_at a layers hubs lay HN HI HL l cat x b Hl Hb) as [st2 [S2 [A2 _]]].
  change (LayoutModel.l_name (layout_layer l)) with (li_name l) in E2. rewrite E2 in S2. injection S2 as ->.
  apply alike_shape; [|exact A2]. eapply buffers_valid; eauto.
Qed.
Print Assumptions C63_views.

(** C63: two different outputs, parameters, internals, output deltas or
    gradients share no memory; each has its own cells, all inside the memory
    that is allocated. *)
Theorem C63_disjoint : forall a layers hubs lay,
  named a -> instantiate a = SOk layers -> create_layout (map layout_layer layers) = LOk (hubs, lay) ->
  forall l cat x T B v i, In l layers -> In x (map fst (buffers_of l cat)) ->
  ~ In cat ["inputs"; "input_deltas"] -> view layers hubs lay T B l cat x = Some v -> in_range v i ->
  address v i < total_size hubs T B /\
  forall l' cat' x' v' i', In l' layers -> In x' (map fst (buffers_of l' cat')) ->
    ~ In cat' ["inputs"; "input_deltas"] -> view layers hubs lay T B l' cat' x' = Some v' -> in_range v' i' ->
    address v i = address v' i' -> l = l' /\ cat = cat' /\ x = x' /\ i = i'.
Proof.
  intros a layers hubs lay HN HI HL l cat x T B v i Hl Hx Hc Hv Hi.
  assert (W := net_W a layers hubs lay HN HI HL).
  assert (A : forall l cat x, In x (map fst (buffers_of l cat)) -> ~ In cat ["inputs"; "input_deltas"] ->
    In x (map fst (arrays_of (layout_layer l) cat))).
  { clear. intros l cat x Hx Hc. unfold arrays_of. unfold buffers_of in Hx. cbn [layout_layer LayoutModel.l_out LayoutModel.l_params LayoutModel.l_int].
    destruct (String.eqb_spec cat "inputs") as [->|]; [destruct Hc; now left|].
    destruct (String.eqb_spec cat "input_deltas") as [->|]; [destruct Hc; right; now left|].
    repeat (destruct (String.eqb cat _); [rewrite layout_dict_names; exact Hx|]). destruct Hx. }
  destruct (C15_inside _ hubs lay W HL (layout_layer l) cat x T B v i (in_map _ _ _ Hl) (A _ _ _ Hx Hc) Hv Hi) as [H1 H2].
  split; [exact H1|]. intros l' cat' x' v' i' Hl' Hx' Hc' Hv' Hi' E.
  destruct (string_dec (li_name l) (li_name l')) as [E1|N].
  - destruct (string_dec cat cat') as [E2|N].
    + destruct (string_dec x x') as [E3|N].
      * assert (l = l') by (eapply (net_unique a layers); eauto). subst l' cat' x'. rewrite Hv in Hv'. injection Hv' as <-. auto 6.
      * exfalso. revert E. apply (C15_disjoint _ hubs lay W HL (layout_layer l) cat x (layout_layer l') cat' x' T B v v' i i'); auto; try now apply in_map.
        congruence.
    + exfalso. revert E. apply (C15_disjoint _ hubs lay W HL (layout_layer l) cat x (layout_layer l') cat' x' T B v v' i i'); auto; try now apply in_map.
      congruence.
  - exfalso. revert E. apply (C15_disjoint _ hubs lay W HL (layout_layer l) cat x (layout_layer l') cat' x' T B v v' i i'); auto; try now apply in_map.
    cbn [layout_layer LayoutModel.l_name]. congruence.
Qed.
Print Assumptions C63_disjoint.

(** C63: the features of an input are those of the buffers connected to it, one
    after the other; the deltas of the input are the deltas of these buffers at
    the same positions. *)
Theorem C63_inputs : forall a layers hubs lay,
  named a -> instantiate a = SOk layers -> create_layout (map layout_layer layers) = LOk (hubs, lay) -> nonnegative layers ->
  forall l n b, In l layers -> In (n, b) (li_in l) ->
  let connections := filter (fun c => String.eqb (c_in c) n) (li_incoming l) in
  exists start : connection -> nat,
  (* every connection has a source, its part lies inside the input *)
  (forall c, In c connections -> exists l' cat x s, source_of layers c l' cat x s /\ start c + nfeatures s <= nfeatures b) /\
  (* every feature belongs to exactly one connection *)
  (forall i, i < nfeatures b -> exists c l' cat x s, In c connections /\ source_of layers c l' cat x s /\ start c <= i < start c + nfeatures s) /\
  (forall c c' l1 cat1 x1 s1 l2 cat2 x2 s2 i, In c connections -> In c' connections ->
     source_of layers c l1 cat1 x1 s1 -> source_of layers c' l2 cat2 x2 s2 ->
     start c <= i < start c + nfeatures s1 -> start c' <= i < start c' + nfeatures s2 -> c = c') /\
  (* the memory is the same *)
  forall c l' cat x s T B v w, In c connections -> source_of layers c l' cat x s ->
    (view layers hubs lay T B l "inputs" n = Some v /\ view layers hubs lay T B l' cat x = Some w \/
     view layers hubs lay T B l "input_deltas" n = Some v /\
     view layers hubs lay T B l' (fst (delta_of cat x)) (snd (delta_of cat x)) = Some w) ->
    forall lead f g, length lead = leading b -> ravel (fdims b) f = start c + ravel (fdims s) g ->
    address v (lead ++ f) = address w (lead ++ g).
Proof.
  intros a layers hubs lay HN HI HL HZ l n b Hl Hb connections.
  change connections with (conns l n). clear connections.
  assert (V : valid b) by exact (buffers_valid a layers HN HI l "inputs" n b Hl Hb).
  destruct (input_slices a layers hubs lay HN HI HL HZ l n b Hl Hb) as [k [h [lo [sti [D [Hk [St [Al [R [Bh [Cx [Ss [Cov Dis]]]]]]]]]]]]].
  (* a source of a connection is the one in the layout *)
  assert (Src : forall c l' cat x s, source_of layers c l' cat x s -> source_path c = path3 (li_name l') cat x).
  { intros c l' cat x s [H1 [H2 [H3 H4]]]. unfold source_path. rewrite <- H2.
    destruct (ref_comp a layers hubs lay HN HI HL l' cat x s H1 H4) as [C1 [C2 C3]].
    assert (Co : component "outputs") by (apply category_component; cbn; tauto).
    inversion H3; subst.
    - now rewrite (npath3 _ _ _ C1 Co C3).
    - now rewrite (npath_dotdot _ _ _ _ C1 Co C2 C3).
    - now rewrite (npath_dotdot _ _ _ _ C1 Co C2 C3). }
  assert (Str : forall c l' cat x s st, source_of layers c l' cat x s -> dget (source_path c) (stub (map layout_layer layers)) = Some st -> alike st s /\ valid s).
  { intros c l' cat x s st H E. rewrite (Src _ _ _ _ _ H) in E. destruct H as [H1 [H2 [H3 H4]]].
    destruct (stub_at a layers hubs lay HN HI HL l' cat x s H1 H4) as [st' [E' [A _]]]. rewrite E in E'. injection E' as <-.
    split; [exact A|]. eapply buffers_valid; eauto. }
  assert (Ex : forall c, In c (conns l n) -> exists l' cat x s, source_of layers c l' cat x s).
  { intros c Hc. apply filter_In in Hc. destruct Hc as [Hc _].
    destruct (con_source a layers HN HI l c Hl Hc) as [l' [cat [x [s [A1 [A2 [A3 [A4 [A5 [A6 _]]]]]]]]]].
    exists l', cat, x, s. unfold source_of. auto. }
  assert (Off : forall c lo' hi', dget (source_path c) lay = Some (k, (lo', hi')) -> off lay l n c = lo' - lo).
  { intros c lo' hi' E. unfold off. rewrite E, D. reflexivity. }
  assert (Mir : forall c l' cat x s, In c (conns l n) -> source_of layers c l' cat x s ->
    mirror (source_path c) = path3 (li_name l') (fst (delta_of cat x)) (snd (delta_of cat x))).
  { intros c l' cat x s Hc H. rewrite (Src _ _ _ _ _ H). destruct H as [H1 [H2 [H3 H4]]].
    destruct (ref_comp a layers hubs lay HN HI HL l' cat x s H1 H4) as [C1 [C2 C3]].
    inversion H3; subst; [now apply mirror_outputs|now apply mirror_internals|now apply mirror_parameters]. }
  exists (off lay l n). split; [|split; [|split]].
  - intros c Hc. destruct (Ex c Hc) as [l' [cat [x [s H]]]]. exists l', cat, x, s. split; [exact H|].
    destruct (Ss c Hc) as [lo' [st [X1 [X2 [X3 [X4 [X5 [X6 X7]]]]]]]]. rewrite (Off _ _ _ X1).
    destruct (Str _ _ _ _ _ _ H X2) as [A Vs]. rewrite <- (alike_size _ _ Vs A). lia.
  - intros i Hi. destruct (Cov (lo + i) ltac:(lia)) as [c [lo' [hi' [Hc [E1 E2]]]]].
    destruct (Ex c Hc) as [l' [cat [x [s H]]]]. exists c, l', cat, x, s. split; [exact Hc|]. split; [exact H|].
    destruct (Ss c Hc) as [lo2 [st [X1 [X2 [X3 [X4 [X5 [X6 X7]]]]]]]]. rewrite E1 in X1. injection X1 as <- ->.
    rewrite (Off _ _ _ E1). destruct (Str _ _ _ _ _ _ H X2) as [A Vs]. rewrite <- (alike_size _ _ Vs A). lia.
  - intros c c' l1 cat1 x1 s1 l2 cat2 x2 s2 i Hc Hc' H1 H2 I1 I2.
    destruct (Ss c Hc) as [lo1 [st1 [X1 [X2 [X3 [X4 [X5 [X6 X7]]]]]]]]. destruct (Ss c' Hc') as [lo2 [st2 [Y1 [Y2 [Y3 [Y4 [Y5 [Y6 Y7]]]]]]]].
    rewrite (Off _ _ _ X1) in I1. rewrite (Off _ _ _ Y1) in I2.
    destruct (Str _ _ _ _ _ _ H1 X2) as [A1 V1]. rewrite <- (alike_size _ _ V1 A1) in I1.
    destruct (Str _ _ _ _ _ _ H2 Y2) as [A2 V2]. rewrite <- (alike_size _ _ V2 A2) in I2.
    apply (Dis c c' _ _ _ _ (lo + i) Hc Hc' X1 Y1); lia.
  - intros c l' cat x s T B v w Hc H Hvw lead f g Ll E.
    destruct (Ss c Hc) as [lo' [st [X1 [X2 [X3 [X4 [X5 [X6 X7]]]]]]]]. destruct (Str _ _ _ _ _ _ H X2) as [A Vs].
    rewrite (Off _ _ _ X1) in E. rewrite <- (fdims_ok b V), <- (fdims_ok s Vs) in E.
    destruct Hvw as [[Hv Hw]|[Hv Hw]].
    + unfold view in Hw. rewrite <- (Src _ _ _ _ _ H) in Hw.
      apply (same_addresses layers hubs lay T B k h _ lo _ sti _ lo' _ st v w D Hk St R Bh Cx X1 X2 X3 X4 X5 X6 Hv Hw lead f g).
      * rewrite Ll, <- (leading_ok b T B V). unfold lead_shape. destruct Al as [-> _]. now destruct (ls_btype (layout_struct b)) as [|[|?]].
      * destruct Al as [_ [-> _]], A as [_ [-> _]]. exact E.
    + unfold view in Hw. rewrite <- (Mir _ _ _ _ _ Hc H) in Hw.
      destruct (delta_slices a layers hubs lay HN HI HL HZ l n b Hl Hb) as [k0 [k' [h' [lo0 [sti' [D0 [D' [Hk' [St' [Al' [R' [Bh' [Cx' Ss']]]]]]]]]]]]].
      rewrite D in D0. injection D0 as <- <- _.
      destruct (Ss' c Hc) as [lo2 [st2 [Y1 [Y2 [Y3 [Y4 [Y5 [Y6 Y7]]]]]]]]. rewrite X1 in Y1. injection Y1 as <- Es.
      apply (same_addresses layers hubs lay T B k' h' _ lo _ sti' _ lo' _ st2 v w D' Hk' St' R' Bh' Cx' Y2 Y3 Y4 Y5 Y6 Y7 Hv Hw lead f g).
      * rewrite Ll, <- (leading_ok b T B V). unfold lead_shape. destruct Al' as [-> _]. now destruct (ls_btype (layout_struct b)) as [|[|?]].
      * assert (Ef : ls_feat st2 = ls_feat st).
        { destruct (lcns_ex layers hubs lay HL) as [lcns Hg].
          refine (proj2 (mirror_struct _ (net_W a layers hubs lay HN HI HL) _ _ _ _ X2 Y3)).
          apply (fwd_source a layers hubs lay HN HI HL lcns l n); auto; [now apply (in_map fst) in Hb|now apply in_map]. }
        rewrite Ef. destruct Al' as [_ [-> _]], A as [_ [-> _]]. exact E.
Qed.
Print Assumptions C63_inputs.

(** C63: the parameters of all layers together are the parameter vector of the
    network, and the gradients have the same places in the gradient vector. *)
Theorem C63_parameters : forall a layers hubs lay,
  named a -> instantiate a = SOk layers -> create_layout (map layout_layer layers) = LOk (hubs, lay) ->
  exists (total : nat) (start : string -> string -> nat),
  (forall l p b, In l layers -> In (p, b) (li_params l) -> start (li_name l) p + nfeatures b <= total) /\
  (forall i, i < total -> exists l p b, In l layers /\ In (p, b) (li_params l) /\ start (li_name l) p <= i < start (li_name l) p + nfeatures b) /\
  (forall l p b l' p' b' i, In l layers -> In (p, b) (li_params l) -> In l' layers -> In (p', b') (li_params l') ->
     start (li_name l) p <= i < start (li_name l) p + nfeatures b ->
     start (li_name l') p' <= i < start (li_name l') p' + nfeatures b' -> l = l' /\ p = p') /\
  forall T B kind, kind = "parameters" \/ kind = "gradients" ->
    (0 < total -> exists v, array_view (map layout_layer layers) hubs lay T B kind = Some v /\ a_shape v = [total]) /\
    forall l p b v w, In l layers -> In (p, b) (li_params l) ->
      array_view (map layout_layer layers) hubs lay T B kind = Some v -> view layers hubs lay T B l kind p = Some w ->
      forall f, address w f = address v [start (li_name l) p + ravel (fdims b) f].
Proof.
  intros a layers hubs lay HN HI HL. assert (W := net_W a layers hubs lay HN HI HL).
  destruct (C12_same_offsets _ hubs lay W HL) as [kp [kg [sl [Dp [Dg Each]]]]].
  destruct (C12_concatenation _ hubs lay kp sl W HL Dp) as [Cells [Uniq Sz]].
  assert (Pn : forall l p b, In l layers -> In (p, b) (li_params l) -> In p (map fst (LayoutModel.l_params (layout_layer l)))).
  { intros l p b Hl Hb. cbn [layout_layer LayoutModel.l_params]. rewrite layout_dict_names. now apply (in_map fst) in Hb. }
  assert (Val : forall l p b, In l layers -> In (p, b) (li_params l) -> valid b).
  { intros l p b Hl Hb. exact (buffers_valid a layers HN HI l "parameters" p b Hl Hb). }
  assert (Pos : forall l p b, In l layers -> In (p, b) (li_params l) -> exists lo,
    dget (path3 (li_name l) "parameters" p) lay = Some (kp, (lo, lo + nfeatures b)) /\
    dget (path3 (li_name l) "gradients" p) lay = Some (kg, (lo, lo + nfeatures b)) /\ fst sl <= lo /\ lo + nfeatures b <= snd sl).
  { intros l p b Hl Hb. destruct (Each (layout_layer l) p (in_map _ _ _ Hl) (Pn _ _ _ Hl Hb)) as [slp [E1 [E2 [E3 E4]]]].
    destruct (Sz (layout_layer l) p (layout_struct b) (in_map _ _ _ Hl)) as [lo E].
    { cbn [layout_layer LayoutModel.l_params]. apply layout_dict_In. eauto. }
    assert (ES : fold_right Nat.mul 1 (ls_feat (layout_struct b)) = nfeatures b) by exact (features_ok b (Val _ _ _ Hl Hb)).
    rewrite ES in E. change (LayoutModel.l_name (layout_layer l)) with (li_name l) in *. rewrite E1 in E. injection E as ->.
    exists lo. auto. }
  set (start := fun name p => match dget (path3 name "parameters" p) lay with Some (_, (lo, _)) => lo - fst sl | None => 0 end).
  assert (Start : forall l p b, In l layers -> In (p, b) (li_params l) -> exists lo, start (li_name l) p = lo - fst sl /\
    dget (path3 (li_name l) "parameters" p) lay = Some (kp, (lo, lo + nfeatures b)) /\
    dget (path3 (li_name l) "gradients" p) lay = Some (kg, (lo, lo + nfeatures b)) /\ fst sl <= lo /\ lo + nfeatures b <= snd sl).
  { intros l p b Hl Hb. destruct (Pos l p b Hl Hb) as [lo [E1 [E2 E3]]]. exists lo. unfold start. rewrite E1. auto. }
  assert (Some1 : forall i, fst sl + i < snd sl -> exists l p b, In l layers /\ In (p, b) (li_params l) /\ start (li_name l) p <= i < start (li_name l) p + nfeatures b).
  { intros i Hi. destruct (proj1 (Cells (fst sl + i)) ltac:(lia)) as [ll [p [slp [Hl [Hp [E Hin]]]]]].
    apply in_map_iff in Hl. destruct Hl as [l [<- Hl]]. cbn [layout_layer LayoutModel.l_params] in Hp. rewrite layout_dict_names in Hp.
    apply in_map_iff in Hp. destruct Hp as [[p' b] [E' Hb]]. cbn [fst] in E'. subst p'. exists l, p, b. split; [exact Hl|]. split; [exact Hb|].
    destruct (Start l p b Hl Hb) as [lo [-> [E1 [E2 [E3 E4]]]]]. change (LayoutModel.l_name (layout_layer l)) with (li_name l) in E.
    rewrite E1 in E. injection E as <-. cbn [fst snd] in Hin. lia. }
  exists (snd sl - fst sl), start. split; [|split; [|split]].
  - intros l p b Hl Hb. destruct (Start l p b Hl Hb) as [lo [-> [_ [_ E]]]]. lia.
  - intros i Hi. apply Some1. lia.
  - intros l p b l' p' b' i Hl Hb Hl' Hb' I1 I2.
    destruct (Start l p b Hl Hb) as [lo [S1 [E1 [_ [E2 E3]]]]]. destruct (Start l' p' b' Hl' Hb') as [lo' [S2 [F1 [_ [F2 F3]]]]].
    rewrite S1 in I1. rewrite S2 in I2.
    destruct (Uniq (layout_layer l) p _ (layout_layer l') p' _ (fst sl + i) (in_map _ _ _ Hl) (Pn _ _ _ Hl Hb) (in_map _ _ _ Hl') (Pn _ _ _ Hl' Hb') E1 F1) as [G1 G2].
    + cbn [fst snd]. lia.
    + cbn [fst snd]. lia.
    + split; [|exact G2]. apply (net_unique a layers HN HI l l' Hl Hl'). now apply (f_equal LayoutModel.l_name) in G1.
  - intros T B kind Hkd.
    assert (Root : forall l p b, In l layers -> In (p, b) (li_params l) -> exists k h lo, dget kind lay = Some (k, sl) /\
      dget (path3 (li_name l) kind p) lay = Some (k, (lo, lo + nfeatures b)) /\ start (li_name l) p = lo - fst sl /\ fst sl <= lo /\
      nth_error hubs k = Some h /\ h_btype h = 0).
    { intros l p b Hl Hb. destruct (Start l p b Hl Hb) as [lo [S1 [E1 [E2 [E3 E4]]]]].
      assert (X : exists k, dget kind lay = Some (k, sl) /\ dget (path3 (li_name l) kind p) lay = Some (k, (lo, lo + nfeatures b))).
      { destruct Hkd as [->| ->]; eauto. }
      destruct X as [k [X1 X2]].
      destruct (root_hub a layers hubs lay HN HI HL kind l p b k _ Hkd Hl Hb X2) as [h [H1 H2]]. exists k, h, lo. auto 8. }
    split.
    + intros Ht. destruct (Some1 0 ltac:(lia)) as [l [p [b [Hl [Hb _]]]]].
      destruct (Root l p b Hl Hb) as [k [h [lo [D [_ [_ [_ [Hk Hbt]]]]]]]].
      destruct (root_view layers hubs lay kind k h sl T B Hkd D Hk Hbt) as [v [Hv [Sh _]]]. eauto.
    + intros l p b v w Hl Hb Hv Hw f.
      destruct (Root l p b Hl Hb) as [k [h [lo [D [D' [S1 [Le [Hk Hbt]]]]]]]].
      destruct (root_view layers hubs lay kind k h sl T B Hkd D Hk Hbt) as [v' [Hv' [_ Av]]]. rewrite Hv in Hv'. injection Hv' as <-.
      rewrite Av, S1.
      assert (Hb' : In (p, b) (buffers_of l kind)) by (destruct Hkd as [->| ->]; exact Hb).
      destruct (stub_at a layers hubs lay HN HI HL l kind p b Hl Hb') as [st [St [Al R]]].
      unfold view in Hw. rewrite (view_at layers hubs lay T B _ k h lo _ st D' Hk St R) in Hw.
      assert (B0 : ls_btype st = 0) by (destruct Al as [-> _]; exact (param_fixed a layers HI l p b Hl Hb)).
      assert (C0 : ls_ctx st = 0).
      { destruct Al as [_ [_ ->]]. destruct (valid_parts b (Val _ _ _ Hl Hb)) as [kk [ff [_ [_ [BT [_ Hkk]]]]]].
        assert (P0 := param_fixed a layers HI l p b Hl Hb). cbn [layout_struct ls_btype ls_ctx] in *. rewrite BT in P0.
        destruct (Z.eq_dec (bs_ctx b) 0) as [->|Nz]; [reflexivity|]. rewrite (Hkk Nz) in P0. discriminate P0. }
      destruct (view_spec hubs T B k h st lo _ w ltac:(congruence) ltac:(lia) Hw) as [_ [_ A]].
      assert (L0 : @length nat [] = length (lead_shape st T B)) by (unfold lead_shape; now rewrite B0).
      assert (X := A [] f L0). cbn [app] in X. rewrite X. unfold lead_row. rewrite Hbt.
      destruct Al as [_ [-> _]]. rewrite (fdims_ok b (Val _ _ _ Hl Hb)). lia.
Qed.
Print Assumptions C63_parameters.

(** ** Examples for C63 *)
Definition nonnegative_b (layers : list linst) : bool :=
  forallb (fun l => forallb (fun e => forallb (fun d => match d with DInt z => (0 <=? z)%Z | _ => true end) (bs_shape (snd e)))
    (li_in l ++ li_out l ++ li_params l ++ li_int l)) layers.
Lemma nonnegative_b_ok layers : nonnegative_b layers = true -> nonnegative layers.
Proof.
  unfold nonnegative_b. rewrite forallb_forall. intros H l cat x b z Hl Hb Hz.
  assert (G := H _ Hl). rewrite forallb_forall in G.
  assert (I : In (x, b) (li_in l ++ li_out l ++ li_params l ++ li_int l)).
  { rewrite !in_app_iff. unfold buffers_of in Hb. repeat (destruct (String.eqb _ _); [tauto|]). destruct Hb. }
  apply G in I. cbn [snd] in I. rewrite forallb_forall in I. apply I in Hz. now apply Z.leb_le.
Qed.
Definition layout_of (a : karch) : list hub * slices :=
  match create_layout (map layout_layer (layers_of a)) with LOk r => r | LErr _ => ([], []) end.
(** Layer FC3 of this network has three sources: the outputs of FC1 and Rec and
    the internal Ha of Rec.  The addresses are those of one row: FC3's input has
    8 features, the buffers of Rec have 3 features and those of FC1 have 2. *)
Example C63_example :
  named two_sources /\ instantiate two_sources = SOk (layers_of two_sources) /\ nonnegative (layers_of two_sources) /\
  create_layout (map layout_layer (layers_of two_sources)) = LOk (layout_of two_sources).
Proof.
  split; [apply two_sources_named|]. split; [vm_compute; reflexivity|].
  split; [apply nonnegative_b_ok; vm_compute; reflexivity|]. vm_compute. reflexivity.
Qed.
Definition row_of (a : karch) (T B : nat) (p : string) (lead : list nat) (n : nat) : list nat :=
  match array_view (map layout_layer (layers_of a)) (fst (layout_of a)) (snd (layout_of a)) T B p with
  | Some v => map (fun i => address v (lead ++ [i])) (seq 0 n)
  | None => []
  end.
Example C63_example_rows :
  let row p n := row_of two_sources 2 2 p [1; 1] n in
  row "FC3.inputs.default" 8 = row "FC1.outputs.default" 2 ++ row "Rec.internals.Ha" 3 ++ row "Rec.outputs.default" 3 /\
  row "FC3.input_deltas.default" 8 = row "FC1.output_deltas.default" 2 ++ row "Rec.internals.dHa" 3 ++ row "Rec.output_deltas.default" 3.
Proof. vm_compute. split; reflexivity. Qed.
