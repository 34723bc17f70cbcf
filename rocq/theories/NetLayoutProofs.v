(** From the layers of an architecture to the layers the layout is computed for. *)
From Coq Require Import String Ascii List ZArith QArith Bool Lia Permutation.
From Verif Require Import HubModel HubProofs LayoutModel LayoutProofs LayoutProps BuffersModel BuffersProofs.
From Verif Require Import PyBase PyFacts UtilsModel UtilsProofs NamesModel ArchModel ArchProofs ShapesModel ShapesProofs SetupModel PassShapesModel SetupProofs PassShapesProofs SetupProps InstanceProofs InstanceProps NetLayoutExtra.
Import ListNotations.
Open Scope string_scope.
Open Scope list_scope.
Open Scope nat_scope.

(** What the layout reads of a BufferStructure (buffer_structure.py:120-137). *)
Definition dim_nat (d : sdim) : nat := match d with DInt z => Z.to_nat z | _ => 0 end.
Definition layout_struct (b : bstruct) : lstruct :=
  mkStruct (buffer_type (bs_shape b)) (map dim_nat (feature_shape (bs_shape b))) (Z.to_nat (bs_ctx b)) (bs_bwd b).
Definition layout_dict (d : list (string * bstruct)) : list (string * lstruct) :=
  map (fun e => (fst e, layout_struct (snd e))) d.
Definition layout_conn (c : connection) : lconn := mkConn (c_start c) (c_out c) (c_end c) (c_in c).
Definition layout_layer (l : linst) : LayoutModel.layer :=
  LayoutModel.mkLayer (li_name l) (layout_dict (li_in l)) (layout_dict (li_out l)) (layout_dict (li_params l))
    (layout_dict (li_int l)) (map layout_conn (li_outgoing l)).

(** No layer feeds both an internal buffer X and the buffer dX to others (dX is
    the delta buffer of X then). *)
Definition independent (layers : list linst) : Prop :=
  forall l c c' x, In l layers -> In c (li_outgoing l) -> In c' (li_outgoing l) ->
    c_out c = ("..internals." ++ x)%string -> c_out c' <> ("..internals.d" ++ x)%string.

Lemma layout_dict_names d : map fst (layout_dict d) = map fst d.
Proof. unfold layout_dict. rewrite map_map. reflexivity. Qed.
Lemma layout_dict_In d x st : In (x, st) (layout_dict d) <-> exists b, In (x, b) d /\ st = layout_struct b.
Proof.
  unfold layout_dict. rewrite in_map_iff. split.
  - intros [[y b] [[= <- <-] H]]. eauto.
  - intros [b [H ->]]. exists (x, b). auto.
Qed.
Lemma layout_names d : names_good (map fst d) -> names_ok (layout_dict d).
Proof. unfold names_ok. rewrite layout_dict_names. intros H. exact H. Qed.

Lemma identifier_char_plain c : In c identifier_chars -> c <> "."%char /\ c <> "@"%char.
Proof.
  intros H. split; intros ->; apply existsb_ascii in H; vm_compute in H; discriminate.
Qed.
Lemma valid_name_component s : is_valid_layer_name s = true -> component s.
Proof.
  intros H. apply valid_layer_name_spec in H. destruct H as [_ [_ [t [[c [r [E [H1 H2]]]] H]]]].
  assert (P : forall d, In d (chars t) -> d <> "."%char /\ d <> "@"%char).
  { intros d Hd. rewrite E in Hd. destruct Hd as [<-|Hd]; [|now apply identifier_char_plain, H2].
    apply identifier_char_plain. unfold identifier_chars. apply in_or_app. now left. }
  assert (Q : forall d, In d (chars s) -> d <> "."%char /\ d <> "@"%char).
  { destruct H as [->| ->]; [exact P|]. intros d Hd. rewrite chars_app in Hd. apply in_app_or in Hd.
    destruct Hd as [Hd|[<-|[]]]; [now apply P|]. split; discriminate. }
  split; [|split; intros X; now destruct (Q _ X)].
  intros ->. destruct H as [<-|H]; [discriminate|]. apply (f_equal chars) in H. rewrite chars_app, E in H. discriminate.
Qed.

Lemma instantiate_names a layers : named a -> instantiate a = SOk layers ->
  NoDup (map li_name layers) /\ (forall l, In l layers -> component (li_name l)) /\ (forall l, In l layers -> sound_layer l).
Proof.
  intros HN H. apply instantiate_made in H. destruct H as [cns [order [HC [HO [HV [Hnames H]]]]]].
  assert (ND : NoDup (dkeys (raw_of a))) by (unfold dkeys, raw_of; rewrite map_map; apply HN).
  apply validate_spec in HV; [|exact ND]. destruct HV as [HV1 [[cns' [HC' HE]] _]]. rewrite HC in HC'. injection HC' as <-.
  destruct (order_cases _ _ ND HC (fun c Hc => proj1 (HE c Hc))) as [k [lo [LI [_ [[_ HO']|[_ HO']]]]]]; [|congruence].
  rewrite HO in HO'. injection HO' as ->. split; [|split].
  - rewrite Hnames. apply NoDup_rev, LI.
  - intros l Hl. destruct (H l Hl) as [pre [r [kw [ty [c [ins [_ [Hd _]]]]]]]].
    apply dget_In in Hd. assert (Hin : In (li_name l, r) (raw_of a)).
    { unfold raw_of. apply in_map_iff. exists (li_name l, (r, kw)). auto. }
    apply valid_name_component. apply (HV1 _ _ Hin).
  - intros l Hl. eapply made_sound; eauto.
Qed.

Lemma output_ref l o b : sound_layer l -> output_of l o b ->
  exists cat x, out_ref o (cat, x) /\ In (x, layout_struct b) (category_of (layout_layer l) cat).
Proof.
  intros S [x b' H|x b' H|x b' H].
  - exists "outputs", x. split; [constructor|apply layout_dict_In; eauto].
    destruct (sl_out _ S) as [_ F]. rewrite Forall_forall in F. apply F. now apply (in_map fst) in H.
  - exists "internals", x. split; [apply (out_internal x)|apply layout_dict_In; eauto].
    destruct (sl_int _ S) as [_ F]. rewrite Forall_forall in F. apply F. now apply (in_map fst) in H.
  - exists "parameters", x. split; [apply (out_parameter x)|apply layout_dict_In; eauto].
    destruct (sl_params _ S) as [_ F]. rewrite Forall_forall in F. apply F. now apply (in_map fst) in H.
Qed.

Lemma component_no_dot x y : component x -> x <> String "." y.
Proof. intros [_ [H _]] ->. apply H. now left. Qed.
Lemma out_ref_internal o x : out_ref o ("internals", x) -> o = ("..internals." ++ x)%string.
Proof. intros H. inversion H. reflexivity. Qed.

(** The hypothesis of C12 to C17 holds for the layers of every architecture. *)
Lemma layers_wf a layers : named a -> instantiate a = SOk layers -> independent layers ->
  wf_layers (map layout_layer layers).
Proof.
  intros HN H HI. destruct (instantiate_names _ _ HN H) as [N1 [N2 N3]].
  assert (HC : exists cns, collect_all_connections (raw_of a) = Some cns).
  { apply instantiate_made in H. destruct H as [cns [order [HC _]]]. eauto. }
  destruct HC as [cns HC]. destruct (C62_connections _ _ _ HN H HC) as [K1 K2].
  assert (U : forall l l', In l layers -> In l' layers -> li_name l = li_name l' -> l = l').
  { intros l l' Hl Hl' E. clear -N1 Hl Hl' E. induction layers as [|x r IH]; [destruct Hl|].
    cbn [map] in N1. inversion_clear N1 as [|? ? X Y].
    destruct Hl as [->|Hl], Hl' as [->|Hl']; auto; exfalso; apply X.
    - rewrite E. now apply in_map.
    - rewrite <- E. now apply in_map. }
  constructor.
  - rewrite map_map. exact N1.
  - intros l Hl. apply in_map_iff in Hl. destruct Hl as [l0 [<- Hl]]. now apply N2.
  - intros l Hl. apply in_map_iff in Hl. destruct Hl as [l0 [<- Hl]]. now apply layout_names, N3.
  - intros l Hl. apply in_map_iff in Hl. destruct Hl as [l0 [<- Hl]]. now apply layout_names, N3.
  - intros l Hl. apply in_map_iff in Hl. destruct Hl as [l0 [<- Hl]]. now apply layout_names, N3.
  - intros l Hl. apply in_map_iff in Hl. destruct Hl as [l0 [<- Hl]]. now apply layout_names, N3.
  - intros l c Hl Hc. apply in_map_iff in Hl. destruct Hl as [l0 [<- Hl]].
    cbn [layout_layer LayoutModel.l_outgoing] in Hc. apply in_map_iff in Hc. destruct Hc as [c0 [<- Hc]].
    apply (K1 _ _ Hl) in Hc. destruct Hc as [Hc Es]. destruct (K2 _ Hc) as [pre [le [post [ls [E1 [E2 [E3 [E4 [E5 [b E6]]]]]]]]]].
    assert (Hls : In ls layers) by (rewrite E1; apply in_or_app; now left).
    assert (Hle : In le layers) by (rewrite E1; apply in_or_app; right; now left).
    assert (ls = l0) by (apply U; congruence). subst ls.
    cbn [LayoutModel.c_start c_output LayoutModel.c_end c_input layout_conn layout_layer LayoutModel.l_name].
    split; [exact Es|]. split.
    + destruct (output_ref _ _ _ (N3 _ Hls) E6) as [cat [x [R1 R2]]]. exists cat, x. split; [exact R1|].
      now apply (in_map fst) in R2.
    + exists (layout_layer le). split; [now apply in_map|]. split; [now symmetry|].
      cbn [layout_layer LayoutModel.l_in]. rewrite layout_dict_names. exact E5.
  - intros l c x st Hl Hc Ho Hx. apply in_map_iff in Hl. destruct Hl as [l0 [<- Hl]].
    cbn [layout_layer LayoutModel.l_outgoing l_int] in *. apply in_map_iff in Hc. destruct Hc as [c0 [<- Hc]].
    assert (S := N3 _ Hl). split; [|split].
    + apply component_d. destruct (sl_int _ S) as [_ F]. rewrite Forall_forall in F. apply F.
      rewrite <- layout_dict_names. now apply (in_map fst) in Hx.
    + intros st' Hx'. apply layout_dict_In in Hx, Hx'. destruct Hx as [b [Hb ->]], Hx' as [b' [Hb' ->]].
      cbn [layout_struct ls_btype ls_feat]. rewrite (sl_deltas _ S _ _ _ Hb Hb'). auto.
    + intros c' Hc' Ho'. apply in_map_iff in Hc'. destruct Hc' as [c1 [<- Hc']].
      apply out_ref_internal in Ho, Ho'. exact (HI _ _ _ _ Hl Hc Hc' Ho Ho').
Qed.

Lemma no_dd_In names x : no_dd_b names = true -> ~ In ("d" ++ "d" ++ x)%string names.
Proof. unfold no_dd_b. rewrite forallb_forall. intros H Hx. apply H in Hx. cbn in Hx. destruct x; discriminate. Qed.

(** A layout can only be computed if no delta buffer is connected. *)
Lemma layout_independent a layers r : named a -> instantiate a = SOk layers ->
  create_layout (map layout_layer layers) = LOk r -> independent layers.
Proof.
  intros HN H HL l c c' x Hl Hc Hc' Ec Ec'.
  destruct (instantiate_names _ _ HN H) as [N1 [N2 N3]].
  assert (HC : exists cns, collect_all_connections (raw_of a) = Some cns).
  { apply instantiate_made in H. destruct H as [cns [order [HC _]]]. eauto. }
  destruct HC as [cns HC]. destruct (C62_connections _ _ _ HN H HC) as [K1 K2].
  assert (U : forall l l', In l layers -> In l' layers -> li_name l = li_name l' -> l = l').
  { intros k k' Hk Hk' E. clear -N1 Hk Hk' E. induction layers as [|y r' IH]; [destruct Hk|].
    cbn [map] in N1. inversion_clear N1 as [|? ? X Y].
    destruct Hk as [->|Hk], Hk' as [->|Hk']; auto; exfalso; apply X.
    - rewrite E. now apply in_map.
    - rewrite <- E. now apply in_map. }
  destruct r as [hubs lay]. destruct (create_layout_parts _ _ _ HL) as [_ [lc [_ [_ [Hg _]]]]].
  unfold get_connections in Hg. destruct (collect _ _) as [cs|] eqn:E1; [|discriminate]. clear Hg.
  assert (Hl1 : In (layout_layer l) (map layout_layer layers)) by now apply in_map.
  destruct (collect_each _ _ _ E1 _ Hl1) as [ys E2].
  assert (Hc1 : In (layout_conn c') (LayoutModel.l_outgoing (layout_layer l))) by (cbn [layout_layer LayoutModel.l_outgoing]; now apply in_map).
  destruct (collect_each _ _ _ E2 _ Hc1) as [zs E3].
  assert (Hs : c_start c' = li_name l) by (apply (K1 _ _ Hl) in Hc'; tauto).
  assert (Hd : In ("d" ++ x)%string (map fst (li_int l))).
  { apply (K1 _ _ Hl) in Hc'. destruct Hc' as [Hc'' _]. destruct (K2 _ Hc'') as [pre [le [post [ls [F1 [F2 [F3 [F4 [F5 [b F6]]]]]]]]]].
    assert (Hls : In ls layers) by (rewrite F1; apply in_or_app; now left).
    assert (ls = l) by (apply U; congruence). subst ls. rewrite Ec' in F6.
    inversion F6 as [y b' Hy E|y b' Hy E|y b' Hy E].
    - exfalso. destruct (sl_out _ (N3 _ Hl)) as [_ F]. rewrite Forall_forall in F. apply (in_map fst) in Hy. apply F in Hy.
      cbn [fst] in Hy. subst y. destruct Hy as [_ [Hy _]]. apply Hy. cbn. now left.
    - subst y. now apply (in_map fst) in Hy. }
  assert (Cd : component ("d" ++ x)%string).
  { destruct (sl_int _ (N3 _ Hl)) as [_ F]. rewrite Forall_forall in F. now apply F. }
  unfold con_connections in E3. cbn [layout_conn LayoutModel.c_start c_output LayoutModel.c_end c_input] in E3.
  rewrite Hs, Ec' in E3. change ("..internals.d" ++ x)%string with (dotdot_path "internals" ("d" ++ x)) in E3.
  assert (Co : component "outputs") by (apply category_component; cbn; tauto).
  assert (Ci : component "internals") by (apply category_component; cbn; tauto).
  rewrite (npath_dotdot _ _ _ _ (N2 _ Hl) Co Ci Cd) in E3.
  destruct (npath _) as [stop|]; [|discriminate].
  destruct (get_backward_connection _ _ _) as [p|] eqn:E4; [|discriminate].
  unfold get_backward_connection in E4. rewrite (split2_path3 _ _ _ (N2 _ Hl) Ci Cd) in E4.
  destruct (split2 stop) as [[[s1 s2] s3]|]; [|discriminate].
  destruct (back_buffer_name s2); [|discriminate]. cbn [String.eqb Ascii.eqb] in E4.
  change (String.eqb "internals" "internals") with true in E4. cbv iota in E4.
  destruct (PyBase.dmem _ _) eqn:E5; [|discriminate].
  assert (X : In ("d" ++ "d" ++ x)%string (map fst (li_int l))).
  { rewrite <- layout_dict_names. unfold PyBase.dmem in E5. now apply smem_In in E5. }
  apply instantiate_made in H. destruct H as [? [? [_ [_ [_ [_ H]]]]]].
  destruct (made_extra _ _ _ _ (H _ Hl)) as [_ ND]. exact (no_dd_In _ _ ND X).
Qed.

Lemma net_wf a layers r : named a -> instantiate a = SOk layers ->
  create_layout (map layout_layer layers) = LOk r -> wf_layers (map layout_layer layers).
Proof. intros HN H HL. eapply layers_wf; eauto. eapply layout_independent; eauto. Qed.
