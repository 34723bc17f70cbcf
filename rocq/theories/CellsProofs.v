(** The cells of the buffers of a network built from an architecture. *)
From Coq Require Import String Ascii List ZArith QArith Bool Lia Permutation.
From Verif Require Import HubModel HubProofs LayoutModel LayoutProofs LayoutProps BuffersModel BuffersProofs BuffersProps.
From Verif Require Import PyBase PyFacts UtilsModel UtilsProofs NamesModel ArchModel ArchProofs ShapesModel ShapesProofs SetupModel PassShapesModel SetupProofs PassShapesProofs SetupProps InstanceProofs InstanceProps NetLayoutExtra NetLayoutProofs NetLayoutProps.
Import ListNotations.
Open Scope string_scope.
Open Scope list_scope.
Open Scope nat_scope.

(** The shape of the array of a buffer without the context slices. *)
Definition data_shape (b : bstruct) (T B : nat) : list nat :=
  map (fun d => match d with DT => T | DB => B | DInt z => Z.to_nat z | _ => 0 end) (bs_shape b).
(** The addresses of the elements of a buffer in row-major order, without the context slices. *)
Definition cells (layers : list linst) (hubs : list hub) (lay : slices) (T B : nat) (l : linst) (cat x : string) : list nat :=
  match dget x (buffers_of l cat), view layers hubs lay T B l cat x with
  | Some b, Some v => map (address v) (all_indices (data_shape b T B))
  | _, _ => []
  end.

Lemma all_indices_length s : length (all_indices s) = BuffersModel.prod s.
Proof. assert (H := ravel_all s 0). apply (f_equal (@length nat)) in H. now rewrite map_length, seq_length in H. Qed.
Lemma all_indices_NoDup s : NoDup (all_indices s).
Proof.
  assert (H := ravel_all s 0). assert (N := seq_NoDup (BuffersModel.prod s) 0). rewrite <- H in N. apply NoDup_map_inv in N. exact N.
Qed.

Lemma data_range b T B idx : Forall2 lt idx (data_shape b T B) -> Forall2 lt idx (array_shape b T B).
Proof.
  unfold data_shape, array_shape. revert idx. generalize (bs_ctx b) as z. intros z. induction (bs_shape b) as [|d s IH]; intros idx H; cbn [map] in *; inversion H; subst; constructor; auto.
  destruct d; lia.
Qed.
Lemma lead_data b T B : valid b -> exists lead, data_shape b T B = lead ++ fdims b /\ length lead = leading b.
Proof.
  intros V. destruct (valid_parts b V) as [k [f [E [_ [BT [FS Hk]]]]]].
  exists (map (fun d => match d with DT => T | DB => B | DInt z => Z.to_nat z | _ => 0 end) (prefix k)). unfold data_shape, leading, fdims. rewrite E, map_app, flat_map_app, filter_app.
  replace (flat_map _ (prefix k)) with (@nil nat) by (destruct k; reflexivity).
  replace (filter _ (ints f)) with (@nil sdim) by (unfold ints; clear; induction f as [|z f IH]; [reflexivity|cbn; auto]).
  split.
  - f_equal. unfold ints. clear. induction f as [|z f IH]; [reflexivity|]. cbn [map flat_map app]. f_equal; exact IH.
  - destruct k; reflexivity.
Qed.
Lemma data_shape_alike b s T B k f g : bs_shape b = prefix k ++ ints f -> bs_shape s = prefix k ++ ints g ->
  exists lead, data_shape b T B = lead ++ fdims b /\ data_shape s T B = lead ++ fdims s /\ length lead = leading b.
Proof.
  intros E E'.
  assert (X : forall h, map (fun d => match d with DT => T | DB => B | DInt z => Z.to_nat z | _ => 0 end) (ints h) = flat_map (fun d => match d with DInt z => [Z.to_nat z] | _ => [] end) (ints h)).
  { unfold ints. intros h. clear. induction h as [|z f IH]; [reflexivity|]. cbn [map flat_map app]. f_equal; exact IH. }
  assert (Y : flat_map (fun d => match d with DInt z => [Z.to_nat z] | _ => [] end) (prefix k) = @nil nat) by (destruct k; reflexivity).
  exists (map (fun d => match d with DT => T | DB => B | DInt z => Z.to_nat z | _ => 0 end) (prefix k)). unfold data_shape, leading, fdims.
  rewrite E, E', !map_app, !flat_map_app, filter_app, Y, !X.
  replace (filter _ (ints f)) with (@nil sdim) by (unfold ints; clear; induction f as [|z f IH]; [reflexivity|cbn; auto]).
  split; [reflexivity|]. split; [reflexivity|]. destruct k; reflexivity.
Qed.
Lemma unravel shape i : i < BuffersModel.prod shape -> exists g, Forall2 lt g shape /\ ravel shape g = i.
Proof.
  intros H. assert (Hin : In i (seq 0 (BuffersModel.prod shape))) by (apply in_seq; lia).
  rewrite <- (ravel_all shape 0) in Hin. apply in_map_iff in Hin. destruct Hin as [g [E Hg]]. exists g. split; [now apply all_indices_spec|exact E].
Qed.
Lemma nfeatures_fdims b : valid b -> nfeatures b = BuffersModel.prod (fdims b).
Proof. intros V. rewrite <- (features_ok b V), <- (fdims_ok b V). reflexivity. Qed.

Section Net.
  Variables (a : karch) (layers : list linst) (hubs : list hub) (lay : slices).
  Hypothesis HN : named a.
  Hypothesis HI : instantiate a = SOk layers.
  Hypothesis HL : create_layout (map layout_layer layers) = LOk (hubs, lay).
  Hypothesis HZ : nonnegative layers.
  Variables T B : nat.
  Let cells := cells layers hubs lay T B.

  Lemma buffers_NoDup l cat : In l layers -> NoDup (map fst (buffers_of l cat)).
  Proof.
    intros Hl. assert (S := net_sound a layers HN HI l Hl). unfold buffers_of.
    repeat (destruct (String.eqb cat _); [apply S|]). constructor.
  Qed.
  Lemma cells_view l cat x b : In l layers -> In (x, b) (buffers_of l cat) ->
    exists v, view layers hubs lay T B l cat x = Some v /\ a_shape v = array_shape b T B /\
      cells l cat x = map (address v) (all_indices (data_shape b T B)).
  Proof.
    intros Hl Hb. destruct (C63_views a layers hubs lay HN HI HL HZ l cat x b T B Hl Hb) as [v [Hv Sh]].
    exists v. split; [exact Hv|]. split; [exact Sh|]. unfold cells, CellsProofs.cells. rewrite Hv.
    now rewrite (In_dget _ _ _ (buffers_NoDup l cat Hl) Hb).
  Qed.
  Lemma cells_length l cat x b : In l layers -> In (x, b) (buffers_of l cat) -> length (cells l cat x) = BuffersModel.prod (data_shape b T B).
  Proof. intros Hl Hb. destruct (cells_view l cat x b Hl Hb) as [v [_ [_ ->]]]. now rewrite map_length, all_indices_length. Qed.
  Lemma cells_In l cat x A : In l layers -> In A (cells l cat x) ->
    exists b v idx, In (x, b) (buffers_of l cat) /\ view layers hubs lay T B l cat x = Some v /\ in_range v idx /\ A = address v idx /\ Forall2 lt idx (data_shape b T B).
  Proof.
    intros Hl HA. unfold cells, CellsProofs.cells in HA. destruct (dget x (buffers_of l cat)) as [b|] eqn:E; [|destruct HA]. apply dget_In in E.
    destruct (cells_view l cat x b Hl E) as [v [Hv [Sh _]]]. rewrite Hv in HA. apply in_map_iff in HA. destruct HA as [idx [<- Hi]]. apply all_indices_spec in Hi.
    exists b, v, idx. split; [exact E|]. split; [exact Hv|]. split; [unfold in_range; rewrite Sh; now apply data_range|]. split; [reflexivity|exact Hi].
  Qed.
  Lemma cells_once l cat x l' cat' x' A : In l layers -> In l' layers ->
    ~ In cat ["inputs"; "input_deltas"] -> ~ In cat' ["inputs"; "input_deltas"] ->
    In A (cells l cat x) -> In A (cells l' cat' x') -> l = l' /\ cat = cat' /\ x = x'.
  Proof.
    intros Hl Hl' Hc Hc' H H'. destruct (cells_In _ _ _ _ Hl H) as [b [v [i [Hb [Hv [Hi [E _]]]]]]].
    destruct (cells_In _ _ _ _ Hl' H') as [b' [v' [i' [Hb' [Hv' [Hi' [E' _]]]]]]].
    destruct (C63_disjoint a layers hubs lay HN HI HL l cat x T B v i Hl (in_map fst _ _ Hb) Hc Hv Hi) as [_ X].
    destruct (X l' cat' x' v' i' Hl' (in_map fst _ _ Hb') Hc' Hv' Hi' ltac:(congruence)) as [X1 [X2 [X3 _]]]. auto.
  Qed.
  Lemma cells_NoDup l cat x : In l layers -> ~ In cat ["inputs"; "input_deltas"] -> NoDup (cells l cat x).
  Proof.
    intros Hl Hc. unfold cells, CellsProofs.cells. destruct (dget x (buffers_of l cat)) as [b|] eqn:E; [|constructor]. apply dget_In in E.
    destruct (cells_view l cat x b Hl E) as [v [Hv [Sh _]]]. rewrite Hv.
    apply NoDup_map_inj; [|apply all_indices_NoDup]. intros i j Hi Hj Eij. apply all_indices_spec, data_range in Hi. apply all_indices_spec, data_range in Hj.
    destruct (C63_disjoint a layers hubs lay HN HI HL l cat x T B v i Hl (in_map fst _ _ E) Hc Hv ltac:(unfold in_range; now rewrite Sh)) as [_ X].
    now destruct (X l cat x v j Hl (in_map fst _ _ E) Hc Hv ltac:(unfold in_range; now rewrite Sh) Eij) as [_ [_ [_ X4]]].
  Qed.
  (** The buffers of values and of their deltas have the same shape. *)
  Lemma cells_deltas l x : In l layers -> length (cells l "outputs" x) = length (cells l "output_deltas" x) /\
    length (cells l "inputs" x) = length (cells l "input_deltas" x) /\ length (cells l "parameters" x) = length (cells l "gradients" x).
  Proof.
    intros Hl.
    assert (X : forall c c', buffers_of l c = buffers_of l c' -> length (cells l c x) = length (cells l c' x)).
    { intros c c' E. destruct (dget x (buffers_of l c)) as [b|] eqn:D.
      - apply dget_In in D. rewrite (cells_length l c x b Hl D). symmetry. apply (cells_length l c' x b Hl). now rewrite <- E.
      - unfold cells, CellsProofs.cells. rewrite <- E, D. reflexivity. }
    split; [apply X; reflexivity|]. split; apply X; reflexivity.
  Qed.

  (** The cells of an input are cells of the outputs connected to it; the same for deltas. *)
  Definition plain_source (c : connection) (l' : linst) : Prop :=
    In l' layers /\ li_name l' = c_start c /\ In (c_out c) (map fst (li_out l')).
  Lemma input_cell l n j : In l layers -> j < length (cells l "inputs" n) ->
    (forall c, In c (conns l n) -> exists l', plain_source c l') ->
    exists c l' j', In c (conns l n) /\ plain_source c l' /\ j' < length (cells l' "outputs" (c_out c)) /\
      nth j (cells l "inputs" n) 0 = nth j' (cells l' "outputs" (c_out c)) 0 /\
      nth j (cells l "input_deltas" n) 0 = nth j' (cells l' "output_deltas" (c_out c)) 0.
  Proof.
    intros Hl Hj HP.
    destruct (dget n (buffers_of l "inputs")) as [b|] eqn:Db; [|exfalso; unfold cells, CellsProofs.cells in Hj; rewrite Db in Hj; cbn in Hj; lia]. apply dget_In in Db.
    assert (Vb := buffers_valid a layers HN HI l "inputs" n b Hl Db).
    destruct (cells_view l "inputs" n b Hl Db) as [v [Hv [Shv Ev]]].
    destruct (cells_view l "input_deltas" n b Hl Db) as [vd [Hvd [Shvd Evd]]].
    destruct (C63_inputs a layers hubs lay HN HI HL HZ l n b Hl Db) as [start [P1 [P2 [P3 P4]]]].
    change (filter (fun c => String.eqb (c_in c) n) (li_incoming l)) with (conns l n) in *.
    destruct (C62_inputs a layers l n b HN HI Hl Db) as [sources [k [fixed [lasts [F [NE [C [E Ec]]]]]]]].
    change (filter (fun c => String.eqb (c_in c) n) (li_incoming l)) with (conns l n) in F.
    rewrite Ev, map_length in Hj. set (idx := nth j (all_indices (data_shape b T B)) []).
    assert (Hidx : In idx (all_indices (data_shape b T B))) by now apply nth_In.
    assert (En : nth j (cells l "inputs" n) 0 = address v idx).
    { rewrite Ev. rewrite (nth_indep _ 0 (address v [])) by now rewrite map_length. now rewrite map_nth. }
    assert (End : nth j (cells l "input_deltas" n) 0 = address vd idx).
    { rewrite Evd. rewrite (nth_indep _ 0 (address vd [])) by now rewrite map_length. now rewrite map_nth. }
    rewrite En, End. clear En End. apply all_indices_spec in Hidx.
    (* the source *)
    assert (Src : forall c l' cat x s, In c (conns l n) -> source_of layers c l' cat x s -> cat = "outputs" /\ x = c_out c /\ plain_source c l' /\
              exists z, bs_shape s = prefix k ++ ints (fixed ++ [z])).
    { intros c l' cat x s Hc [H1 [H2 [H3 H4]]]. destruct (HP c Hc) as [l1 [Q1 [Q2 Q3]]].
      assert (l1 = l') by (apply (net_unique a layers HN HI); auto; congruence). subst l1.
      assert (Co : component (c_out c)).
      { destruct (sl_out _ (net_sound a layers HN HI l' H1)) as [_ FF]. rewrite Forall_forall in FF. now apply FF. }
      assert (X := out_ref_fun _ _ _ H3 (out_output _ Co)). injection X as -> ->.
      split; [reflexivity|]. split; [reflexivity|]. split; [now split|].
      assert (Hs : exists s', In s' sources /\ exists l2, In l2 layers /\ li_name l2 = c_start c /\ output_of l2 (c_out c) s').
      { clear -F Hc. induction F as [|c0 s0 cs ss HH FF IH]; [destruct Hc|]. destruct Hc as [<-|Hc]; [exists s0; split; [now left|exact HH]|].
        destruct (IH Hc) as [s' [I1 I2]]. exists s'. split; [now right|exact I2]. }
      destruct Hs as [s' [Is [l2 [L1 [L2 L3]]]]]. assert (l2 = l') by (apply (net_unique a layers HN HI); auto; congruence). subst l2.
      assert (s' = s).
      { destruct (output_path a layers HN HI l' c s' H1 H2 L3) as [cat [x [X1 [X2 _]]]].
        assert (Y := out_ref_fun _ _ _ X1 (out_output _ Co)). injection Y as -> ->.
        apply (In_dget _ _ _ (buffers_NoDup l' "outputs" H1)) in X2. apply (In_dget _ _ _ (buffers_NoDup l' "outputs" H1)) in H4. congruence. }
      subst s'. unfold compatible in C. apply (in_map bs_shape) in Is. rewrite C in Is. apply in_map_iff in Is. destruct Is as [z [Ez _]]. exists z. now symmetry. }
    destruct (lead_data b T B Vb) as [lead0 [Dl Ll]]. rewrite Dl in Hidx. apply Forall2_app_inv_r in Hidx. destruct Hidx as [lead [f [F1 [F2 Eidx]]]].
    assert (Hlead : length lead = leading b) by (rewrite <- Ll; now apply Forall2_length in F1 || (clear -F1; induction F1; cbn; auto)).
    assert (Hr : ravel (fdims b) f < nfeatures b) by (rewrite (nfeatures_fdims b Vb); now apply ravel_lt).
    destruct (P2 _ Hr) as [c [l' [cat [x [s [Hc [Hs Hin]]]]]]].
    destruct (Src _ _ _ _ _ Hc Hs) as [-> [-> [Pl [z Es]]]]. assert (Hs' := Hs). destruct Hs' as [H1 [H2 [H3 H4]]].
    assert (Vs := buffers_valid a layers HN HI l' "outputs" (c_out c) s H1 H4).
    destruct (unravel (fdims s) (ravel (fdims b) f - start c)) as [g [Hg Eg]]; [rewrite <- (nfeatures_fdims s Vs); lia|].
    destruct (data_shape_alike b s T B k _ _ E Es) as [lead1 [A1 [A2 A3]]].
    assert (lead1 = lead0). { rewrite Dl in A1. apply (f_equal (firstn (length lead0))) in A1. rewrite firstn_app, Nat.sub_diag, firstn_all in A1.
      rewrite firstn_app in A1. replace (length lead0 - length lead1) with 0 in A1 by lia. cbn [firstn] in A1. rewrite !app_nil_r in A1.
      rewrite firstn_all2 in A1 by lia. now symmetry. } subst lead1.
    assert (Hidx' : In (lead ++ g) (all_indices (data_shape s T B))) by (apply all_indices_spec; rewrite A2; now apply Forall2_app).
    destruct (In_nth _ _ [] Hidx') as [j' [Hj' Ej']].
    destruct (cells_view l' "outputs" (c_out c) s H1 H4) as [w [Hw [Shw Ew]]].
    destruct (cells_view l' "output_deltas" (c_out c) s H1 H4) as [wd [Hwd [Shwd Ewd]]].
    assert (Er : ravel (fdims b) f = start c + ravel (fdims s) g) by lia.
    exists c, l', j'. split; [exact Hc|]. split; [exact Pl|]. split; [rewrite Ew, map_length; exact Hj'|].
    rewrite Ew, Ewd, Eidx. rewrite (nth_indep (map (address w) _) 0 (address w [])) by (rewrite map_length; exact Hj'). rewrite map_nth, Ej'.
    rewrite (nth_indep (map (address wd) _) 0 (address wd [])) by (rewrite map_length; exact Hj'). rewrite map_nth, Ej'.
    split; apply (P4 c l' "outputs" (c_out c) s T B); try assumption; [left; split; assumption|right; split; assumption].
  Qed.
  (** The cell of the delta of an output. *)
  Definition delta_pairs : list (nat * nat) :=
    flat_map (fun l => flat_map (fun e => combine (cells l "outputs" (fst e)) (cells l "output_deltas" (fst e))) (li_out l)) layers.
  Definition delta (A : nat) : nat := match find (fun p => fst p =? A) delta_pairs with Some p => snd p | None => 0 end.
  Lemma nth_combine {X Y} (u : list X) (w : list Y) p : In p (combine u w) -> forall dx dy, exists j, j < length u /\ j < length w /\ p = (nth j u dx, nth j w dy).
  Proof.
    revert w. induction u as [|x u IH]; intros [|y w] H dx dy; cbn in H; try contradiction. destruct H as [<-|H].
    - exists 0. cbn. repeat split; lia.
    - destruct (IH w H dx dy) as [j [H1 [H2 H3]]]. exists (S j). cbn. repeat split; try lia. exact H3.
  Qed.
  Lemma combine_nth_In {X Y} (u : list X) (w : list Y) j dx dy : j < length u -> j < length w -> In (nth j u dx, nth j w dy) (combine u w).
  Proof.
    revert w j. induction u as [|x u IH]; intros [|y w] [|j] H1 H2; cbn in *; try lia; [now left|right; apply IH; lia].
  Qed.
  Lemma delta_at l x j : In l layers -> In x (map fst (li_out l)) -> j < length (cells l "outputs" x) ->
    delta (nth j (cells l "outputs" x) 0) = nth j (cells l "output_deltas" x) 0.
  Proof.
    intros Hl Hx Hj. unfold delta. destruct (cells_deltas l x Hl) as [Elen _]. set (A := nth j (cells l "outputs" x) 0).
    destruct (find _ delta_pairs) as [p|] eqn:Ef.
    - apply find_some in Ef. destruct Ef as [Hp Ep]. apply Nat.eqb_eq in Ep. unfold delta_pairs in Hp. apply in_flat_map in Hp. destruct Hp as [l' [Hl' Hp]].
      apply in_flat_map in Hp. destruct Hp as [[x' b'] [Hx' Hp]]. cbn [fst] in Hp. destruct (nth_combine _ _ _ Hp 0 0) as [j' [J1 [J2 ->]]]. cbn [fst snd] in *.
      destruct (cells_once l "outputs" x l' "outputs" x' A Hl Hl') as [<- [_ <-]]; [cbn; intuition discriminate|cbn; intuition discriminate|now apply nth_In|rewrite <- Ep; now apply nth_In|].
      f_equal. apply (proj1 (NoDup_nth (cells l "outputs" x) 0)); auto. apply cells_NoDup; [exact Hl|cbn; intuition discriminate].
    - exfalso. apply in_map_iff in Hx. destruct Hx as [[x' b] [<- Hx]]. cbn [fst] in *.
      assert (Hin : In (A, nth j (cells l "output_deltas" x') 0) delta_pairs).
      { unfold delta_pairs. apply in_flat_map. exists l. split; [exact Hl|]. apply in_flat_map. exists (x', b). split; [exact Hx|]. cbn [fst]. apply combine_nth_In; lia. }
      assert (N := find_none _ _ Ef _ Hin). cbn [fst] in N. rewrite Nat.eqb_refl in N. discriminate.
  Qed.
  (** outputs and their deltas *)
  Lemma delta_outputs l x : In l layers -> In x (map fst (li_out l)) -> cells l "output_deltas" x = map delta (cells l "outputs" x).
  Proof.
    intros Hl Hx. destruct (cells_deltas l x Hl) as [E _]. apply (nth_ext _ _ 0 (delta 0)); [now rewrite map_length|].
    intros j Hj. rewrite map_nth. symmetry. apply delta_at; auto. lia.
  Qed.
  Lemma delta_inputs l n : In l layers -> (forall c, In c (conns l n) -> exists l', plain_source c l') ->
    cells l "input_deltas" n = map delta (cells l "inputs" n).
  Proof.
    intros Hl HP. destruct (cells_deltas l n Hl) as [_ [E _]]. apply (nth_ext _ _ 0 (delta 0)); [now rewrite map_length|].
    intros j Hj. rewrite map_nth. rewrite <- E in Hj. destruct (input_cell l n j Hl Hj HP) as [c [l' [j' [H1 [[H2 [H3 H4]] [H5 [H6 H7]]]]]]].
    rewrite H6, H7. symmetry. now apply delta_at.
  Qed.
End Net.
