(** Facts about the modifiers on the memory of a network. *)
From Coq Require Import String Ascii List ZArith QArith Reals Bool Lia Lra Arith FunctionalExtensionality.
From Verif Require Import NumBase NumpyModel LayersModel NetworkModel NetworkProps NetLayersModel NetLayersProps MemoryPassModel MemoryPassProofs.
From Verif Require Import HubModel LayoutModel BuffersModel BuffersProofs.
From Verif Require Import PyBase PyFacts UtilsModel NamesModel ArchModel ShapesModel SetupModel SetupProofs SetupProps InstanceProofs InstanceProps NetLayoutExtra NetLayoutProofs NetLayoutProps CellsProofs NetMemoryModel NetMemoryProofs NetMemoryProps SchedulesModel TrainNetModel TrainNetProofs ModifiersModel ModNetModel.
Import ListNotations.
Open Scope string_scope.
Open Scope list_scope.
Open Scope nat_scope.

(** ** A loop over entries with disjoint views *)
Lemma same_key_eq k k' : same_key k k' = true <-> k = k'.
Proof.
  destruct k as [x y], k' as [x' y']. unfold same_key. cbn [fst snd]. rewrite andb_true_iff, !String.eqb_eq. split; [intros [-> ->]; reflexivity|intros E; injection E as -> ->; auto].
Qed.
Lemma key_dec (x y : string * string) : {x = y} + {x <> y}.
Proof. decide equality; apply string_dec. Qed.
Lemma lookup_absent {X} key (w : installed X) : ~ In key (map fst w) -> lookup key w = [].
Proof.
  induction w as [|[k xs] w IH]; intros H; [reflexivity|]. cbn [lookup]. destruct (same_key k key) eqn:E; [|apply IH; intros K; apply H; now right].
  apply same_key_eq in E. subst. exfalso. apply H. now left.
Qed.
Lemma cut_cut n v : cut n (cut n v) = cut n v.
Proof. apply functional_extensionality. intros j. unfold cut. destruct (j <? n); reflexivity. Qed.
Lemma read_write cells v m : NoDup cells -> read cells (write cells v m) = cut (length cells) v.
Proof.
  intros ND. apply functional_extensionality. intros j. unfold cut. destruct (Nat.ltb_spec j (length cells)) as [H|H]; [now rewrite read_at, write_in|].
  unfold read, cut. destruct (Nat.ltb_spec j (length cells)); [lia|reflexivity].
Qed.

Section Entries.
  Variable X : Type.
  Variables (cells other : string * string -> list nat) (g : string * string -> vec -> X -> vec -> X * vec).
  Definition call1 (key : string * string) (x : X) (m : vec) : X * vec :=
    let '(x', v) := g key (read (other key) m) x (read (cells key) m) in (x', write (cells key) v m).
  Definition call_entry (entry : (string * string) * list X) (m : vec) : ((string * string) * list X) * vec :=
    let '(xs, m') := each (call1 (fst entry)) (snd entry) m in ((fst entry, xs), m').
  Variable good : string * string -> Prop.
  Hypothesis ND : forall k, good k -> NoDup (cells k).
  Hypothesis cutted : forall k p x v, good k -> cut (length (cells k)) (snd (g k p x v)) = snd (g k p x v).
  Hypothesis apart : forall k k' A, good k -> good k' -> In A (cells k) -> In A (cells k') -> k = k'.
  Hypothesis apart' : forall k k' A, good k -> good k' -> In A (cells k) -> ~ In A (other k').

  Lemma calls_spec k xs : good k -> forall m,
    fst (each (call1 k) xs m) = fst (each (g k (read (other k) m)) xs (read (cells k) m)) /\
    read (cells k) (snd (each (call1 k) xs m)) = snd (each (g k (read (other k) m)) xs (read (cells k) m)) /\
    forall A, ~ In A (cells k) -> snd (each (call1 k) xs m) A = m A.
  Proof.
    intros Gk. induction xs as [|x xs IH]; intros m; [cbn; auto|]. cbn [each]. unfold call1 at 1 3 5.
    assert (Cx := cutted k (read (other k) m) x (read (cells k) m) Gk). destruct (g k (read (other k) m) x (read (cells k) m)) as [x' v] eqn:Eg. cbn [snd] in Cx.
    specialize (IH (write (cells k) v m)). rewrite (read_write (cells k) v m (ND k Gk)), Cx in IH.
    assert (Eo : read (other k) (write (cells k) v m) = read (other k) m) by (apply read_ext; intros A HA; apply write_out; intros H; exact (apart' k k A Gk Gk H HA)).
    rewrite Eo in IH. destruct IH as [I1 [I2 I3]]. destruct (each (call1 k) xs (write (cells k) v m)) as [r' m2]. destruct (each (g k (read (other k) m)) xs v) as [r2 v2]. cbn [fst snd] in *. subst r2.
    split; [reflexivity|]. split; [exact I2|]. intros A HA. rewrite I3 by exact HA. now apply write_out.
  Qed.
  Lemma entries_spec : forall w m, NoDup (map fst w) -> (forall k, In k (map fst w) -> good k) ->
    let r := each call_entry w m in
    map fst (fst r) = map fst w /\
    (forall k, In k (map fst w) -> lookup k (fst r) = fst (each (g k (read (other k) m)) (lookup k w) (read (cells k) m)) /\
       read (cells k) (snd r) = snd (each (g k (read (other k) m)) (lookup k w) (read (cells k) m))) /\
    forall A, (forall k, In k (map fst w) -> ~ In A (cells k)) -> snd r A = m A.
  Proof.
    induction w as [|[k xs] w IH]; intros m Nw Gw; cbv zeta; [cbn; repeat split; intros; tauto|]. cbn [map fst] in Nw, Gw. inversion_clear Nw as [|? ? N1 N2].
    assert (Gk : good k) by (apply Gw; now left). destruct (calls_spec k xs Gk m) as [C1 [C2 C3]].
    destruct (each (call1 k) xs m) as [xs' m1] eqn:E1. cbn [fst snd] in C1, C2, C3.
    specialize (IH m1 N2 ltac:(intros; apply Gw; now right)). cbv zeta in IH. destruct (each call_entry w m1) as [w' m2] eqn:E2.
    assert (E3 : each call_entry ((k, xs) :: w) m = ((k, xs') :: w', m2)) by (cbn [each]; unfold call_entry at 1; cbn [fst snd]; now rewrite E1, E2).
    rewrite E3. cbn [fst snd map] in *. destruct IH as [I1 [I2 I3]].
    split; [now rewrite I1|]. split.
    - intros k' [<-|Hk].
      + cbn [lookup]. rewrite (proj2 (same_key_eq k k) eq_refl). split; [exact C1|]. rewrite <- C2. apply read_ext. intros A HA. apply I3. intros k' Hk' HA'.
        apply N1. now rewrite (apart k k' A Gk (Gw k' (or_intror Hk')) HA HA').
      + assert (Gk' : good k') by (apply Gw; now right). assert (Nk : k' <> k) by (intros ->; contradiction).
        cbn [lookup]. replace (same_key k k') with false by (symmetry; apply not_true_is_false; intros E; apply same_key_eq in E; congruence).
        assert (R1 : read (cells k') m1 = read (cells k') m) by (apply read_ext; intros A HA; apply C3; intros HA'; apply Nk; exact (apart k' k A Gk' Gk HA HA')).
        assert (R2 : read (other k') m1 = read (other k') m) by (apply read_ext; intros A HA; apply C3; intros HA'; exact (apart' k k' A Gk Gk' HA' HA)).
        rewrite <- R1, <- R2. exact (I2 k' Hk).
    - intros A HA. rewrite I3 by (intros; apply HA; now right). apply C3. apply HA. now left.
  Qed.
End Entries.

Lemma modify_cut fmax shape x v : cut (prod shape) (snd (modify fmax shape x v)) = snd (modify fmax shape x v).
Proof. destruct x as [lo hi|lim|mk|f]; unfold modify; cbv zeta; [apply cut_cut|apply cut_cut|apply cut_cut|]. destruct (freeze_call f false v). apply cut_cut. Qed.
Lemma modify_gradient_cut fmax shape p x v : cut (prod shape) (snd (modify_gradient fmax shape p x v)) = snd (modify_gradient fmax shape p x v).
Proof.
  destruct x as [y|f|f]; unfold modify_gradient; cbv zeta; [|apply cut_cut|apply cut_cut]. assert (X := modify_cut fmax shape y v). destruct (modify fmax shape y v). exact X.
Qed.

Section Net.
  Variables (a : karch) (layers : list linst) (hubs : list hub) (lay : slices).
  Hypothesis HN : named a.
  Hypothesis HI : instantiate a = SOk layers.
  Hypothesis HL : create_layout (map layout_layer layers) = LOk (hubs, lay).
  Hypothesis HZ : nonnegative layers.
  Variable fmax : R.

  (** The key of a view: the name of a layer and of one of its parameters *)
  Definition is_view (key : string * string) : Prop := exists l b, In l layers /\ li_name l = fst key /\ In (snd key, b) (li_params l).
  Lemma find_layer l : In l layers -> find (fun l' => String.eqb (li_name l') (li_name l)) layers = Some l.
  Proof.
    intros Hl. destruct (find _ layers) as [l'|] eqn:E.
    - apply find_some in E. destruct E as [H1 H2]. apply String.eqb_eq in H2. f_equal. now apply (net_unique a layers HN HI).
    - apply (find_none _ _ E) in Hl. rewrite String.eqb_refl in Hl. discriminate Hl.
  Qed.
  Lemma view_cells_at l p T B kind : In l layers -> view_cells layers hubs lay T B kind (li_name l, p) = CellsProofs.cells layers hubs lay T B l kind p.
  Proof. intros Hl. unfold view_cells. cbn [fst snd]. now rewrite (find_layer l Hl). Qed.
  Lemma view_shape_at l p b : In l layers -> In (p, b) (li_params l) -> view_shape layers (li_name l, p) = fdims b.
  Proof.
    intros Hl Hb. unfold view_shape. cbn [fst snd]. rewrite (find_layer l Hl). unfold dims.
    assert (ND := buffers_NoDup a layers HN HI l "parameters" Hl). change (buffers_of l "parameters") with (li_params l) in ND. now rewrite (In_dget _ _ _ ND Hb).
  Qed.
  Definition kinds (kind : string) : Prop := kind = "parameters" \/ kind = "gradients".
  Lemma kind_own kind : kinds kind -> ~ In kind ["inputs"; "input_deltas"].
  Proof. intros [-> | ->]; cbn; intuition discriminate. Qed.
  Lemma kind_buffers kind l : kinds kind -> buffers_of l kind = li_params l.
  Proof. intros [-> | ->]; reflexivity. Qed.
  Lemma view_length l p b T B kind : kinds kind -> In l layers -> In (p, b) (li_params l) -> length (CellsProofs.cells layers hubs lay T B l kind p) = prod (fdims b).
  Proof.
    intros Hk Hl Hb. rewrite (cells_length a layers hubs lay HN HI HL HZ T B l kind p b Hl) by (now rewrite kind_buffers).
    f_equal. rewrite <- (fixed_shape a layers l p b T B HI Hl Hb). exact (param_fixed a layers HI l p b T B Hl Hb).
  Qed.
  Lemma view_good T B kind key : kinds kind -> is_view key -> NoDup (view_cells layers hubs lay T B kind key) /\ length (view_cells layers hubs lay T B kind key) = prod (view_shape layers key).
  Proof.
    intros Hk [l [b [Hl [En Hb]]]]. destruct key as [n p]. cbn [fst snd] in *. subst n. rewrite (view_cells_at l p T B kind Hl), (view_shape_at l p b Hl Hb). split.
    - apply (cells_NoDup a layers hubs lay HN HI HL HZ); [exact Hl|now apply kind_own].
    - now apply view_length.
  Qed.
  Lemma view_apart T B kind kind' key key' A : kinds kind -> kinds kind' -> is_view key -> is_view key' ->
    In A (view_cells layers hubs lay T B kind key) -> In A (view_cells layers hubs lay T B kind' key') -> kind = kind' /\ key = key'.
  Proof.
    intros Hk Hk' [l [b [Hl [En Hb]]]] [l' [b' [Hl' [En' Hb']]]]. destruct key as [n p], key' as [n' p']. cbn [fst snd] in *. subst n n'. rewrite (view_cells_at l), (view_cells_at l') by assumption.
    intros H1 H2. destruct (cells_once a layers hubs lay HN HI HL HZ T B l kind p l' kind' p' A Hl Hl' (kind_own _ Hk) (kind_own _ Hk') H1 H2) as [<- [<- <-]]. auto.
  Qed.

  (** Installed modifiers: each view is named at most once. *)
  Definition fits {X} (w : installed X) : Prop := NoDup (map fst w) /\ forall key, In key (map fst w) -> is_view key.
  Lemma each_nil {X} (f : X -> vec -> X * vec) v : each f [] v = ([], v). Proof. reflexivity. Qed.

  Lemma weights_spec T B w m : fits w ->
    let r := apply_weight_modifiers fmax layers hubs lay T B w m in
    map fst (fst r) = map fst w /\
    (forall key, is_view key ->
       let v := each (modify fmax (view_shape layers key)) (lookup key w) (read (view_cells layers hubs lay T B "parameters" key) m) in
       lookup key (fst r) = fst v /\ read (view_cells layers hubs lay T B "parameters" key) (snd r) = snd v) /\
    forall A, (forall key, is_view key -> ~ In A (view_cells layers hubs lay T B "parameters" key)) -> snd r A = m A.
  Proof.
    intros [ND FW] r. set (C := view_cells layers hubs lay T B "parameters").
    assert (E := entries_spec vmod C (fun _ => []) (fun key _ => modify fmax (view_shape layers key)) is_view
      (fun k Hk => proj1 (view_good T B "parameters" k (or_introl eq_refl) Hk))
      ltac:(intros k p x v Hk; unfold C; rewrite (proj2 (view_good T B "parameters" k (or_introl eq_refl) Hk)); apply modify_cut)
      ltac:(intros k k' A Hk Hk' H1 H2; exact (proj2 (view_apart T B "parameters" "parameters" k k' A (or_introl eq_refl) (or_introl eq_refl) Hk Hk' H1 H2)))
      ltac:(intros k k' A _ _ _ []) w m ND FW). cbv zeta in E.
    change (each (call_entry vmod C (fun _ => []) (fun key _ => modify fmax (view_shape layers key))) w m) with r in E.
    destruct E as [E1 [E2 E3]]. split; [exact E1|]. split; [|intros A HA; apply E3; intros k Hk; exact (HA k (FW k Hk))].
    intros key Hk v. destruct (in_dec (key_dec) key (map fst w)) as [Hin|Hin]; [exact (E2 key Hin)|].
    unfold v. rewrite (lookup_absent key w Hin). rewrite each_nil. split; [apply lookup_absent; intros K; apply Hin; rewrite <- E1; exact K|]. cbv beta iota delta [snd].
    apply read_ext. intros A HA. apply E3. intros k' Hk' HA'. apply Hin. now rewrite (proj2 (view_apart T B _ _ key k' A (or_introl eq_refl) (or_introl eq_refl) Hk (FW k' Hk') HA HA')).
  Qed.
  Lemma gradients_spec T B w m : fits w ->
    let r := apply_gradient_modifiers fmax layers hubs lay T B w m in
    map fst (fst r) = map fst w /\
    (forall key, is_view key ->
       let v := each (modify_gradient fmax (view_shape layers key) (read (view_cells layers hubs lay T B "parameters" key) m)) (lookup key w) (read (view_cells layers hubs lay T B "gradients" key) m) in
       lookup key (fst r) = fst v /\ read (view_cells layers hubs lay T B "gradients" key) (snd r) = snd v) /\
    forall A, (forall key, is_view key -> ~ In A (view_cells layers hubs lay T B "gradients" key)) -> snd r A = m A.
  Proof.
    intros [ND FW] r. set (C := view_cells layers hubs lay T B "gradients"). set (O := view_cells layers hubs lay T B "parameters").
    assert (E := entries_spec gmod C O (fun key => modify_gradient fmax (view_shape layers key)) is_view
      (fun k Hk => proj1 (view_good T B "gradients" k (or_intror eq_refl) Hk))
      ltac:(intros k p x v Hk; unfold C; rewrite (proj2 (view_good T B "gradients" k (or_intror eq_refl) Hk)); apply modify_gradient_cut)
      ltac:(intros k k' A Hk Hk' H1 H2; exact (proj2 (view_apart T B "gradients" "gradients" k k' A (or_intror eq_refl) (or_intror eq_refl) Hk Hk' H1 H2)))
      ltac:(intros k k' A Hk Hk' H1 H2; discriminate (proj1 (view_apart T B "gradients" "parameters" k k' A (or_intror eq_refl) (or_introl eq_refl) Hk Hk' H1 H2))) w m ND FW). cbv zeta in E.
    change (each (call_entry gmod C O (fun key => modify_gradient fmax (view_shape layers key))) w m) with r in E.
    destruct E as [E1 [E2 E3]]. split; [exact E1|]. split; [|intros A HA; apply E3; intros k Hk; exact (HA k (FW k Hk))].
    intros key Hk v. destruct (in_dec (key_dec) key (map fst w)) as [Hin|Hin]; [exact (E2 key Hin)|].
    unfold v. rewrite (lookup_absent key w Hin). rewrite each_nil. split; [apply lookup_absent; intros K; apply Hin; rewrite <- E1; exact K|]. cbv beta iota delta [snd].
    apply read_ext. intros A HA. apply E3. intros k' Hk' HA'. apply Hin. now rewrite (proj2 (view_apart T B _ _ key k' A (or_intror eq_refl) (or_intror eq_refl) Hk (FW k' Hk') HA HA')).
  Qed.

  (** ** The place of a view in net.buffer.parameters and net.buffer.gradients *)
  Definition at_view (s : nat) (l : linst) (p : string) (b : bstruct) : Prop :=
    In l layers /\ In (p, b) (li_params l) /\ forall idx, Forall2 lt idx (fdims b) -> is_element layers hubs lay (s + ravel (fdims b) idx) l p idx.
  Lemma view_place l p b : In l layers -> In (p, b) (li_params l) -> exists s, at_view s l p b.
  Proof.
    intros Hl Hb. destruct (whole_elements a layers hubs lay HN HI HL HZ) as [total [start W]]. exists (start (li_name l) p). split; [exact Hl|]. split; [exact Hb|]. intros idx Hr.
    split; [exact Hl|]. split; [now exists b|]. intros T' B' v Hv. destruct (W T' B') as [_ [_ [W3 [_ W5]]]].
    destruct (W5 "parameters" l p b v idx (or_introl eq_refl) Hl Hb Hv Hr) as [X1 X2]. destruct (W3 ltac:(lia)) as [Le _]. rewrite (nth_error_nth' _ 0) by now rewrite Le. now rewrite X2.
  Qed.
  Lemma place_element s l p b j : at_view s l p b -> j < prod (fdims b) -> exists idx, is_element layers hubs lay (s + j) l p idx /\ ravel (fdims b) idx = j /\ Forall2 lt idx (fdims b).
  Proof. intros [_ [_ H]] Hj. destruct (unravel (fdims b) j Hj) as [g [G1 G2]]. exists g. subst j. auto. Qed.
  Lemma nth_index shape idx : Forall2 lt idx shape -> nth (ravel shape idx) (all_indices shape) [] = idx.
  Proof.
    intros H. apply all_indices_spec in H. destruct (In_nth _ _ [] H) as [i [Hi E]].
    assert (X := f_equal (fun l => nth i l 0) (ravel_all shape 0)). cbv beta in X. rewrite all_indices_length in Hi. rewrite seq_nth in X by exact Hi.
    rewrite (nth_indep _ 0 (0 + ravel shape [])) in X by now rewrite map_length, all_indices_length. rewrite (map_nth (fun i => 0 + ravel shape i)), E in X. cbn in X. now rewrite X.
  Qed.
  Lemma place_nth s l p b T B kind j : kinds kind -> at_view s l p b -> j < prod (fdims b) ->
    s + j < length (whole layers hubs lay T B kind) /\ nth (s + j) (whole layers hubs lay T B kind) 0 = nth j (CellsProofs.cells layers hubs lay T B l kind p) 0.
  Proof.
    intros Hk V Hj. destruct (place_element s l p b j V Hj) as [idx [E [Er Hr]]]. destruct V as [Hl [Hb _]].
    destruct (element_facts a layers hubs lay HN HI HL HZ (s + j) l p idx E) as [F [b' [_ [Hb' [_ G]]]]]. destruct (F T B) as [F1 [F2 _]]. split; [destruct Hk as [-> | ->]; lia|].
    assert (Hbk : In (p, b) (buffers_of l kind)) by now rewrite kind_buffers.
    destruct (cells_view a layers hubs lay HN HI HL HZ T B l kind p b Hl Hbk) as [v [Ev [_ Cv]]]. rewrite (G kind T B v Hk Ev), Cv.
    assert (Ef : data_shape b T B = fdims b) by (rewrite <- (fixed_shape a layers l p b _ _ HI Hl Hb); exact (param_fixed a layers HI l p b _ _ Hl Hb)).
    rewrite Ef. rewrite (nth_indep _ 0 (address v [])) by (rewrite map_length, all_indices_length; exact Hj). rewrite (map_nth (address v)). f_equal. rewrite <- Er. symmetry. now apply nth_index.
  Qed.
  Definition slice (n s : nat) (v : vec) : vec := cut n (fun j => v (s + j)).
  Lemma place_read s l p b T B kind m : kinds kind -> at_view s l p b ->
    read (view_cells layers hubs lay T B kind (li_name l, p)) m = slice (prod (fdims b)) s (read (whole layers hubs lay T B kind) m).
  Proof.
    intros Hk V. assert (Hl := proj1 V). assert (Hb := proj1 (proj2 V)). rewrite (view_cells_at l p T B kind Hl). apply functional_extensionality. intros j. unfold slice, cut.
    destruct (Nat.ltb_spec j (prod (fdims b))) as [Hj|Hj].
    - destruct (place_nth s l p b T B kind j Hk V Hj) as [P1 P2]. rewrite !read_at; [now rewrite P2|exact P1|]. now rewrite (view_length l p b T B kind Hk Hl Hb).
    - unfold read, cut. rewrite (view_length l p b T B kind Hk Hl Hb). destruct (Nat.ltb_spec j (prod (fdims b))); [lia|reflexivity].
  Qed.
  Lemma at_is_view s l p b : at_view s l p b -> is_view (li_name l, p).
  Proof. intros [Hl [Hb _]]. exists l, b. auto. Qed.
  Lemma at_shape s l p b : at_view s l p b -> view_shape layers (li_name l, p) = fdims b.
  Proof. intros [Hl [Hb _]]. now apply view_shape_at. Qed.
  Lemma slice_at n s v j : j < n -> slice n s v j = v (s + j).
  Proof. intros H. unfold slice, cut. now rewrite (proj2 (Nat.ltb_lt j n) H). Qed.

  Lemma weights_view s l p bs b w m : at_view s l p bs -> fits w ->
    let r := apply_weight_modifiers fmax layers hubs lay (S (b_time b)) (b_size b) w m in
    let v := each (modify fmax (fdims bs)) (lookup (li_name l, p) w) (slice (prod (fdims bs)) s (read (param_cells layers hubs lay b) m)) in
    lookup (li_name l, p) (fst r) = fst v /\ forall j, j < prod (fdims bs) -> read (param_cells layers hubs lay b) (snd r) (s + j) = snd v j.
  Proof.
    intros V Fw r v. destruct (weights_spec (S (b_time b)) (b_size b) w m Fw) as [_ [W _]]. specialize (W _ (at_is_view s l p bs V)). cbv zeta in W.
    rewrite (at_shape s l p bs V), !(place_read s l p bs _ _ "parameters" _ (or_introl eq_refl) V) in W. fold (param_cells layers hubs lay b) in W. fold v r in W. destruct W as [W1 W2].
    split; [exact W1|]. intros j Hj. rewrite <- W2. now rewrite slice_at.
  Qed.
  Lemma gradients_view s l p bs b w m : at_view s l p bs -> fits w ->
    let r := apply_gradient_modifiers fmax layers hubs lay (S (b_time b)) (b_size b) w m in
    let v := each (modify_gradient fmax (fdims bs) (slice (prod (fdims bs)) s (read (param_cells layers hubs lay b) m))) (lookup (li_name l, p) w) (slice (prod (fdims bs)) s (read (grad_cells layers hubs lay b) m)) in
    lookup (li_name l, p) (fst r) = fst v /\ (forall j, j < prod (fdims bs) -> read (grad_cells layers hubs lay b) (snd r) (s + j) = snd v j) /\
    forall j, j < prod (fdims bs) -> read (param_cells layers hubs lay b) (snd r) (s + j) = read (param_cells layers hubs lay b) m (s + j).
  Proof.
    intros V Fw r v. destruct (gradients_spec (S (b_time b)) (b_size b) w m Fw) as [_ [W K]]. assert (Vk := at_is_view s l p bs V). specialize (W _ Vk). cbv zeta in W.
    rewrite (at_shape s l p bs V), (place_read s l p bs _ _ "parameters" _ (or_introl eq_refl) V), !(place_read s l p bs _ _ "gradients" _ (or_intror eq_refl) V) in W.
    fold (param_cells layers hubs lay b) (grad_cells layers hubs lay b) in W. fold v r in W. destruct W as [W1 W2].
    split; [exact W1|]. split; [intros j Hj; rewrite <- W2; now rewrite slice_at|].
    intros j Hj. destruct (place_nth s l p bs (S (b_time b)) (b_size b) "parameters" j (or_introl eq_refl) V Hj) as [P1 P2]. unfold param_cells. rewrite !read_at by exact P1. apply K.
    intros key Hkey HA. rewrite P2, <- (view_cells_at l p _ _ _ (proj1 V)) in HA.
    assert (HA' : In (nth j (view_cells layers hubs lay (S (b_time b)) (b_size b) "parameters" (li_name l, p)) 0) (view_cells layers hubs lay (S (b_time b)) (b_size b) "parameters" (li_name l, p))).
    { apply nth_In. rewrite (proj2 (view_good _ _ _ _ (or_introl eq_refl) Vk)), (at_shape s l p bs V). exact Hj. }
    destruct (view_apart _ _ "parameters" "gradients" _ _ _ (or_introl eq_refl) (or_intror eq_refl) Vk Hkey HA' HA) as [X _]. discriminate X.
  Qed.

  (** ** One update *)
  Definition momentum_of (st : stepper) (k : nat) : R := match st with Sgd => 0%R | Momentum mu _ | Nesterov mu _ => mu k end.
  Definition rate_of (st : stepper) (rate : nat -> R) (k : nat) : R :=
    match st with Sgd => rate k | Momentum mu scale | Nesterov mu scale => if scale then (rate k * (1 - mu k))%R else rate k end.
  (** The parameters and gradients after the passes *)
  Definition base (b : batch) (point : vec) : vec := read (param_cells layers hubs lay b) (backward layers hubs lay b (forward layers hubs lay b (prepared layers hubs lay b point))).
  Definition raw (b : batch) (point : vec) : vec := read (grad_cells layers hubs lay b) (backward layers hubs lay b (forward layers hubs lay b (prepared layers hubs lay b point))).
  Definition gradient_mods (st : stepper) (k : nat) (b : batch) (x : tstate) (s : nat) (l : linst) (p : string) (bs : bstruct) : list gmod * vec :=
    let point := visited st k (t_step x) in
    each (modify_gradient fmax (fdims bs) (slice (prod (fdims bs)) s (base b point))) (lookup (li_name l, p) (t_grad x)) (slice (prod (fdims bs)) s (raw b point)).
  Definition moved (st : stepper) (rate : nat -> R) (k : nat) (b : batch) (x : tstate) (s : nat) (l : linst) (p : string) (bs : bstruct) : vec := fun i =>
    let g := snd (gradient_mods st k b x s l p bs) in
    let v := (momentum_of st k * s_buf (t_step x) (s + i)%nat - rate_of st rate k * g i)%R in
    (base b (visited st k (t_step x)) (s + i)%nat + match st with Nesterov _ _ => - rate_of st rate k * g i | _ => v end)%R.
  Lemma slice_ext n s u v : (forall j, j < n -> u (s + j) = v (s + j)) -> slice n s u = slice n s v.
  Proof. intros H. apply functional_extensionality. intros j. unfold slice, cut. destruct (Nat.ltb_spec j n); [now apply H|reflexivity]. Qed.
  Lemma slice_cut n s u v : (forall j, j < n -> u (s + j) = v j) -> slice n s u = cut n v.
  Proof. intros H. apply functional_extensionality. intros j. unfold slice, cut. destruct (Nat.ltb_spec j n); [now apply H|reflexivity]. Qed.
  Lemma stepper_view st rate k b x s l p bs : at_view s l p bs -> fits (t_grad x) -> 0 < prod (fdims bs) ->
    let '(g, m, v) := run_stepper fmax layers hubs lay st rate k b (t_grad x) (t_step x) in
    lookup (li_name l, p) g = fst (gradient_mods st k b x s l p bs) /\ map fst g = map fst (t_grad x) /\
    (forall j, j < prod (fdims bs) -> v (s + j) = (momentum_of st k * s_buf (t_step x) (s + j)%nat - rate_of st rate k * snd (gradient_mods st k b x s l p bs) j)%R) /\
    forall j, j < prod (fdims bs) -> read (param_cells layers hubs lay b) m (s + j) = moved st rate k b x s l p bs j.
  Proof.
    intros V Fg H0. destruct (place_element s l p bs 0 V H0) as [idx0 [E0 _]]. rewrite Nat.add_0_r in E0.
    assert (Pa := prepared_again a layers hubs lay HN HI HL HZ b (mult_st (momentum_of st k) (s_buf (t_step x))) (s_params (t_step x)) s l p idx0 E0). cbv zeta in Pa.
    assert (Ev : match st with Nesterov _ _ => add_tt (mult_st (momentum_of st k) (s_buf (t_step x))) (s_params (t_step x)) | _ => s_params (t_step x) end = visited st k (t_step x)).
    { destruct st; try reflexivity. apply functional_extensionality. intros i. unfold add_tt, mult_st, visited, momentum_of. lra. }
    set (point := visited st k (t_step x)) in *.
    assert (G := gradients_view s l p bs b (t_grad x) (backward layers hubs lay b (forward layers hubs lay b (prepared layers hubs lay b point))) V Fg). cbv zeta in G.
    assert (Gk := proj1 (gradients_spec (S (b_time b)) (b_size b) (t_grad x) (backward layers hubs lay b (forward layers hubs lay b (prepared layers hubs lay b point))) Fg)).
    fold (base b point) (raw b point) in G. change (each (modify_gradient fmax (fdims bs) (slice (prod (fdims bs)) s (base b point))) (lookup (li_name l, p) (t_grad x)) (slice (prod (fdims bs)) s (raw b point))) with (gradient_mods st k b x s l p bs) in G.
    assert (Er : forall v m j, j < prod (fdims bs) -> read (param_cells layers hubs lay b) (write (param_cells layers hubs lay b) v m) (s + j) = v (s + j)).
    { intros v m j Hj. destruct (place_element s l p bs j V Hj) as [idx [E _]]. exact (element_read a layers hubs lay HN HI HL HZ b v m (s + j) l p idx E). }
    unfold run_stepper, moved. cbv zeta. fold point. destruct st as [|mu scale|mu scale]; cbn [momentum_of rate_of] in *.
    - change (prepared layers hubs lay b (s_params (t_step x))) with (prepared layers hubs lay b point). unfold backward_modified.
      destruct (apply_gradient_modifiers _ _ _ _ _ _ _ _) as [g m]. cbn [fst snd] in G, Gk. destruct G as [G1 [G2 G3]].
      split; [exact G1|]. split; [exact Gk|]. split; intros j Hj; [|rewrite Er by exact Hj; unfold add_tt; rewrite G3 by exact Hj]; unfold mult_st; rewrite G2 by exact Hj; lra.
    - change (prepared layers hubs lay b (s_params (t_step x))) with (prepared layers hubs lay b point). unfold backward_modified.
      destruct (apply_gradient_modifiers _ _ _ _ _ _ _ _) as [g m]. cbn [fst snd] in G, Gk. destruct G as [G1 [G2 G3]].
      split; [exact G1|]. split; [exact Gk|]. unfold effective_rate. split; intros j Hj; [|rewrite Er by exact Hj; unfold add_tt; rewrite G3 by exact Hj]; unfold mult_add_st, mult_st; rewrite G2 by exact Hj; destruct scale; lra.
    - rewrite Pa, Ev. unfold backward_modified.
      destruct (apply_gradient_modifiers _ _ _ _ _ _ _ _) as [g m]. cbn [fst snd] in G, Gk. destruct G as [G1 [G2 G3]].
      split; [exact G1|]. split; [exact Gk|]. unfold effective_rate. split; intros j Hj; [|rewrite Er by exact Hj]; unfold mult_add_st, mult_st; rewrite G2 by exact Hj; [destruct scale; lra|rewrite G3 by exact Hj; destruct scale; lra].
  Qed.
  Definition weight_mods (st : stepper) (rate : nat -> R) (k : nat) (b : batch) (x : tstate) (s : nat) (l : linst) (p : string) (bs : bstruct) : list vmod * vec :=
    each (modify fmax (fdims bs)) (lookup (li_name l, p) (t_weight x)) (cut (prod (fdims bs)) (moved st rate k b x s l p bs)).
  Lemma update_view st rate k b x s l p bs : at_view s l p bs -> fits (t_weight x) -> fits (t_grad x) -> 0 < prod (fdims bs) ->
    let x' := update fmax layers hubs lay st rate k b x in
    lookup (li_name l, p) (t_grad x') = fst (gradient_mods st k b x s l p bs) /\ lookup (li_name l, p) (t_weight x') = fst (weight_mods st rate k b x s l p bs) /\
    fits (t_weight x') /\ fits (t_grad x') /\
    (forall j, j < prod (fdims bs) -> s_buf (t_step x') (s + j) = (momentum_of st k * s_buf (t_step x) (s + j)%nat - rate_of st rate k * snd (gradient_mods st k b x s l p bs) j)%R) /\
    forall j, j < prod (fdims bs) -> s_params (t_step x') (s + j) = snd (weight_mods st rate k b x s l p bs) j.
  Proof.
    intros V Fw Fg H0 x'. assert (S := stepper_view st rate k b x s l p bs V Fg H0). unfold x', update. destruct (run_stepper _ _ _ _ _ _ _ _ _ _) as [[g m] v]. destruct S as [S1 [S2 [S3 S4]]].
    assert (W := weights_view s l p bs b (t_weight x) m V Fw). cbv zeta in W. assert (Wk := proj1 (weights_spec (S (b_time b)) (b_size b) (t_weight x) m Fw)).
    destruct (apply_weight_modifiers _ _ _ _ _ _ _ _) as [w m']. cbn [fst snd] in W, Wk. cbn [t_step t_weight t_grad s_params s_buf].
    rewrite (slice_cut _ s (read (param_cells layers hubs lay b) m) (moved st rate k b x s l p bs) S4) in W. fold (weight_mods st rate k b x s l p bs) in W. destruct W as [W1 W2].
    split; [exact S1|]. split; [exact W1|]. split; [unfold fits; now rewrite Wk|]. split; [unfold fits; now rewrite S2|]. split; [exact S3|exact W2].
  Qed.
End Net.
