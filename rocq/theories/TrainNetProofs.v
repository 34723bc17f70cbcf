(** Facts about the memory of a network during training. *)
From Coq Require Import String Ascii List ZArith QArith Reals Bool Lia Lra Arith FunctionalExtensionality.
From Verif Require Import NumBase NumpyModel LayersModel NetworkModel NetworkProps NetLayersModel NetLayersProps MemoryPassModel MemoryPassProofs.
From Verif Require Import HubModel LayoutModel BuffersModel BuffersProofs.
From Verif Require Import PyBase PyFacts UtilsModel NamesModel ArchModel ShapesModel SetupModel SetupProofs SetupProps InstanceProofs InstanceProps NetLayoutExtra NetLayoutProofs NetLayoutProps CellsProofs NetMemoryModel PassShapesProofs PassShapesLayers NetSizesProofs NetMemoryProofs NetMemoryProps SchedulesModel TrainNetModel.
Import ListNotations.
Open Scope string_scope.
Open Scope list_scope.
Open Scope nat_scope.

Lemma write_agree cells : forall v (m1 m2 : vec) a, m1 a = m2 a \/ In a cells -> write cells v m1 a = write cells v m2 a.
Proof.
  induction cells as [|c r IH]; intros v m1 m2 a H; cbn; [destruct H as [H|[]]; exact H|]. apply IH.
  destruct (Nat.eqb_spec a c) as [->|N]; [now left|]. destruct H as [H|[H|H]]; [now left|congruence|now right].
Qed.
Lemma write_values cells v w m : (forall k, k < length cells -> v k = w k) -> write cells v m = write cells w m.
Proof.
  revert v w m. induction cells as [|c r IH]; intros v w m H; cbn; [reflexivity|]. cbn [length] in H. rewrite (H 0) by lia. apply IH. intros k Hk. apply H. lia.
Qed.
Lemma write_upd cells v m k r : NoDup cells -> k < length cells -> write cells (NetworkModel.upd k r v) m = NetworkModel.upd (nth k cells 0) r (write cells v m).
Proof.
  intros ND Hk. apply functional_extensionality. intros a. unfold NetworkModel.upd at 2. destruct (Nat.eqb_spec a (nth k cells 0)) as [->|N].
  - rewrite write_in by assumption. unfold NetworkModel.upd. now rewrite Nat.eqb_refl.
  - destruct (in_dec Nat.eq_dec a cells) as [H|H]; [|now rewrite !write_out].
    apply (In_nth _ _ 0) in H. destruct H as [j [Hj <-]]. rewrite !write_in by assumption. unfold NetworkModel.upd. destruct (Nat.eqb_spec j k); [congruence|reflexivity].
Qed.
Lemma indices1 n : all_indices [n] = map (fun i => [i]) (seq 0 n).
Proof. cbn [all_indices]. generalize 0 as s. induction n as [|n IH]; intros s; cbn [seq flat_map map app]; [reflexivity|]. now rewrite IH. Qed.

Lemma own_p : ~ In "parameters" ["inputs"; "input_deltas"]. Proof. cbn; intuition discriminate. Qed.
Lemma own_g : ~ In "gradients" ["inputs"; "input_deltas"]. Proof. cbn; intuition discriminate. Qed.
Lemma own_o : ~ In "outputs" ["inputs"; "input_deltas"]. Proof. cbn; intuition discriminate. Qed.

Section Net.
  Variables (a : karch) (layers : list linst) (hubs : list hub) (lay : slices).
  Hypothesis HN : named a.
  Hypothesis HI : instantiate a = SOk layers.
  Hypothesis HL : create_layout (map layout_layer layers) = LOk (hubs, lay).
  Hypothesis HZ : nonnegative layers.
  Hypothesis HS : forall l, In l (tl layers) -> supported l = true.
  Hypothesis HD : differentiable layers = true.

  (** ** The elements of net.buffer.parameters and net.buffer.gradients *)
  Lemma param_fixed l p b T B : In l layers -> In (p, b) (li_params l) -> array_shape b T B = fdims b.
  Proof.
    intros Hl Hb. destruct (instantiate_made _ _ HI) as [cns [order [_ [_ [_ [_ H]]]]]]. destruct (made_extra _ _ _ _ (H l Hl)) as [F _]. unfold all_fixed in F.
    destruct (F p b Hb) as [ds E]. unfold array_shape, fdims. rewrite E. clear. induction ds as [|z ds IH]; [reflexivity|]. cbn [map flat_map app]. now rewrite IH.
  Qed.
  Lemma whole_elements : exists (total : nat) (start : string -> string -> nat), forall T B,
    (* every element of a parameter has a place *)
    (forall l p b, In l layers -> In (p, b) (li_params l) -> start (li_name l) p + nfeatures b <= total) /\
    (* every place has an element *)
    (forall k, k < total -> exists l p b idx, In l layers /\ In (p, b) (li_params l) /\ Forall2 lt idx (fdims b) /\ start (li_name l) p + ravel (fdims b) idx = k) /\
    (0 < total -> length (whole layers hubs lay T B "parameters") = total /\ NoDup (whole layers hubs lay T B "parameters")) /\
    (0 < total -> length (whole layers hubs lay T B "gradients") = total) /\
    forall kind l p b v idx, kind = "parameters" \/ kind = "gradients" -> In l layers -> In (p, b) (li_params l) -> view layers hubs lay T B l kind p = Some v -> Forall2 lt idx (fdims b) ->
      start (li_name l) p + ravel (fdims b) idx < total /\ nth (start (li_name l) p + ravel (fdims b) idx) (whole layers hubs lay T B kind) 0 = address v idx.
  Proof.
    destruct (C63_parameters a layers hubs lay HN HI HL) as [total [start [H1 [H2 [H3 H4]]]]]. exists total, start. intros T B.
    assert (V : forall l p b, In l layers -> In (p, b) (li_params l) -> valid b) by (intros l p b Hl Hb; exact (buffers_valid a layers HN HI l "parameters" p b Hl Hb)).
    assert (R : forall l p b idx, In l layers -> In (p, b) (li_params l) -> Forall2 lt idx (fdims b) -> ravel (fdims b) idx < nfeatures b).
    { intros l p b idx Hl Hb Hr. rewrite (nfeatures_fdims b (V l p b Hl Hb)). apply all_indices_spec in Hr.
      assert (X := in_map (fun i => 0 + ravel (fdims b) i) _ _ Hr). rewrite ravel_all in X. apply in_seq in X. lia. }
    assert (W : forall kind, kind = "parameters" \/ kind = "gradients" -> 0 < total -> exists v, array_view (map layout_layer layers) hubs lay T B kind = Some v /\ whole layers hubs lay T B kind = map (fun i => address v [i]) (seq 0 total)).
    { intros kind Hk Ht. destruct (H4 T B kind Hk) as [X _]. destruct (X Ht) as [v [E1 E2]]. exists v. split; [exact E1|]. unfold whole. rewrite E1, E2, indices1, map_map. reflexivity. }
    assert (N : forall v i, i < total -> nth i (map (fun i => address v [i]) (seq 0 total)) 0 = address v [i]).
    { intros v i Hi. rewrite (nth_indep _ 0 (address v [0])) by now rewrite map_length, seq_length. rewrite (map_nth (fun i => address v [i])). now rewrite seq_nth. }
    assert (K : forall k, k < total -> exists l p b idx, In l layers /\ In (p, b) (li_params l) /\ Forall2 lt idx (fdims b) /\ start (li_name l) p + ravel (fdims b) idx = k).
    { intros k Hk. destruct (H2 k Hk) as [l [p [b [Hl [Hb Hr]]]]]. destruct (unravel (fdims b) (k - start (li_name l) p)) as [g [G1 G2]]; [rewrite <- (nfeatures_fdims b (V l p b Hl Hb)); lia|].
      exists l, p, b, g. repeat split; try assumption. lia. }
    assert (AT : forall kind l p b v idx, kind = "parameters" \/ kind = "gradients" -> In l layers -> In (p, b) (li_params l) -> view layers hubs lay T B l kind p = Some v -> Forall2 lt idx (fdims b) ->
      start (li_name l) p + ravel (fdims b) idx < total /\ nth (start (li_name l) p + ravel (fdims b) idx) (whole layers hubs lay T B kind) 0 = address v idx).
    { intros kind l p b v idx Hk Hl Hb Hv Hr. assert (X := H1 l p b Hl Hb). assert (Y := R l p b idx Hl Hb Hr). split; [lia|].
      destruct (W kind Hk ltac:(lia)) as [u [E1 E2]]. rewrite E2, N by lia. symmetry. apply (proj2 (H4 T B kind Hk) l p b u v Hl Hb E1 Hv). }
    split; [exact H1|]. split; [exact K|]. split; [|split; [|exact AT]].
    - intros Ht. destruct (W "parameters" (or_introl eq_refl) Ht) as [v [E1 E2]]. rewrite E2. split; [now rewrite map_length, seq_length|].
      apply (proj2 (NoDup_nth _ 0)). rewrite map_length, seq_length. intros i j Hi Hj E.
      destruct (K i Hi) as [l [p [b [x [Hl [Hb [Hx <-]]]]]]]. destruct (K j Hj) as [l' [p' [b' [x' [Hl' [Hb' [Hx' <-]]]]]]].
      destruct (C63_views a layers hubs lay HN HI HL HZ l "parameters" p b T B Hl Hb) as [w [Ew Sw]]. destruct (C63_views a layers hubs lay HN HI HL HZ l' "parameters" p' b' T B Hl' Hb') as [w' [Ew' Sw']].
      rewrite <- E2 in E. rewrite (proj2 (AT "parameters" l p b w x (or_introl eq_refl) Hl Hb Ew Hx)), (proj2 (AT "parameters" l' p' b' w' x' (or_introl eq_refl) Hl' Hb' Ew' Hx')) in E.
      destruct (C63_disjoint a layers hubs lay HN HI HL l "parameters" p T B w x Hl (in_map fst _ _ Hb) own_p Ew) as [_ D1]; [unfold in_range; rewrite Sw, (param_fixed l p b T B Hl Hb); exact Hx|].
      destruct (D1 l' "parameters" p' w' x' Hl' (in_map fst _ _ Hb') own_p Ew') as [-> [_ [-> ->]]]; [unfold in_range; rewrite Sw', (param_fixed l' p' b' T B Hl' Hb'); exact Hx'|exact E|].
      assert (b = b'). { assert (ND := buffers_NoDup a layers HN HI l' "parameters" Hl'). apply (In_dget _ _ _ ND) in Hb. apply (In_dget _ _ _ ND) in Hb'. congruence. } now subst b'.
    - intros Ht. destruct (W "gradients" (or_intror eq_refl) Ht) as [v [E1 E2]]. now rewrite E2, map_length, seq_length.
  Qed.

  Section Passes.
  Variables (e : env) (T B : nat).
  Let cells := CellsProofs.cells layers hubs lay (S T) B.
  Let cells_of := NetMemoryModel.cells_of layers hubs lay T B.
  Let ml := mlayer_of layers hubs lay e T B.
  Let d := delta layers hubs lay (S T) B.
  Let fwd := net_forward_pass layers hubs lay e T B.
  Let bwd := net_backward_pass layers hubs lay e T B.
  Let once := once a layers hubs lay HN HI HL HZ T B.
  Let cell := cell layers hubs lay T B.

  (** ** The passes do not change parameters. *)
  Lemma param_not_written m l x A : In l layers -> In A (cells l "parameters" x) -> forall L, In L (fls layers hubs lay e T B m) -> ~ In A (f_out L) /\ ~ In A (f_loss L) /\ ~ In A (f_grad L).
  Proof.
    intros Hl HA L HLin. destruct (fls_In _ _ _ _ _ _ _ _ HLin) as [l' [Hl' ->]]. cbn [fl f_out f_loss f_grad mlayer_of m_out m_loss m_grad].
    repeat split; intros H; apply cells_of_In in H; destruct H as [n [_ H]].
    - now destruct (once l "parameters" x l' "outputs" n A Hl (In_tl _ _ Hl') own_p own_o HA H) as [_ [E _]].
    - now destruct (once l "parameters" x l' "outputs" n A Hl (In_tl _ _ Hl') own_p own_o HA H) as [_ [E _]].
    - now destruct (once l "parameters" x l' "gradients" n A Hl (In_tl _ _ Hl') own_p own_g HA H) as [_ [E _]].
  Qed.
  Lemma backward_keeps all A : placed d cell all -> forall Ls m, (forall L, In L Ls -> In L all) -> (forall b, cell b -> d b <> A) -> (forall L, In L Ls -> ~ In A (f_grad L)) ->
    mem_backward (map (to_m d) Ls) m A = m A.
  Proof.
    intros PL. induction Ls as [|L r IH]; intros m Hin Hd Hg; cbn [map mem_backward]; [reflexivity|].
    destruct (not_delta d cell all L A PL (Hin L (or_introl eq_refl)) Hd) as [N1 N2].
    rewrite run_backward_keeps; [|apply Hg; now left|exact N1|exact N2]. apply IH; [intros; apply Hin; now right|exact Hd|intros; apply Hg; now right].
  Qed.
  Lemma backward_keeps_all all A m : placed d cell all -> (forall b, cell b -> d b <> A) -> (forall L, In L all -> ~ In A (f_grad L)) -> mem_backward (map (to_m d) all) m A = m A.
  Proof. intros PL H1 H2. exact (backward_keeps all A PL all m (fun L H => H) H1 H2). Qed.
  Lemma passes_param m l x A : In l layers -> In A (cells l "parameters" x) -> bwd (fwd m) A = m A.
  Proof.
    intros Hl HA. destruct (passes a layers hubs lay HN HI HL HZ HS HD e T B m m ltac:(intros ? ?; reflexivity)) as [E1 [_ [_ E3]]]. unfold bwd, fwd. rewrite E3.
    assert (PL := fls_placed a layers hubs lay HN HI HL HZ HS HD e T B m).
    destruct (not_cell a layers hubs lay HN HI HL HZ T B "parameters" l x A Hl own_p ltac:(discriminate) ltac:(discriminate) HA) as [_ Nd].
    rewrite (backward_keeps_all (fls layers hubs lay e T B m) A _ PL Nd) by (intros L HLin; apply (param_not_written m l x A Hl HA L HLin)).
    rewrite (clear_par a layers hubs lay HN HI HL HZ HS HD e T B l x A _ Hl HA). rewrite E1.
    apply (forward_keeps_mem d cell (fls layers hubs lay e T B m) PL); [auto|]. intros L HLin. destruct (param_not_written m l x A Hl HA L HLin) as [N1 [N2 _]]. auto.
  Qed.
  (** Parameters without gradients: their gradients are 0. *)
  Lemma passes_untrained m l x A : In l layers -> ~ In x (par_names l) -> In A (cells l "gradients" x) -> bwd (fwd m) A = 0%R.
  Proof.
    intros Hl Nx HA. destruct (passes a layers hubs lay HN HI HL HZ HS HD e T B m m ltac:(intros ? ?; reflexivity)) as [E1 [_ [_ E3]]]. unfold bwd, fwd. rewrite E3.
    assert (PL := fls_placed a layers hubs lay HN HI HL HZ HS HD e T B m).
    destruct (not_cell a layers hubs lay HN HI HL HZ T B "gradients" l x A Hl own_g ltac:(discriminate) ltac:(discriminate) HA) as [_ Nd].
    rewrite (backward_keeps_all (fls layers hubs lay e T B m) A _ PL Nd).
    - destruct (cells_buffer _ _ _ _ _ _ _ _ _ HA) as [b Hb]. now rewrite (clear_cell a layers hubs lay HN HI HL HZ T B l "gradients" x b A _ Hl Hb ltac:(cbn; tauto) HA).
    - intros L HLin H. destruct (fls_In _ _ _ _ _ _ _ _ HLin) as [l' [Hl' ->]]. cbn [fl f_grad mlayer_of m_grad] in H. apply cells_of_In in H. destruct H as [n [Hn H]].
      destruct (once l "gradients" x l' "gradients" n A Hl (In_tl _ _ Hl') own_g own_g HA H) as [<- [_ <-]]. contradiction.
  Qed.

  (** ** The forward pass depends on the parameters and the data only. *)
  Definition known (pre : list linst) (A : nat) : Prop :=
    (exists l x, In l layers /\ In A (cells l "parameters" x)) \/
    (exists l0 r x, layers = l0 :: r /\ In A (cells l0 "outputs" x)) \/
    (exists l x, In l (tl pre) /\ In x (out_names (li_cls l) ++ loss_names (li_cls l)) /\ In A (cells l "outputs" x)).
  Lemma reads_known pre l post n A : layers = pre ++ l :: post -> pre <> [] -> In A (cells l "inputs" n) -> known pre A.
  Proof.
    intros E Np HA. assert (Hl : In l (tl layers)) by (rewrite E; destruct pre; [congruence|]; cbn; apply in_or_app; right; now left).
    destruct (input_from a layers hubs lay HN HI HL HZ HS HD e T B pre l post n A E Np HA) as [l' [c [H1 [H2 [H3 [H4 H5]]]]]].
    assert (X := conn_source layers HD l n c Hl H2).
    assert (X' : delta_source layers c = true) by (destruct (smem _ _); [now apply const_delta|exact X]). clear X.
    unfold delta_source in X'. apply orb_true_iff in X'. destruct X' as [X|X].
    - right. left. unfold const_source in X. destruct layers as [|l0 r] eqn:El; [discriminate X|]. apply andb_true_iff in X. destruct X as [X _]. apply String.eqb_eq in X.
      exists l0, r, (c_out c). split; [reflexivity|]. replace l0 with l'; [exact H5|]. rewrite <- El in *. apply (net_unique a layers HN HI); [apply H3|rewrite El; now left|rewrite <- X; apply H3].
    - right. right. apply existsb_exists in X. destruct X as [l1 [Hl1 X]]. apply andb_true_iff in X. destruct X as [X1 X2]. apply String.eqb_eq in X1. apply smem_In in X2.
      assert (l1 = l') by (apply (net_unique a layers HN HI); [now apply In_tl|apply H3|rewrite <- X1; symmetry; apply H3]). subst l1.
      exists l', (c_out c). split; [|split; [apply in_or_app; now left|exact H5]].
      destruct pre as [|l0 pre']; [congruence|]. cbn [tl]. destruct H1 as [->|H1]; [|exact H1]. exfalso. rewrite E in Hl1. cbn [app tl] in Hl1.
      assert (ND := layers_NoDup a layers HN HI). rewrite E in ND. inversion_clear ND. contradiction.
  Qed.
  Lemma run_known pre l post m1 m2 : layers = pre ++ l :: post -> pre <> [] -> (forall A, known pre A -> m1 A = m2 A) ->
    forall A, known (pre ++ [l]) A -> run_forward (ml l) m1 A = run_forward (ml l) m2 A.
  Proof.
    intros E Np H A HA. assert (Hl : In l layers) by (rewrite E; apply in_or_app; right; now left).
    assert (R1 : forall names, read (cells_of l "inputs" names) m1 = read (cells_of l "inputs" names) m2).
    { intros names. apply read_ext. intros A' HA'. apply cells_of_In in HA'. destruct HA' as [n [_ HA']]. apply H. exact (reads_known pre l post n A' E Np HA'). }
    assert (R2 : forall names, read (cells_of l "parameters" names) m1 = read (cells_of l "parameters" names) m2).
    { intros names. apply read_ext. intros A' HA'. apply cells_of_In in HA'. destruct HA' as [n [_ HA']]. apply H. left. now exists l, n. }
    unfold run_forward, ml, mlayer_of. cbn [m_kind m_in m_out m_par m_loss]. fold cells_of. rewrite !R1, !R2.
    assert (K : m1 A = m2 A \/ In A (cells_of l "outputs" (out_names (li_cls l))) \/ In A (cells_of l "outputs" (loss_names (li_cls l)))).
    { destruct HA as [HA|[HA|[l1 [x [Hl1 [Hx HA]]]]]]; [left; apply H; now left|left; apply H; right; now left|].
      destruct pre as [|l0 pre']; [congruence|]. cbn [app tl] in Hl1. apply in_app_or in Hl1. destruct Hl1 as [Hl1|[<-|[]]].
      - left. apply H. right. right. exists l1, x. auto.
      - right. apply in_app_or in Hx. destruct Hx as [Hx|Hx]; [left|right]; apply in_flat_map; exists x; auto. }
    destruct K as [K|[K|K]]; apply write_agree; [left|left|now right]; apply write_agree; [now left|now right].
  Qed.
  Lemma forward_known : forall post pre m1 m2, layers = pre ++ post -> pre <> [] -> (forall A, known pre A -> m1 A = m2 A) ->
    forall A, known layers A -> mem_forward (map ml post) m1 A = mem_forward (map ml post) m2 A.
  Proof.
    induction post as [|l post IH]; intros pre m1 m2 E Np H A HA; cbn [map mem_forward]; [rewrite app_nil_r in E; rewrite E in HA; now apply H|].
    apply (IH (pre ++ [l])); [now rewrite <- app_assoc|destruct pre; discriminate| |exact HA]. exact (run_known pre l post m1 m2 E Np H).
  Qed.
  Lemma loss_known m1 m2 : (forall A, known layers A -> m1 A = m2 A) -> net_loss layers hubs lay e T B m1 = net_loss layers hubs lay e T B m2.
  Proof.
    intros H. unfold net_loss, mlayers. fold ml. assert (G : forall ls, (forall l, In l ls -> In l (tl layers)) -> mem_loss (map ml ls) m1 = mem_loss (map ml ls) m2); [|now apply G].
    induction ls as [|l ls IH]; intros Hin; cbn [map mem_loss]; [reflexivity|]. rewrite IH by (intros; apply Hin; now right). f_equal. f_equal.
    apply read_ext. intros A HA. apply H. right. right. unfold ml, mlayer_of in HA. cbn [m_loss] in HA. apply cells_of_In in HA. destruct HA as [n [Hn HA]].
    exists l, n. split; [apply Hin; now left|]. split; [apply in_or_app; now right|exact HA].
  Qed.
  Lemma known_more pre A : incl (tl pre) (tl layers) -> known pre A -> known layers A.
  Proof. intros H [K|[K|[l [x [K1 K2]]]]]; [now left|right; now left|right; right]. exists l, x. split; [now apply H|exact K2]. Qed.
  Lemma smooth_known m1 m2 : (forall A, known layers A -> m1 A = m2 A) -> smooth layers hubs lay e T B m1 -> smooth layers hubs lay e T B m2.
  Proof.
    intros H S l Hl. specialize (S l Hl). cbv zeta in S |- *. destruct (in_split _ _ Hl) as [q [post Eq]].
    assert (X : layers = [] \/ exists l0 r, layers = l0 :: r) by (clear; destruct layers as [|l0 r]; [now left|right; now exists l0, r]). destruct X as [E|[l0 [r E]]]; [rewrite E in Hl; destruct Hl|].
    assert (E' : layers = (l0 :: q) ++ l :: post) by (rewrite E; cbn; f_equal; rewrite E in Eq; exact Eq).
    assert (R1 : forall names, read (cells_of l "inputs" names) m1 = read (cells_of l "inputs" names) m2).
    { intros names. apply read_ext. intros A HA. apply cells_of_In in HA. destruct HA as [n [_ HA]]. apply H. apply (known_more (l0 :: q)); [rewrite Eq; cbn; intros z Hz; apply in_or_app; now left|].
      exact (reads_known (l0 :: q) l post n A E' ltac:(discriminate) HA). }
    assert (R2 : forall names, read (cells_of l "parameters" names) m1 = read (cells_of l "parameters" names) m2).
    { intros names. apply read_ext. intros A HA. apply cells_of_In in HA. destruct HA as [n [_ HA]]. apply H. left. exists l, n. split; [now apply In_tl|exact HA]. }
    unfold mlayer_of in S |- *. cbn [m_kind m_par m_in] in S |- *. fold cells_of in S |- *. rewrite !R1, !R2 in S. exact S.
  Qed.
  Lemma forward_of_data m1 m2 : (forall A, known [] A -> m1 A = m2 A) -> forall A, known layers A -> fwd m1 A = fwd m2 A.
  Proof.
    intros H. intros A HA. unfold fwd, net_forward_pass, mlayers. fold ml. assert (X : layers = [] \/ exists l0 r, layers = l0 :: r) by (clear; destruct layers as [|l0 r]; [now left|right; now exists l0, r]). destruct X as [E|[l0 [r E]]]; [|].
    - exfalso. destruct HA as [[l [x [K _]]]|[[l0' [r' [x [K _]]]]|[l [x [K _]]]]]; rewrite E in K; [destruct K|discriminate K|destruct K].
    - replace (tl layers) with r by now rewrite E. apply (forward_known r [l0] m1 m2); [exact E|discriminate| |exact HA]. intros A' [K|[K|[l [x [[] _]]]]]; apply H; [now left|right; now left].
  Qed.
  Lemma loss_of_data m1 m2 : (forall A, known [] A -> m1 A = m2 A) -> net_loss layers hubs lay e T B (fwd m1) = net_loss layers hubs lay e T B (fwd m2).
  Proof.
    intros H. apply loss_known. exact (forward_of_data m1 m2 H).
  Qed.

  (** ** Training passes differ from the passes of C66 in the moving averages only. *)
  Let tp := train_pass layers hubs lay e T B.
  Definition avg (A : nat) : Prop := exists l x, In l (tl layers) /\ li_cls l = CBatchNorm /\ In x ["mu"; "sigma"] /\ In A (cells l "parameters" x).
  Definition off (m1 m2 : NumpyModel.vec) : Prop := forall A, ~ avg A -> m1 A = m2 A.
  Lemma avg_par A : avg A -> exists l x, In l layers /\ In x ["mu"; "sigma"] /\ In A (cells l "parameters" x).
  Proof. intros [l [x [Hl [_ [Hx HA]]]]]. exists l, x. split; [now apply In_tl|auto]. Qed.
  Lemma avg_own A l cat x : avg A -> In l layers -> ~ In cat ["inputs"; "input_deltas"] -> In A (cells l cat x) -> cat = "parameters" /\ In x ["mu"; "sigma"].
  Proof.
    intros H Hl Hc HA. destruct (avg_par A H) as [l' [x' [Hl' [Hx' HA']]]]. destruct (once l' "parameters" x' l cat x A Hl' Hl own_p Hc HA' HA) as [_ [<- <-]]. auto.
  Qed.
  Lemma avg_cell A : avg A -> ~ cell A /\ forall b, cell b -> d b <> A.
  Proof.
    intros H. destruct (avg_par A H) as [l' [x' [Hl' [Hx' HA']]]].
    exact (not_cell a layers hubs lay HN HI HL HZ T B "parameters" l' x' A Hl' own_p ltac:(discriminate) ltac:(discriminate) HA').
  Qed.
  Lemma not_average l x : In x (par_names l) \/ x = "timing" -> ~ In x ["mu"; "sigma"].
  Proof.
    intros [H| ->]; [|cbn; intuition discriminate]. unfold par_names in H. apply filter_In in H. destruct H as [_ H]. intros [<-|[<-|[]]]; discriminate H.
  Qed.
  Lemma avg_free l A : In l (tl layers) -> avg A ->
    (forall n, ~ In A (cells l "inputs" n)) /\ (forall n, ~ In A (cells l "outputs" n)) /\ ~ In A (m_par (ml l)) /\ ~ In A (m_din (ml l)) /\ ~ In A (m_dout (ml l)) /\ ~ In A (m_grad (ml l)) /\ ~ In A (cells_of l "parameters" ["timing"]).
  Proof.
    intros Hl HA. destruct (avg_cell A HA) as [Nc Nd].
    assert (P : forall names, (forall x, In x names -> In x (par_names l) \/ x = "timing") -> ~ In A (cells_of l "parameters" names)).
    { intros names Hn H. apply cells_of_In in H. destruct H as [n [Hn' H]]. destruct (avg_own A l "parameters" n HA (In_tl _ _ Hl) own_p H) as [_ X]. exact (not_average l n (Hn n Hn') X). }
    assert (I : forall n, ~ In A (cells l "inputs" n)) by (intros n H; apply Nc; exact (input_is_cell a layers hubs lay HN HI HL HZ HS HD e T B l n A Hl H)).
    split; [exact I|]. split; [intros n H; destruct (avg_own A l "outputs" n HA (In_tl _ _ Hl) own_o H) as [X _]; discriminate X|].
    split; [unfold ml, mlayer_of; cbn [m_par]; apply P; auto|].
    split; [|split; [|split]].
    - unfold ml. rewrite (din a layers hubs lay HN HI HL HZ HS HD e T B l Hl). intros H. apply in_map_iff in H. destruct H as [A' [E H]]. unfold mlayer_of in H. cbn [m_in] in H. apply cells_of_In in H. destruct H as [n [_ H]].
      exact (Nd A' (input_is_cell a layers hubs lay HN HI HL HZ HS HD e T B l n A' Hl H) E).
    - unfold ml, mlayer_of. cbn [m_dout]. intros H. apply cells_of_In in H. destruct H as [n [_ H]]. destruct (avg_own A l "output_deltas" n HA (In_tl _ _ Hl) ltac:(cbn; intuition discriminate) H) as [X _]. discriminate X.
    - unfold ml, mlayer_of. cbn [m_grad]. intros H. apply cells_of_In in H. destruct H as [n [_ H]]. destruct (avg_own A l "gradients" n HA (In_tl _ _ Hl) own_g H) as [X _]. discriminate X.
    - apply P. intros x [<-|[]]. now right.
  Qed.
  Lemma off_reads l m1 m2 : In l (tl layers) -> off m1 m2 ->
    (forall names, read (cells_of l "inputs" names) m1 = read (cells_of l "inputs" names) m2) /\ read (m_par (ml l)) m1 = read (m_par (ml l)) m2 /\
    read (m_out (ml l)) m1 = read (m_out (ml l)) m2 /\ read (m_dout (ml l)) m1 = read (m_dout (ml l)) m2 /\ read (m_grad (ml l)) m1 = read (m_grad (ml l)) m2 /\
    m_kind (ml l) m1 = m_kind (ml l) m2.
  Proof.
    intros Hl H. assert (F := avg_free l). assert (I : forall names, read (cells_of l "inputs" names) m1 = read (cells_of l "inputs" names) m2).
    { intros names. apply read_ext. intros A HA. apply cells_of_In in HA. destruct HA as [n [_ HA]]. apply H. intros N. exact (proj1 (F A Hl N) n HA). }
    split; [exact I|]. split; [|split; [|split; [|split]]].
    1,2,3,4: apply read_ext; intros A HA; apply H; intros N; destruct (F A Hl N) as [F1 [F2 [F3 [F4 [F5 [F6 F7]]]]]]; try contradiction.
    - unfold ml, mlayer_of in HA. cbn [m_out] in HA. apply cells_of_In in HA. destruct HA as [n [_ HA]]. exact (F2 n HA).
    - unfold ml, mlayer_of. cbn [m_kind]. fold cells_of. rewrite I. f_equal. apply read_ext; intros A HA; apply H; intros N; destruct (F A Hl N) as [F1 [F2 [F3 [F4 [F5 [F6 F7]]]]]]; contradiction.
  Qed.
  Lemma off_forward l m1 m2 : In l (tl layers) -> off m1 m2 -> off (run_forward (ml l) m1) (run_forward (ml l) m2).
  Proof.
    intros Hl H A NA. destruct (off_reads l m1 m2 Hl H) as [R1 [R2 [_ [_ [_ R3]]]]]. unfold run_forward. rewrite R2, R3. change (m_in (ml l)) with (cells_of l "inputs" (in_names (li_cls l))). rewrite R1.
    apply write_agree. left. apply write_agree. left. now apply H.
  Qed.
  Lemma off_backward l m1 m2 : In l (tl layers) -> off m1 m2 -> off (run_backward (ml l) m1) (run_backward (ml l) m2).
  Proof.
    intros Hl H A NA. destruct (off_reads l m1 m2 Hl H) as [R1 [R2 [R4 [R5 [R6 R3]]]]]. unfold run_backward. rewrite R2, R3, R4, R5, R6. change (m_in (ml l)) with (cells_of l "inputs" (in_names (li_cls l))). rewrite R1.
    destruct (k_bwd _ _ _ _ _ _) as [dx g]. apply write_agree. left. apply write_agree. left. rewrite !add_to_spec. f_equal. now apply H.
  Qed.
  Lemma off_trans m1 m2 m3 : off m1 m2 -> off m2 m3 -> off m1 m3.
  Proof. intros H1 H2 A NA. rewrite (H1 A NA). now apply H2. Qed.
  Lemma off_averages l m : In l (tl layers) -> off (averages layers hubs lay T B l m) m.
  Proof.
    intros Hl A NA. unfold averages. destruct (li_cls l) eqn:Ec; try reflexivity. cbv zeta.
    assert (X : forall x, In x ["mu"; "sigma"] -> ~ In A (cells l "parameters" x)) by (intros x Hx HA; apply NA; now exists l, x).
    rewrite !write_out by (apply X; cbn; tauto). reflexivity.
  Qed.
  Lemma off_pass : forall ls m1 m2, (forall l, In l ls -> In l (tl layers)) -> off m1 m2 -> off (tp ls m1) (mem_forward (map ml ls) m2).
  Proof.
    induction ls as [|l ls IH]; intros m1 m2 Hin H; [exact H|]. cbn [map mem_forward]. apply IH; [intros; apply Hin; now right|].
    apply off_forward; [apply Hin; now left|]. apply (off_trans _ m1); [apply off_averages, Hin; now left|exact H].
  Qed.
  Lemma off_back : forall ls m1 m2, (forall l, In l ls -> In l (tl layers)) -> off m1 m2 -> off (mem_backward (map ml ls) m1) (mem_backward (map ml ls) m2).
  Proof.
    induction ls as [|l ls IH]; intros m1 m2 Hin H; [exact H|]. cbn [map mem_backward]. apply off_backward; [apply Hin; now left|]. apply IH; [intros; apply Hin; now right|exact H].
  Qed.
  Lemma clear_at m1 m2 A : m1 A = m2 A -> clear_backward_buffers R 0%R hubs (S T) B m1 A = clear_backward_buffers R 0%R hubs (S T) B m2 A.
  Proof.
    unfold clear_backward_buffers. generalize (combine (seq 0 (length hubs)) hubs) as ks. intros ks. revert m1 m2. induction ks as [|[k h] ks IH]; intros m1 m2 H; cbn [fold_left]; [exact H|]. apply IH.
    destruct (h_bwd h); [|exact H]. unfold write_block. destruct (_ && _)%bool; [reflexivity|exact H].
  Qed.
  Lemma off_train m : off (tp (tl layers) m) (fwd m).
  Proof. apply off_pass; [auto|]. intros A _. reflexivity. Qed.
  Lemma off_passes m : off (bwd (tp (tl layers) m)) (bwd (fwd m)).
  Proof. apply off_back; [auto|]. intros A NA. apply clear_at. now apply off_train. Qed.
  (** The backward pass keeps the moving averages. *)
  Lemma back_keeps A : avg A -> forall ls m, (forall l, In l ls -> In l (tl layers)) -> mem_backward (map ml ls) m A = m A.
  Proof.
    intros HA. induction ls as [|l ls IH]; intros m Hin; [reflexivity|]. cbn [map mem_backward]. destruct (avg_free l A (Hin l (or_introl eq_refl)) HA) as [_ [_ [_ [F4 [F5 [F6 _]]]]]].
    unfold run_backward. destruct (k_bwd _ _ _ _ _ _) as [dx g]. rewrite !write_out by assumption. rewrite MemoryPassProofs.add_out by assumption. apply IH. intros; apply Hin; now right.
  Qed.
  Lemma backward_average m A : avg A -> bwd m A = m A.
  Proof.
    intros HA. unfold bwd, net_backward_pass, mlayers. fold ml. rewrite back_keeps by auto. destruct (avg_par A HA) as [l [x [Hl [_ H]]]]. exact (clear_par a layers hubs lay HN HI HL HZ HS HD e T B l x A m Hl H).
  Qed.
  (** What a layer does not write *)
  Lemma layer_keeps l m A : (forall x, ~ In A (cells l "outputs" x)) -> (li_cls l = CBatchNorm -> forall x, In x ["mu"; "sigma"] -> ~ In A (cells l "parameters" x)) ->
    run_forward (ml l) (averages layers hubs lay T B l m) A = m A.
  Proof.
    intros H1 H2. unfold run_forward. rewrite !write_out by (unfold ml, mlayer_of; cbn [m_out m_loss]; intros H; apply cells_of_In in H; destruct H as [n [_ H]]; exact (H1 n H)).
    unfold averages. destruct (li_cls l); try reflexivity. cbv zeta. now rewrite !write_out by (apply H2; cbn; tauto).
  Qed.
  Lemma pass_keeps A : forall ls m, (forall l, In l ls -> (forall x, ~ In A (cells l "outputs" x)) /\ (li_cls l = CBatchNorm -> forall x, In x ["mu"; "sigma"] -> ~ In A (cells l "parameters" x))) -> tp ls m A = m A.
  Proof.
    induction ls as [|l ls IH]; intros m H; [reflexivity|]. unfold tp, train_pass. cbn [fold_left]. change (tp ls (run_forward (ml l) (averages layers hubs lay T B l m)) A = m A).
    rewrite IH by (intros; apply H; now right). apply layer_keeps; apply H; now left.
  Qed.
  Lemma off_loss m1 m2 : off m1 m2 -> net_loss layers hubs lay e T B m1 = net_loss layers hubs lay e T B m2.
  Proof.
    intros H. unfold net_loss, mlayers. fold ml. assert (G : forall ls, (forall l, In l ls -> In l (tl layers)) -> mem_loss (map ml ls) m1 = mem_loss (map ml ls) m2); [|now apply G].
    induction ls as [|l ls IH]; intros Hin; cbn [map mem_loss]; [reflexivity|]. rewrite IH by (intros; apply Hin; now right). f_equal. f_equal.
    apply read_ext. intros A HA. apply H. intros N. unfold ml, mlayer_of in HA. cbn [m_loss] in HA. apply cells_of_In in HA. destruct HA as [n [Hn HA]].
    exact (proj1 (proj2 (avg_free l A (Hin l (or_introl eq_refl)) N)) n HA).
  Qed.
  Lemma off_smooth m1 m2 : off m1 m2 -> smooth layers hubs lay e T B m1 -> smooth layers hubs lay e T B m2.
  Proof.
    intros H S l Hl. specialize (S l Hl). cbv zeta in S |- *. fold ml in S |- *. destruct (off_reads l m1 m2 Hl H) as [R1 [R2 [_ [_ [_ R3]]]]].
    rewrite <- R2, <- R3. change (m_in (ml l)) with (cells_of l "inputs" (in_names (li_cls l))) in S |- *. now rewrite <- R1.
  Qed.
  Lemma train_input m1 m2 l n : In l (tl layers) -> (forall A, known [] A -> m1 A = m2 A) -> read (cells l "inputs" n) (tp (tl layers) m1) = read (cells l "inputs" n) (tp (tl layers) m2).
  Proof.
    intros Hl H. apply read_ext. intros A HA. assert (NA : ~ avg A) by (intros N; exact (proj1 (avg_free l A Hl N) n HA)).
    rewrite !(off_train _ A NA). apply forward_of_data; [exact H|]. destruct (tl_split a layers hubs lay HI HL HZ HS HD e T B l Hl) as [pre [post [E Np]]].
    apply (known_more pre); [|exact (reads_known pre l post n A E Np HA)]. rewrite E. destruct pre; [congruence|]. cbn. intros z Hz. apply in_or_app. now left.
  Qed.
  (** ** The backward pass depends on what the forward pass left in outputs and parameters only. *)
  Definition seen (A : nat) : Prop := (known layers A /\ ~ avg A) \/ exists l cat x, In l layers /\ In cat ["output_deltas"; "gradients"] /\ In A (cells l cat x).
  Lemma seen_reads l m1 m2 : In l (tl layers) -> (forall A, seen A -> m1 A = m2 A) ->
    (forall names, read (cells_of l "inputs" names) m1 = read (cells_of l "inputs" names) m2) /\ read (m_par (ml l)) m1 = read (m_par (ml l)) m2 /\
    read (m_out (ml l)) m1 = read (m_out (ml l)) m2 /\ read (m_dout (ml l)) m1 = read (m_dout (ml l)) m2 /\ read (m_grad (ml l)) m1 = read (m_grad (ml l)) m2 /\
    m_kind (ml l) m1 = m_kind (ml l) m2.
  Proof.
    intros Hl H. assert (F := avg_free l). destruct (tl_split a layers hubs lay HI HL HZ HS HD e T B l Hl) as [pre [post [E Np]]].
    assert (I : forall names, read (cells_of l "inputs" names) m1 = read (cells_of l "inputs" names) m2).
    { intros names. apply read_ext. intros A HA. apply cells_of_In in HA. destruct HA as [n [_ HA]]. apply H. left. split; [|intros N; exact (proj1 (F A Hl N) n HA)].
      apply (known_more pre); [|exact (reads_known pre l post n A E Np HA)]. rewrite E. destruct pre; [congruence|]. cbn. intros z Hz. apply in_or_app. now left. }
    assert (P : forall names, (forall A, In A (cells_of l "parameters" names) -> ~ avg A) -> read (cells_of l "parameters" names) m1 = read (cells_of l "parameters" names) m2).
    { intros names Q. apply read_ext. intros A HA. apply H. left. split; [|now apply Q]. apply cells_of_In in HA. destruct HA as [n [_ HA]]. left. exists l, n. split; [now apply In_tl|exact HA]. }
    split; [exact I|]. split; [|split; [|split; [|split]]].
    - apply P. intros A HA N. destruct (F A Hl N) as [_ [_ [F3 _]]]. exact (F3 HA).
    - apply read_ext. intros A HA. apply H. left. unfold ml, mlayer_of in HA. cbn [m_out] in HA. apply cells_of_In in HA. destruct HA as [n [Hn HA]]. split; [|intros N; exact (proj1 (proj2 (F A Hl N)) n HA)].
      right. right. exists l, n. split; [exact Hl|]. split; [apply in_or_app; now left|exact HA].
    - apply read_ext. intros A HA. apply H. right. unfold ml, mlayer_of in HA. cbn [m_dout] in HA. apply cells_of_In in HA. destruct HA as [n [_ HA]]. exists l, "output_deltas", n. split; [now apply In_tl|]. split; [now left|exact HA].
    - apply read_ext. intros A HA. apply H. right. unfold ml, mlayer_of in HA. cbn [m_grad] in HA. apply cells_of_In in HA. destruct HA as [n [_ HA]]. exists l, "gradients", n. split; [now apply In_tl|]. split; [right; now left|exact HA].
    - unfold ml, mlayer_of. cbn [m_kind]. fold cells_of. rewrite I. f_equal. apply P. intros A HA N. destruct (F A Hl N) as [F1 [F2 [F3 [F4 [F5 [F6 F7]]]]]]. contradiction.
  Qed.
  Lemma seen_back : forall ls m1 m2, (forall l, In l ls -> In l (tl layers)) -> (forall A, seen A -> m1 A = m2 A) -> forall A, seen A -> mem_backward (map ml ls) m1 A = mem_backward (map ml ls) m2 A.
  Proof.
    induction ls as [|l ls IH]; intros m1 m2 Hin H; [exact H|]. cbn [map mem_backward]. assert (K := IH m1 m2 ltac:(intros; apply Hin; now right) H).
    set (n1 := mem_backward (map ml ls) m1) in *. set (n2 := mem_backward (map ml ls) m2) in *. intros A HA.
    destruct (seen_reads l n1 n2 (Hin l (or_introl eq_refl)) K) as [R1 [R2 [R4 [R5 [R6 R3]]]]]. unfold run_backward. rewrite R2, R3, R4, R5, R6. change (m_in (ml l)) with (cells_of l "inputs" (in_names (li_cls l))). rewrite R1.
    destruct (k_bwd _ _ _ _ _ _) as [dx g]. apply write_agree. left. apply write_agree. left. rewrite !add_to_spec. f_equal. now apply K.
  Qed.
  Lemma backward_of_data m1 m2 A : (forall A, known [] A -> m1 A = m2 A) -> seen A -> bwd (tp (tl layers) m1) A = bwd (tp (tl layers) m2) A.
  Proof.
    intros H HA. unfold bwd, net_backward_pass, mlayers. fold ml. apply seen_back; [auto| |exact HA]. clear A HA. intros A [[K NA]|[l [cat [x [Hl [Hc HA]]]]]].
    - apply clear_at. rewrite !(off_train _ A NA). now apply forward_of_data.
    - destruct (cells_buffer _ _ _ _ _ _ _ _ _ HA) as [b Hb]. rewrite !(clear_cell a layers hubs lay HN HI HL HZ T B l cat x b A _ Hl Hb ltac:(cbn in Hc |- *; tauto) HA). destruct Hc as [<-|[<-|[]]]; reflexivity.
  Qed.
  (** The new moving averages *)
  Lemma averages_value m l j : In l (tl layers) -> li_cls l = CBatchNorm ->
    let m' := tp (tl layers) m in
    let st := bn_forward true (S T * B) (number (cf_scalar (li_cfg l))) (number (cf_epsilon (li_cfg l))) none none
                (read (cells l "parameters" "mu") m) (read (cells l "parameters" "sigma") m) none (mat_of (nf (li_in l) "default") (read (cells l "inputs" "default") m')) in
    (j < length (cells l "parameters" "mu") -> m' (nth j (cells l "parameters" "mu") 0) = bn_mu st j) /\
    (j < length (cells l "parameters" "sigma") -> m' (nth j (cells l "parameters" "sigma") 0) = bn_sigma st j).
  Proof.
    intros Hl Ec m' st. destruct (tl_split a layers hubs lay HI HL HZ HS HD e T B l Hl) as [pre [post [E Np]]].
    assert (ND := layers_NoDup a layers HN HI). rewrite E in ND. assert (ND1 := NoDup_remove_2 _ _ _ ND).
    assert (Et : tl layers = tl pre ++ l :: post) by (rewrite E; destruct pre; [congruence|reflexivity]).
    set (m1 := tp (tl pre) m). set (m2 := run_forward (ml l) (averages layers hubs lay T B l m1)).
    assert (Em : m' = tp post m2). { unfold m', tp, train_pass. rewrite Et, fold_left_app. reflexivity. }
    assert (Hpre : forall l', In l' (tl pre) -> In l' layers) by (intros l' H'; rewrite E; apply in_or_app; left; now apply In_tl).
    assert (Hpost : forall l', In l' post -> In l' layers) by (intros l' H'; rewrite E; apply in_or_app; right; now right).
    assert (Hl' := In_tl _ _ Hl).
    (* the averages of l are written by l only *)
    assert (K : forall A x l', In x ["mu"; "sigma"] -> In A (cells l "parameters" x) -> In l' layers -> l' <> l ->
      (forall y, ~ In A (cells l' "outputs" y)) /\ (li_cls l' = CBatchNorm -> forall y, In y ["mu"; "sigma"] -> ~ In A (cells l' "parameters" y))).
    { intros A x l' Hx HA H' Nl. split; [intros y H|intros _ y _ H].
      - destruct (once l "parameters" x l' "outputs" y A Hl' H' own_p own_o HA H) as [_ [X _]]. discriminate X.
      - destruct (once l "parameters" x l' "parameters" y A Hl' H' own_p own_p HA H) as [X _]. now apply Nl. }
    assert (K1 : forall A x, In x ["mu"; "sigma"] -> In A (cells l "parameters" x) -> m1 A = m A).
    { intros A x Hx HA. apply pass_keeps. intros l' H'. apply (K A x l' Hx HA (Hpre l' H')). intros ->. apply ND1. apply in_or_app. left. now apply In_tl. }
    assert (K2 : forall A x, In x ["mu"; "sigma"] -> In A (cells l "parameters" x) -> m' A = averages layers hubs lay T B l m1 A).
    { intros A x Hx HA. rewrite Em. rewrite pass_keeps.
      - unfold m2, run_forward. rewrite !write_out; [reflexivity| |]; unfold ml, mlayer_of; cbn [m_out m_loss]; intros H; apply cells_of_In in H; destruct H as [n [_ H]];
          destruct (once l "parameters" x l "outputs" n A Hl' Hl' own_p own_o HA H) as [_ [X _]]; discriminate X.
      - intros l' H'. apply (K A x l' Hx HA (Hpost l' H')). intros ->. apply ND1. apply in_or_app. now right. }
    (* the inputs keep their values *)
    assert (KI : read (cells l "inputs" "default") m1 = read (cells l "inputs" "default") m').
    { apply read_ext. intros A HA. rewrite Em. destruct (input_from a layers hubs lay HN HI HL HZ HS HD e T B pre l post "default" A E Np HA) as [l0 [c [P1 [P2 [P3 [P4 P5]]]]]].
      assert (O : forall l', In l' (l :: post) -> (forall y, ~ In A (cells l' "outputs" y)) /\ (li_cls l' = CBatchNorm -> forall y, In y ["mu"; "sigma"] -> ~ In A (cells l' "parameters" y))).
      { intros l' H'. assert (H'' : In l' layers) by (rewrite E; apply in_or_app; now right). split; [intros y H|intros _ y _ H].
        - destruct (once l0 "outputs" (c_out c) l' "outputs" y A (proj1 P3) H'' own_o own_o P5 H) as [<- _].
          clear -ND P1 H'. induction pre as [|z pre IHp]; [destruct P1|]. cbn in ND. inversion_clear ND as [|? ? Q1 Q2]. destruct P1 as [->|P1]; [apply Q1; apply in_or_app; now right|now apply IHp].
        - destruct (once l0 "outputs" (c_out c) l' "parameters" y A (proj1 P3) H'' own_o own_p P5 H) as [_ [X _]]. discriminate X. }
      rewrite pass_keeps by (intros l' H'; apply O; now right). symmetry. apply layer_keeps; apply O; now left. }
    assert (W : forall x, In x ["mu"; "sigma"] -> NoDup (cells l "parameters" x)) by (intros x _; exact (cells_NoDup a layers hubs lay HN HI HL HZ (S T) B l "parameters" x Hl' own_p)).
    assert (R : forall x, In x ["mu"; "sigma"] -> read (cells l "parameters" x) m1 = read (cells l "parameters" x) m) by (intros x Hx; apply read_ext; intros A HA; exact (K1 A x Hx HA)).
    split; intros Hj.
    - rewrite (K2 _ "mu" ltac:(cbn; tauto) (nth_In _ _ Hj)). unfold averages. rewrite Ec. cbv zeta. rewrite write_out, write_in; [|apply W; cbn; tauto|exact Hj|].
      + fold cells. rewrite KI, (R "mu"), (R "sigma") by (cbn; tauto). reflexivity.
      + intros H. destruct (once l "parameters" "mu" l "parameters" "sigma" _ Hl' Hl' own_p own_p (nth_In _ _ Hj) H) as [_ [_ X]]. discriminate X.
    - rewrite (K2 _ "sigma" ltac:(cbn; tauto) (nth_In _ _ Hj)). unfold averages. rewrite Ec. cbv zeta. rewrite write_in; [|apply W; cbn; tauto|exact Hj].
      fold cells. rewrite KI, (R "mu"), (R "sigma") by (cbn; tauto). reflexivity.
  Qed.
  End Passes.

  (** ** One pass of a stepper *)
  Definition smooth_at (b : batch) (params : NumpyModel.vec) : Prop :=
    smooth layers hubs lay (b_env b) (b_time b) (b_size b) (forward layers hubs lay b (prepared layers hubs lay b params)).
  (** The element k of net.buffer.parameters is the element idx of the parameter p of the layer l, whatever the size of the batch. *)
  Definition is_element (k : nat) (l : linst) (p : string) (idx : list nat) : Prop :=
    In l layers /\ (exists b, In (p, b) (li_params l) /\ Forall2 lt idx (fdims b)) /\
    forall T B v, view layers hubs lay T B l "parameters" p = Some v -> nth_error (whole layers hubs lay T B "parameters") k = Some (address v idx).
  Lemma element_facts k l p idx : is_element k l p idx ->
    (forall T B, k < length (whole layers hubs lay T B "parameters") /\ length (whole layers hubs lay T B "gradients") = length (whole layers hubs lay T B "parameters") /\ NoDup (whole layers hubs lay T B "parameters")) /\
    exists b, In l layers /\ In (p, b) (li_params l) /\ Forall2 lt idx (fdims b) /\
      (forall kind T B v, kind = "parameters" \/ kind = "gradients" -> view layers hubs lay T B l kind p = Some v -> nth k (whole layers hubs lay T B kind) 0 = address v idx).
  Proof.
    intros [Hl [[b [Hb Hr]] H]]. destruct whole_elements as [total [start W]].
    assert (K : k = start (li_name l) p + ravel (fdims b) idx /\ k < total).
    { destruct (C63_views a layers hubs lay HN HI HL HZ l "parameters" p b 1 1 Hl Hb) as [v [Ev _]]. specialize (H 1 1 v Ev).
      destruct (W 1 1) as [_ [_ [W3 [_ W5]]]]. destruct (W5 "parameters" l p b v idx (or_introl eq_refl) Hl Hb Ev Hr) as [X1 X2]. destruct (W3 ltac:(lia)) as [Le ND].
      assert (Hk : k < total) by (rewrite <- Le; apply nth_error_Some; congruence). split; [|exact Hk].
      apply (nth_error_nth _ _ 0) in H. apply (proj1 (NoDup_nth _ 0) ND); [now rewrite Le|now rewrite Le|congruence]. }
    destruct K as [-> Hk]. split.
    - intros T B. destruct (W T B) as [_ [_ [W3 [W4 _]]]]. destruct (W3 ltac:(lia)) as [Le ND]. rewrite Le, (W4 ltac:(lia)). auto.
    - exists b. repeat split; try assumption. intros kind T B v Hk' Hv. destruct (W T B) as [_ [_ [_ [_ W5]]]]. exact (proj2 (W5 kind l p b v idx Hk' Hl Hb Hv Hr)).
  Qed.
  Lemma element_views k l p idx T B : is_element k l p idx -> exists v w,
    view layers hubs lay T B l "parameters" p = Some v /\ view layers hubs lay T B l "gradients" p = Some w /\ in_range v idx /\
    nth k (whole layers hubs lay T B "parameters") 0 = address v idx /\ nth k (whole layers hubs lay T B "gradients") 0 = address w idx.
  Proof.
    intros H. destruct (element_facts k l p idx H) as [_ [b [Hl [Hb [Hr V]]]]].
    destruct (C63_views a layers hubs lay HN HI HL HZ l "parameters" p b T B Hl Hb) as [v [Ev Sv]]. destruct (C63_views a layers hubs lay HN HI HL HZ l "gradients" p b T B Hl Hb) as [w [Ew _]].
    exists v, w. repeat split; try assumption; [unfold in_range; rewrite Sv, (param_fixed l p b T B Hl Hb); exact Hr|apply V; auto|apply V; auto].
  Qed.
  Lemma element_cells k l p idx T B : is_element k l p idx ->
    In (nth k (whole layers hubs lay T B "parameters") 0) (CellsProofs.cells layers hubs lay T B l "parameters" p) /\
    In (nth k (whole layers hubs lay T B "gradients") 0) (CellsProofs.cells layers hubs lay T B l "gradients" p).
  Proof.
    intros H. destruct (element_facts k l p idx H) as [_ [b [Hl [Hb [Hr V]]]]].
    destruct (cells_view a layers hubs lay HN HI HL HZ T B l "parameters" p b Hl Hb) as [v [Ev [_ Cv]]]. destruct (cells_view a layers hubs lay HN HI HL HZ T B l "gradients" p b Hl Hb) as [w [Ew [_ Cw]]].
    rewrite (V _ _ _ v (or_introl eq_refl) Ev), (V _ _ _ w (or_intror eq_refl) Ew), Cv, Cw.
    assert (X : In idx (all_indices (data_shape b T B))) by (apply all_indices_spec; rewrite <- (fixed_shape a layers l p b T B HI Hl Hb), (param_fixed l p b T B Hl Hb); exact Hr).
    split; now apply in_map.
  Qed.
  (** mu and sigma of BatchNorm layers *)
  Definition average (l : linst) (p : string) : Prop := li_cls l = CBatchNorm /\ In p ["mu"; "sigma"].
  Lemma element_tl k l p idx : is_element k l p idx -> In l (tl layers).
  Proof.
    intros [Hl [[b [Hb _]] _]]. assert (X : layers = [] \/ exists l0 r, layers = l0 :: r) by (clear; destruct layers as [|l0 r]; [now left|right; now exists l0, r]). destruct X as [E|[l0 [r E]]]; [rewrite E in Hl; destruct Hl|].
    destruct (first_input a layers HN HI l0 r E) as [_ [P _]]. rewrite E in Hl |- *. destruct Hl as [<-|Hl]; [rewrite P in Hb; destruct Hb|exact Hl].
  Qed.
  Lemma average_cell k l p idx T B : is_element k l p idx -> (avg T B (nth k (whole layers hubs lay (S T) B "parameters") 0) <-> average l p).
  Proof.
    intros E. assert (C := proj1 (element_cells k l p idx (S T) B E)). assert (Ht := element_tl k l p idx E). destruct E as [Hl _]. split.
    - intros [l' [x [Hl' [Ec [Hx HA]]]]]. destruct (once a layers hubs lay HN HI HL HZ T B l "parameters" p l' "parameters" x _ Hl (In_tl _ _ Hl') own_p own_p C HA) as [<- [_ <-]]. now split.
    - intros [Ec Hx]. exists l, p. auto.
  Qed.
  Lemma gradient_cell k l p idx T B : is_element k l p idx -> ~ avg T B (nth k (whole layers hubs lay (S T) B "gradients") 0).
  Proof.
    intros E N. destruct (avg_own T B _ l "gradients" p N (proj1 E) own_g (proj2 (element_cells k l p idx (S T) B E))) as [X _]. discriminate X.
  Qed.
  Lemma batch_loss_pass b params : batch_loss layers hubs lay b params =
    net_loss layers hubs lay (b_env b) (b_time b) (b_size b) (net_forward_pass layers hubs lay (b_env b) (b_time b) (b_size b) (prepared layers hubs lay b params)).
  Proof. unfold batch_loss, forward. apply off_loss. apply off_train. Qed.
  Lemma element_gradient b params k l p idx : smooth_at b params -> is_element k l p idx ->
    let m := backward layers hubs lay b (forward layers hubs lay b (prepared layers hubs lay b params)) in
    In p (par_names l) -> D (params k) (fun r => batch_loss layers hubs lay b (NetworkModel.upd k r params)) (read (grad_cells layers hubs lay b) m k).
  Proof.
    intros S E m Hp. destruct (element_facts k l p idx E) as [F [bs [Hl [Hb [Hr _]]]]]. destruct (F (Datatypes.S (b_time b)) (b_size b)) as [F1 [F2 F3]]. fold (param_cells layers hubs lay b) (grad_cells layers hubs lay b) in F1, F2, F3.
    rewrite read_at by now rewrite F2. unfold m, backward, forward, grad_cells. rewrite (off_passes (b_env b) (b_time b) (b_size b) _ _ (gradient_cell k l p idx (b_time b) (b_size b) E)).
    destruct (element_views k l p idx (Datatypes.S (b_time b)) (b_size b) E) as [v [w [Ev [Ew [Hi [Nv Nw]]]]]].
    assert (S' := off_smooth (b_env b) (b_time b) (b_size b) _ _ (off_train (b_env b) (b_time b) (b_size b) _) S).
    assert (X := C66_gradients a layers hubs lay (b_env b) (b_time b) (b_size b) (prepared layers hubs lay b params) HN HI HL HZ HS HD S' l p v w idx Hl Hp Ev Ew Hi).
    rewrite <- Nv, <- Nw in X. replace (params k) with (prepared layers hubs lay b params (nth k (whole layers hubs lay (Datatypes.S (b_time b)) (b_size b) "parameters") 0)) by (apply write_in; assumption).
    replace (fun r => batch_loss layers hubs lay b (NetworkModel.upd k r params)) with
      (fun r => net_loss layers hubs lay (b_env b) (b_time b) (b_size b) (net_forward_pass layers hubs lay (b_env b) (b_time b) (b_size b) (NetworkModel.upd (nth k (whole layers hubs lay (Datatypes.S (b_time b)) (b_size b) "parameters") 0) r (prepared layers hubs lay b params)))); [exact X|].
    apply functional_extensionality. intros r. rewrite batch_loss_pass. f_equal. f_equal. unfold prepared at 2. now rewrite write_upd.
  Qed.
  Lemma element_untrained b params k l p idx : is_element k l p idx -> ~ In p (par_names l) ->
    read (grad_cells layers hubs lay b) (backward layers hubs lay b (forward layers hubs lay b (prepared layers hubs lay b params))) k = 0%R.
  Proof.
    intros E Hp. destruct (element_facts k l p idx E) as [F [bs [Hl _]]]. destruct (F (S (b_time b)) (b_size b)) as [F1 [F2 _]]. fold (param_cells layers hubs lay b) (grad_cells layers hubs lay b) in F1, F2.
    rewrite read_at by now rewrite F2. unfold backward, forward, grad_cells. rewrite (off_passes (b_env b) (b_time b) (b_size b) _ _ (gradient_cell k l p idx (b_time b) (b_size b) E)).
    apply (passes_untrained (b_env b) (b_time b) (b_size b) _ l p); [exact Hl|exact Hp|]. apply (element_cells k l p idx _ _ E).
  Qed.
  Lemma element_kept b params k l p idx : is_element k l p idx -> ~ average l p ->
    read (param_cells layers hubs lay b) (backward layers hubs lay b (forward layers hubs lay b (prepared layers hubs lay b params))) k = params k.
  Proof.
    intros E NA. destruct (element_facts k l p idx E) as [F [bs [Hl _]]]. destruct (F (S (b_time b)) (b_size b)) as [F1 [F2 F3]]. fold (param_cells layers hubs lay b) in F1, F3.
    rewrite read_at by exact F1. unfold backward, forward. rewrite (off_passes (b_env b) (b_time b) (b_size b)) by (unfold param_cells; intros N; apply NA; exact (proj1 (average_cell k l p idx _ _ E) N)).
    transitivity (prepared layers hubs lay b params (nth k (param_cells layers hubs lay b) 0)); [|now apply write_in].
    apply (passes_param (b_env b) (b_time b) (b_size b) _ l p _ Hl). apply (element_cells k l p idx _ _ E).
  Qed.
  (** The inputs of a layer in the forward pass *)
  Definition layer_inputs (b : batch) (params : NumpyModel.vec) (l : linst) : mat :=
    mat_of (nf (li_in l) "default") (read (CellsProofs.cells layers hubs lay (S (b_time b)) (b_size b) l "inputs" "default") (forward layers hubs lay b (prepared layers hubs lay b params))).
  Definition column_mean (rows : nat) (x : mat) (j : nat) : R := (Rsum rows (fun i => x i j) / INR rows)%R.
  Definition column_variance (rows : nat) (x : mat) (j : nat) : R := (Rsum rows (fun i => (x i j - column_mean rows x j) * (x i j - column_mean rows x j)) / INR rows)%R.
  Definition new_average (b : batch) (params : NumpyModel.vec) (l : linst) (p : string) (j : nat) (old : R) : R :=
    let rows := S (b_time b) * b_size b in
    let x := layer_inputs b params l in
    let decay := number (cf_scalar (li_cfg l)) in
    if String.eqb p "mu" then (decay * old - (1 - decay) * column_mean rows x j)%R
    else (decay * old + (1 - decay) * sqrt (column_variance rows x j + number (cf_epsilon (li_cfg l))))%R.
  Lemma element_average b params k l p j : is_element k l p [j] -> average l p ->
    read (param_cells layers hubs lay b) (backward layers hubs lay b (forward layers hubs lay b (prepared layers hubs lay b params))) k = new_average b params l p j (params k).
  Proof.
    intros E Av. assert (Ht := element_tl k l p [j] E). destruct (element_facts k l p [j] E) as [F [bs [Hl [Hb [Hr V]]]]]. destruct (F (S (b_time b)) (b_size b)) as [F1 [F2 F3]]. fold (param_cells layers hubs lay b) in F1, F3.
    rewrite read_at by exact F1. unfold backward. unfold param_cells at 1. rewrite (backward_average (b_env b) (b_time b) (b_size b)) by (apply (average_cell k l p [j] _ _ E); exact Av).
    destruct (cells_view a layers hubs lay HN HI HL HZ (S (b_time b)) (b_size b) l "parameters" p bs Hl Hb) as [v [Ev [_ Cv]]].
    assert (Ef : data_shape bs (S (b_time b)) (b_size b) = fdims bs) by (rewrite <- (fixed_shape a layers l p bs _ _ HI Hl Hb); exact (param_fixed l p bs _ _ Hl Hb)).
    assert (Hc : exists c, fdims bs = [c] /\ j < c) by (inversion Hr as [|? c ? ds H1 H2]; subst; inversion H2; subst; exists c; auto). destruct Hc as [c [Fc Hj]].
    rewrite Ef, Fc, indices1, map_map in Cv.
    assert (Nj : nth j (CellsProofs.cells layers hubs lay (S (b_time b)) (b_size b) l "parameters" p) 0 = nth k (param_cells layers hubs lay b) 0).
    { unfold param_cells. rewrite (V "parameters" _ _ v (or_introl eq_refl) Ev), Cv. rewrite (nth_indep _ 0 (address v [0])) by now rewrite map_length, seq_length. rewrite (map_nth (fun i => address v [i])). now rewrite seq_nth. }
    assert (Lj : j < length (CellsProofs.cells layers hubs lay (S (b_time b)) (b_size b) l "parameters" p)) by (rewrite Cv, map_length, seq_length; exact Hj).
    fold (param_cells layers hubs lay b). rewrite <- Nj. destruct Av as [Ec Hp].
    assert (X := averages_value (b_env b) (b_time b) (b_size b) (prepared layers hubs lay b params) l j Ht Ec). cbv zeta in X. fold (forward layers hubs lay b) in X. fold (layer_inputs b params l) in X.
    assert (Pk : read (CellsProofs.cells layers hubs lay (S (b_time b)) (b_size b) l "parameters" p) (prepared layers hubs lay b params) j = params k).
    { rewrite read_at by exact Lj. rewrite Nj. unfold prepared. now apply write_in. }
    destruct X as [X1 X2]. unfold new_average. destruct Hp as [<-|[<-|[]]]; cbn [String.eqb Ascii.eqb Bool.eqb]; cbv zeta.
    - rewrite (X1 Lj). unfold bn_forward. cbn [bn_mu]. rewrite Pk. unfold sum0, column_mean. unfold Rdiv. lra.
    - rewrite (X2 Lj). unfold bn_forward. cbn [bn_sigma]. rewrite Pk. unfold sum0, column_variance. do 3 f_equal. f_equal. unfold Rdiv. rewrite Rmult_1_l, Rmult_comm. f_equal.
      apply Rsum_ext. intros i Hi. unfold column_mean, Rdiv. ring.
  Qed.
  Lemma element_read b v m k l p idx : is_element k l p idx -> read (param_cells layers hubs lay b) (write (param_cells layers hubs lay b) v m) k = v k.
  Proof.
    intros E. destruct (element_facts k l p idx E) as [F _]. destruct (F (S (b_time b)) (b_size b)) as [F1 [_ F3]]. fold (param_cells layers hubs lay b) in F1, F3.
    rewrite read_at by exact F1. now apply write_in.
  Qed.
  Lemma prepared_again b u params k l p idx : is_element k l p idx ->
    let m := prepared layers hubs lay b params in
    write (param_cells layers hubs lay b) (add_tt u (read (param_cells layers hubs lay b) m)) m = prepared layers hubs lay b (add_tt u params).
  Proof.
    intros E m. destruct (element_facts k l p idx E) as [F _]. destruct (F (S (b_time b)) (b_size b)) as [_ [_ F3]]. fold (param_cells layers hubs lay b) in F3.
    apply functional_extensionality. intros A. unfold m, prepared. destruct (in_dec Nat.eq_dec A (param_cells layers hubs lay b)) as [H|H]; [|now rewrite !write_out].
    apply (In_nth _ _ 0) in H. destruct H as [j [Hj <-]]. rewrite !(write_in (param_cells layers hubs lay b)) by assumption. unfold add_tt. now rewrite read_at, write_in by assumption.
  Qed.
  Lemma elements : exists total,
    (forall l p b idx, In l layers -> In (p, b) (li_params l) -> Forall2 lt idx (fdims b) -> exists k, k < total /\ is_element k l p idx) /\
    (forall k, k < total -> exists l p idx, is_element k l p idx) /\
    (forall k l p idx, is_element k l p idx -> k < total) /\
    (forall k l p idx l' p' idx', is_element k l p idx -> is_element k l' p' idx' -> l = l' /\ p = p' /\ idx = idx') /\
    forall T B, 0 < total -> length (whole layers hubs lay T B "parameters") = total /\ length (whole layers hubs lay T B "gradients") = total /\ NoDup (whole layers hubs lay T B "parameters").
  Proof.
    destruct whole_elements as [total [start W]]. exists total.
    assert (At : forall l p b idx, In l layers -> In (p, b) (li_params l) -> Forall2 lt idx (fdims b) -> start (li_name l) p + ravel (fdims b) idx < total /\ is_element (start (li_name l) p + ravel (fdims b) idx) l p idx).
    { intros l p b idx Hl Hb Hr. destruct (C63_views a layers hubs lay HN HI HL HZ l "parameters" p b 1 1 Hl Hb) as [u [Eu _]].
      assert (Hk : start (li_name l) p + ravel (fdims b) idx < total) by (destruct (W 1 1) as [_ [_ [_ [_ W5]]]]; exact (proj1 (W5 "parameters" l p b u idx (or_introl eq_refl) Hl Hb Eu Hr))).
      split; [exact Hk|]. split; [exact Hl|]. split; [now exists b|]. intros T' B' v Hv. destruct (W T' B') as [_ [_ [W3 [_ W5]]]]. destruct (W3 ltac:(lia)) as [Le _].
      destruct (W5 "parameters" l p b v idx (or_introl eq_refl) Hl Hb Hv Hr) as [X1 X2]. rewrite (nth_error_nth' _ 0) by now rewrite Le. now rewrite X2. }
    split; [intros l p b idx Hl Hb Hr; eexists; exact (At l p b idx Hl Hb Hr)|]. split.
    { intros k Hk. destruct (W 1 1) as [_ [W2 _]]. destruct (W2 k Hk) as [l [p [b [idx [Hl [Hb [Hr <-]]]]]]]. exists l, p, idx. exact (proj2 (At l p b idx Hl Hb Hr)). }
    assert (B1 : forall k l p idx, is_element k l p idx -> k < total).
    { intros k l p idx E. destruct (element_facts k l p idx E) as [F [b [Hl [Hb [Hr _]]]]]. destruct (F 1 1) as [F1 _].
      assert (X := proj1 (At l p b idx Hl Hb Hr)). destruct (W 1 1) as [_ [_ [W3 _]]]. destruct (W3 ltac:(lia)) as [Le _]. lia. }
    split; [exact B1|]. split.
    { intros k l p idx l' p' idx' E E'. destruct (element_views k l p idx 1 1 E) as [v [_ [Ev [_ [Rv [Nv _]]]]]]. destruct (element_views k l' p' idx' 1 1 E') as [v' [_ [Ev' [_ [Rv' [Nv' _]]]]]].
      destruct E as [Hl [[b [Hb _]] _]]. destruct E' as [Hl' [[b' [Hb' _]] _]].
      destruct (C63_disjoint a layers hubs lay HN HI HL l "parameters" p 1 1 v idx Hl (in_map fst _ _ Hb) own_p Ev Rv) as [_ D1].
      destruct (D1 l' "parameters" p' v' idx' Hl' (in_map fst _ _ Hb') own_p Ev' Rv') as [? [_ [? ?]]]; [congruence|auto]. }
    intros T B Ht. destruct (W T B) as [_ [_ [W3 [W4 _]]]]. destruct (W3 Ht) as [Le ND]. auto.
  Qed.

  (** ** Stale memory does not matter. *)
  (** The same sizes, masks and data *)
  Definition same_data (b b' : batch) : Prop :=
    b_time b = b_time b' /\ b_size b = b_size b' /\ b_env b = b_env b' /\
    forall l0 r x v idx, layers = l0 :: r -> In x (map fst (li_out l0)) -> view layers hubs lay (S (b_time b)) (b_size b) l0 "outputs" x = Some v -> in_range v idx -> b_mem b (address v idx) = b_mem b' (address v idx).
  Lemma prepared_same k0 l1 p1 idx1 b b' params params' : is_element k0 l1 p1 idx1 -> same_data b b' -> (forall k l p idx, is_element k l p idx -> params k = params' k) ->
    forall A, known (b_time b) (b_size b) [] A -> prepared layers hubs lay b params A = prepared layers hubs lay b' params' A.
  Proof.
    intros E0 [E1 [E2 [E3 Hd]]] Hp. unfold prepared. assert (Pc : param_cells layers hubs lay b' = param_cells layers hubs lay b) by (unfold param_cells; now rewrite E1, E2). rewrite Pc. clear Pc.
    destruct elements as [total [At [El [Lt [_ Le]]]]]. assert (Ht := Lt _ _ _ _ E0). destruct (Le (S (b_time b)) (b_size b) ltac:(lia)) as [Le1 _].
    assert (V : write (param_cells layers hubs lay b) params' (b_mem b') = write (param_cells layers hubs lay b) params (b_mem b')).
    { apply write_values. intros k Hk. symmetry. unfold param_cells in Hk. rewrite Le1 in Hk. destruct (El k Hk) as [l [p [idx E]]]. exact (Hp k l p idx E). }
    rewrite V. intros A HA. apply write_agree. destruct HA as [[l [x [Hl HA]]]|[[l0 [r [x [Er HA]]]]|[l [x [[] _]]]]].
    - right. destruct (cells_buffer _ _ _ _ _ _ _ _ _ HA) as [bs Hb]. destruct (cells_view a layers hubs lay HN HI HL HZ (S (b_time b)) (b_size b) l "parameters" x bs Hl Hb) as [v [Ev [_ Cv]]].
      rewrite Cv in HA. apply in_map_iff in HA. destruct HA as [idx [<- Hi]]. apply all_indices_spec in Hi. rewrite <- (fixed_shape a layers l x bs _ _ HI Hl Hb), (param_fixed l x bs _ _ Hl Hb) in Hi.
      destruct (At l x bs idx Hl Hb Hi) as [k [Hk E]]. destruct E as [_ [_ E]]. exact (nth_error_In _ _ (E _ _ v Ev)).
    - left. assert (Hl : In l0 layers) by (rewrite Er; now left). destruct (cells_buffer _ _ _ _ _ _ _ _ _ HA) as [bs Hb].
      destruct (cells_view a layers hubs lay HN HI HL HZ (S (b_time b)) (b_size b) l0 "outputs" x bs Hl Hb) as [v [Ev [Sv Cv]]].
      rewrite Cv in HA. apply in_map_iff in HA. destruct HA as [idx [<- Hi]]. apply all_indices_spec in Hi. apply (Hd l0 r x v idx Er (in_map fst _ _ Hb) Ev). unfold in_range. rewrite Sv.
      destruct (first_input a layers HN HI l0 r Er) as [_ [_ Cx]]. specialize (Cx x bs Hb).
      replace (array_shape bs (S (b_time b)) (b_size b)) with (data_shape bs (S (b_time b)) (b_size b)); [exact Hi|]. unfold array_shape, data_shape; rewrite Cx; apply map_ext; intros []; try reflexivity; cbn; lia.
  Qed.
  Lemma batch_loss_same k0 l1 p1 idx1 b b' params params' : is_element k0 l1 p1 idx1 -> same_data b b' -> (forall k l p idx, is_element k l p idx -> params k = params' k) ->
    batch_loss layers hubs lay b params = batch_loss layers hubs lay b' params'.
  Proof.
    intros E0 S Hp. assert (X := prepared_same k0 l1 p1 idx1 b b' params params' E0 S Hp). destruct S as [E1 [E2 [E3 _]]].
    rewrite !batch_loss_pass. rewrite <- E1, <- E2, <- E3. apply loss_of_data. exact X.
  Qed.
  (** The gradients and the moving averages are those of a run with the same data and parameters. *)
  Lemma gradient_same b b' params params' k l p idx : is_element k l p idx -> same_data b b' -> (forall k l p idx, is_element k l p idx -> params k = params' k) ->
    read (grad_cells layers hubs lay b) (backward layers hubs lay b (forward layers hubs lay b (prepared layers hubs lay b params))) k =
    read (grad_cells layers hubs lay b') (backward layers hubs lay b' (forward layers hubs lay b' (prepared layers hubs lay b' params'))) k.
  Proof.
    intros E S Hp. assert (X := prepared_same k l p idx b b' params params' E S Hp). destruct S as [E1 [E2 [E3 _]]]. unfold grad_cells, backward, forward. rewrite <- E1, <- E2, <- E3.
    destruct (element_facts k l p idx E) as [F [bs [Hl _]]]. destruct (F (S (b_time b)) (b_size b)) as [F1 [F2 _]]. rewrite !read_at by (rewrite F2; exact F1).
    apply backward_of_data; [exact X|]. right. exists l, "gradients", p. split; [exact Hl|]. split; [right; now left|]. apply (element_cells k l p idx _ _ E).
  Qed.
  Lemma average_dec l p : {average l p} + {~ average l p}.
  Proof.
    unfold average. destruct (in_dec string_dec p ["mu"; "sigma"]) as [I|N]; [|right; tauto]. destruct (li_cls l); try (right; intros [X _]; discriminate X). now left.
  Qed.
  Lemma average_one k l p idx : is_element k l p idx -> average l p -> exists j, idx = [j].
  Proof.
    intros [Hl [[b [Hb Hr]] _]] [Ec Hp]. assert (X : exists c, fdims b = [c]); [|destruct X as [c X]; rewrite X in Hr; inversion Hr as [|j ? ? ? _ H2]; inversion H2; now exists j].
    destruct (instantiate_made _ _ HI) as [cns [order [_ [_ [_ [_ M]]]]]]. destruct (made_input_like _ _ _ _ (M l Hl)) as [c [ins [inc [outg [kw [Hm _]]]]]].
    apply make_layer_inv in Hm. destruct Hm as [_ [sp [Hset El]]]. rewrite El in Ec, Hb. cbn in Ec, Hb. subst c. cbn [setup] in Hset.
    unfold setup_batch_norm in Hset. cbv zeta in Hset. destruct (as_number _); [|discriminate]. destruct (guard _ _); cbn [sbind] in Hset; [|discriminate].
    destruct (in_shape _ _) as [x|]; cbn [sbind] in Hset; [|discriminate]. destruct (plain _) as [buf|] eqn:Eb; cbn [sbind] in Hset; [|discriminate]. apply plain_ok in Eb. subst buf. injection Hset as <-.
    cbn [sp_params] in Hb. destruct Hb as [Hb|[Hb|[Hb|[Hb|[]]]]]; injection Hb as <- <-; eexists; reflexivity.
  Qed.
  Lemma kept_same b b' params params' k l p idx : is_element k l p idx -> same_data b b' -> (forall k l p idx, is_element k l p idx -> params k = params' k) ->
    read (param_cells layers hubs lay b) (backward layers hubs lay b (forward layers hubs lay b (prepared layers hubs lay b params))) k =
    read (param_cells layers hubs lay b') (backward layers hubs lay b' (forward layers hubs lay b' (prepared layers hubs lay b' params'))) k.
  Proof.
    intros E S Hp. destruct (average_dec l p) as [Av|NA]; [|rewrite !(element_kept _ _ k l p idx E NA); exact (Hp k l p idx E)].
    destruct (average_one k l p idx E Av) as [j ->]. rewrite !(element_average _ _ k l p j E Av). rewrite <- (Hp k l p [j] E).
    assert (X := prepared_same k l p [j] b b' params params' E S Hp). destruct S as [E1 [E2 [E3 _]]].
    assert (Ex : layer_inputs b params l = layer_inputs b' params' l).
    { unfold layer_inputs, forward. rewrite <- E1, <- E2, <- E3. f_equal. apply train_input; [exact (element_tl k l p [j] E)|exact X]. }
    unfold new_average. rewrite <- Ex, <- E1, <- E2. reflexivity.
  Qed.
End Net.
