(** What the forward pass leaves in the memory. *)
From Coq Require Import String Ascii List ZArith QArith Reals Bool Lia Arith FunctionalExtensionality.
From Verif Require Import NumBase NumpyModel LayersModel RecurrentModel ClockLstmModel ConvModel NetworkModel NetworkProps NetLayersModel NetLayersProps MemoryPassModel MemoryPassProofs.
From Verif Require Import HubModel LayoutModel BuffersModel.
From Verif Require Import PyBase PyFacts UtilsModel NamesModel ArchModel ShapesModel SetupModel SetupProps InstanceProofs InstanceProps NetLayoutProofs NetLayoutProps CellsProofs NetMemoryModel NetSizesProofs NetPartsProofs NetMemoryProofs.
Import ListNotations.
Open Scope string_scope.
Open Scope list_scope.
Open Scope nat_scope.

(** ** Values are still there at the end of the pass *)
Section Values.
  Variables (d : nat -> nat) (cell : nat -> Prop) (all : list flayer).
  Hypothesis PL : placed d cell all.
  Let run L := run_forward (to_m d L).
  Let fwd Ls := mem_forward (map (to_m d) Ls).
  Lemma run_keeps L m a : ~ In a (f_out L) -> ~ In a (f_loss L) -> run L m a = m a.
  Proof. intros H1 H2. unfold run, run_forward, to_m. cbn. rewrite write_out by exact H2. now apply write_out. Qed.
  Lemma fwd_keeps a : forall Ls m, (forall L, In L Ls -> ~ In a (f_out L) /\ ~ In a (f_loss L)) -> fwd Ls m a = m a.
  Proof.
    induction Ls as [|L Ls IH]; intros m H; [reflexivity|]. unfold fwd in *. cbn [map mem_forward]. rewrite IH by (intros; apply H; now right). apply run_keeps; apply H; now left.
  Qed.
  Lemma mem_values : forall Ls m, (forall L, In L Ls -> In L all) -> wf_net (map to_l Ls) -> NoDup (flat_map f_loss Ls) ->
    forall L, In L Ls -> let m' := fwd Ls m in
    (forall k, k < length (f_out L) -> m' (nth k (f_out L) 0) = k_fwd (f_kind L) (read (f_par L) m') (read (f_in L) m') k) /\
    (forall k, k < length (f_loss L) -> m' (nth k (f_loss L) 0) = k_loss (f_kind L) (read (f_par L) m') (read (f_in L) m')).
  Proof.
    induction Ls as [|L0 Ls IH]; intros m Hin WF ND L HL; [destruct HL|]. cbn [map wf_net] in WF. destruct WF as [W1 [W2 [W3 W4]]].
    cbn [flat_map] in ND. apply NoDup_app_parts in ND. destruct ND as [N1 [N2 N3]].
    destruct HL as [<-|HL]; [|unfold fwd in *; cbn [map mem_forward]; apply IH; auto with datatypes].
    intros m'. assert (H0 : In L0 all) by (apply Hin; now left). assert (HS : forall L', In L' Ls -> In L' all) by (intros; apply Hin; now right).
    assert (Cl : forall a L', cell a -> In L' all -> ~ In a (f_loss L')) by (intros a L' Ca HL' Hx; exact (pl_loss _ _ _ PL L' a HL' Hx Ca)).
    assert (Pc : forall a, In a (f_par L0) -> ~ cell a) by (intros a Ha; apply (pl_par _ _ _ PL L0 a H0 Ha)).
    assert (Oc : forall L' a, In L' all -> In a (f_out L') -> cell a) by (intros L' a HL' Ha; apply (pl_cell _ _ _ PL L' a HL'); now right).
    assert (K : forall a, In a (f_in L0) \/ In a (f_out L0) -> m' a = run L0 m a).
    { intros a Ha. unfold m', fwd. cbn [map mem_forward]. apply fwd_keeps. intros L' HL'. split; [|apply Cl; [exact (pl_cell _ _ _ PL L0 a H0 Ha)|auto]].
      apply (W3 (to_l L') a); [now apply in_map|exact Ha]. }
    assert (Kp : forall a, In a (f_par L0) -> m' a = m a).
    { intros a Ha. unfold m'. apply fwd_keeps. intros L' HL'. assert (HL2 : In L' all) by (destruct HL' as [<-|HL']; auto). split.
      - intros Hx. apply (Pc a Ha). exact (Oc L' a HL2 Hx).
      - apply (pl_par_grad _ _ _ PL L0 L' a H0 HL2 Ha). }
    assert (Ki : forall a, In a (f_in L0) -> m' a = m a).
    { intros a Ha. rewrite K by now left. apply run_keeps; [exact (W2 a Ha)|]. apply Cl; [apply (pl_cell _ _ _ PL L0 a H0); now left|exact H0]. }
    rewrite (read_ext _ m' m Kp), (read_ext _ m' m Ki). split; intros k Hk.
    - rewrite K by (right; now apply nth_In). unfold run, run_forward, to_m. cbn. rewrite write_out; [now apply write_in|].
      apply Cl; [apply (Oc L0); [exact H0|now apply nth_In]|exact H0].
    - assert (Hn : In (nth k (f_loss L0) 0) (f_loss L0)) by now apply nth_In.
      unfold m', fwd. cbn [map mem_forward]. fold (fwd Ls). rewrite fwd_keeps.
      + unfold run_forward, to_m. cbn. now rewrite write_in.
      + intros L' HL'. split; [intros Hx; exact (pl_loss _ _ _ PL L0 _ H0 Hn (Oc L' _ (HS _ HL') Hx))|]. intros Hx. apply (N3 _ Hn). apply in_flat_map. now exists L'.
  Qed.
End Values.

Section Net.
  Variables (a : karch) (layers : list linst) (hubs : list hub) (lay : slices).
  Hypothesis HN : named a.
  Hypothesis HI : instantiate a = SOk layers.
  Hypothesis HL : create_layout (map layout_layer layers) = LOk (hubs, lay).
  Hypothesis HZ : nonnegative layers.
  Hypothesis HS : forall l, In l (tl layers) -> supported l = true.
  Hypothesis HD : differentiable layers = true.
  Variables (e : env) (T B : nat).
  Lemma net_values m l : In l (tl layers) -> let m' := net_forward_pass layers hubs lay e T B m in let L := mlayer_of layers hubs lay e T B l in
    (forall k, k < length (m_out L) -> m' (nth k (m_out L) 0) = k_fwd (m_kind L m') (read (m_par L) m') (read (m_in L) m') k) /\
    (forall k, k < length (m_loss L) -> m' (nth k (m_loss L) 0) = k_loss (m_kind L m') (read (m_par L) m') (read (m_in L) m')).
  Proof.
    intros Hl m' L. destruct (passes a layers hubs lay HN HI HL HZ HS HD e T B m m ltac:(intros ? ?; reflexivity)) as [E1 [A1 _]].
    assert (PL := fls_placed a layers hubs lay HN HI HL HZ HS HD e T B m).
    assert (Hf : In (fl layers hubs lay e T B m l) (fls layers hubs lay e T B m)) by (apply in_map; exact Hl).
    assert (X := mem_values _ _ _ PL (fls layers hubs lay e T B m) m ltac:(auto) (fls_wf a layers hubs lay HN HI HL HZ HS HD e T B m) (pl_losses _ _ _ PL) _ Hf).
    cbv beta zeta in X. rewrite <- E1 in X. cbn [fl f_out f_loss f_par f_in f_kind] in X. fold L in X.
    unfold L. rewrite (kind_agrees layers hubs lay e T B l m' m Hl A1). exact X.
  Qed.
End Net.

(** ** Parts of the buffers read *)
Lemma read_app_left A C m k : k < length A -> read (A ++ C) m k = read A m k.
Proof. intros H. rewrite !read_at by (rewrite ?app_length; lia). now rewrite app_nth1. Qed.
Lemma read_app_right A C m : shift (length A) (read (A ++ C) m) = read C m.
Proof.
  apply functional_extensionality. intros k. unfold shift. rewrite !read_eq, app_length. destruct (Nat.ltb_spec (length A + k) (length A + length C)) as [H|H]; destruct (Nat.ltb_spec k (length C)); try lia; [|reflexivity].
  rewrite app_nth2 by lia. f_equal. f_equal. lia.
Qed.

(** ** The passes use the parameters inside the buffers only *)
Open Scope R_scope.
Definition same (r c : nat) (A A' : mat) : Prop := forall i j, (i < r)%nat -> (j < c)%nat -> A i j = A' i j.
Definition same1 (n : nat) (v v' : vec) : Prop := forall j, (j < n)%nat -> v j = v' j.
Lemma dot_ext n (A A' C C' : mat) i j : (forall k, (k < n)%nat -> A i k = A' i k) -> (forall k, (k < n)%nat -> C k j = C' k j) -> dot_mm n A C i j = dot_mm n A' C' i j.
Proof. intros H1 H2. unfold dot_mm. apply Rsum_ext. intros k Hk. now rewrite H1, H2. Qed.
Lemma rec_y_ext a nin n W W' U U' b b' x ctx : same n nin W W' -> same n n U U' -> same1 n b b' ->
  forall t i j, (j < n)%nat -> rec_y a nin n W U b x ctx t i j = rec_y a nin n W' U' b' x ctx t i j.
Proof.
  intros H1 H2 H3. induction t as [|t IH]; intros i j Hj; cbn [rec_y]; unfold dot_add_mm; f_equal; rewrite (H3 j Hj);
    rewrite (dot_ext nin (x _) (x _) (trans W) (trans W')) by (intros; try reflexivity; now apply H1); f_equal; apply dot_ext; intros; try reflexivity; try (now apply H2); now apply IH.
Qed.
Lemma cw_y_ext a nin n timing W W' U U' b b' x ctx : same n nin W W' -> same n n U U' -> same1 n b b' ->
  forall t i j, (j < n)%nat -> cw_y a nin n timing W U b x ctx t i j = cw_y a nin n timing W' U' b' x ctx t i j.
Proof.
  intros H1 H2 H3.
  assert (G : forall t (y y' : mat) i j, (j < n)%nat -> (forall k, (k < n)%nat -> y i k = y' i k) ->
    act_f a (dot_add_mm n y (trans U) (fun i j => dot_mm nin (x t) (trans W) i j + b j) i j) = act_f a (dot_add_mm n y' (trans U') (fun i j => dot_mm nin (x t) (trans W') i j + b' j) i j)).
  { intros t y y' i j Hj Hy. unfold dot_add_mm. rewrite (H3 j Hj). rewrite (dot_ext nin (x t) (x t) (trans W) (trans W')) by (intros; try reflexivity; now apply H1).
    do 2 f_equal. apply dot_ext; intros; [now apply Hy|now apply H2]. }
  induction t as [|t IH]; intros i j Hj; cbn [cw_y Nat.ltb Nat.leb].
  - apply G; auto.
  - destruct (stays _ _); [now apply IH|]. apply G; auto.
Qed.
Record par_same (nin n : nat) (p q : lstm_par) : Prop := mkSame {
  s1 : same n nin (pWz p) (pWz q); s2 : same n nin (pWi p) (pWi q); s3 : same n nin (pWf p) (pWf q); s4 : same n nin (pWo p) (pWo q);
  s5 : same1 n (ppi p) (ppi q); s6 : same1 n (ppf p) (ppf q); s7 : same1 n (ppo p) (ppo q);
  s8 : same n n (pRz p) (pRz q); s9 : same n n (pRi p) (pRi q); s10 : same n n (pRf p) (pRf q); s11 : same n n (pRo p) (pRo q);
  s12 : same1 n (pbz p) (pbz q); s13 : same1 n (pbi p) (pbi q); s14 : same1 n (pbf p) (pbf q); s15 : same1 n (pbo p) (pbo q) }.
Lemma lstm_step_ext a nin n p q x y y' c c' i : par_same nin n p q -> (forall j, (j < n)%nat -> y i j = y' i j /\ c i j = c' i j) ->
  forall j, (j < n)%nat -> sy (lstm_step a nin n p x y c) i j = sy (lstm_step a nin n q x y' c') i j /\ sCa (lstm_step a nin n p x y c) i j = sCa (lstm_step a nin n q x y' c') i j.
Proof.
  intros [] Hy j Hj. destruct (Hy j Hj) as [_ Ec].
  assert (Dx : forall W W' : mat, same n nin W W' -> dot_mm nin x (trans W) i j = dot_mm nin x (trans W') i j) by (intros W W' HW; apply dot_ext; intros; [reflexivity|now apply HW]).
  assert (Dy : forall U U' : mat, same n n U U' -> dot_mm n y (trans U) i j = dot_mm n y' (trans U') i j) by (intros U U' HU; apply dot_ext; intros; [now apply Hy|now apply HU]).
  assert (EC : sCa (lstm_step a nin n p x y c) i j = sCa (lstm_step a nin n q x y' c') i j).
  { unfold lstm_step, dot_add_mm; cbn [sCa].
    rewrite (Dx _ _ s16), (Dx _ _ s17), (Dx _ _ s18), (Dy _ _ s23), (Dy _ _ s24), (Dy _ _ s25), Ec, (s20 j Hj), (s21 j Hj), (s27 j Hj), (s28 j Hj), (s29 j Hj). reflexivity. }
  split; [|exact EC]. unfold lstm_step, dot_add_mm in *; cbn [sy sCa] in *. rewrite EC, (Dx _ _ s19), (Dy _ _ s26), (s22 j Hj), (s30 j Hj). reflexivity.
Qed.
Lemma lstm_state_ext a nin n p q x cy cc i : par_same nin n p q -> forall t j, (j < n)%nat ->
  sy (lstm_state a nin n p x cy cc t) i j = sy (lstm_state a nin n q x cy cc t) i j /\ sCa (lstm_state a nin n p x cy cc t) i j = sCa (lstm_state a nin n q x cy cc t) i j.
Proof. intros H. induction t as [|t IH]; intros j Hj; cbn [lstm_state]; apply lstm_step_ext; auto. Qed.
Lemma cl_state_ext a nin n timing p q x cy cc i : par_same nin n p q -> forall t j, (j < n)%nat ->
  sy (cl_state a nin n timing p x cy cc t) i j = sy (cl_state a nin n timing q x cy cc t) i j /\ sCa (cl_state a nin n timing p x cy cc t) i j = sCa (cl_state a nin n timing q x cy cc t) i j.
Proof.
  intros H. induction t as [|t IH]; intros j Hj; cbn [cl_state]; unfold cl_step; cbn [Nat.ltb Nat.leb]; [apply lstm_step_ext; auto|]. cbn [sy sCa].
  destruct (lstm_step_ext a nin n p q (x (S t)) _ _ _ _ i H (fun j Hj => IH j Hj) j Hj) as [E1 E2]. destruct (IH j Hj) as [E3 E4]. destruct (stays _ _); auto.
Qed.
