(** The passes on one memory compute what the passes of NetworkModel compute. *)
From Coq Require Import Reals Lra Lia Arith List FunctionalExtensionality.
From Verif Require Import NumBase NumpyModel NumpyProps LayersProps RecurrentBase NetworkModel NetworkProps NetLayersModel NetLayersProps MemoryPassModel.
Import ListNotations.
Open Scope R_scope.

(** ** Layers whose kind does not depend on the memory *)
Record flayer := mkF { f_kind : kind; f_in : list nat; f_out : list nat; f_par : list nat; f_grad : list nat; f_loss : list nat }.
Definition to_m (d : nat -> nat) (L : flayer) : mlayer :=
  mkM (fun _ => f_kind L) (f_in L) (f_out L) (f_par L) (map d (f_in L)) (map d (f_out L)) (f_grad L) (f_loss L).
Definition to_l (L : flayer) : layer := layer_of (f_kind L) (f_in L) (f_out L).

Lemma write_same cells : forall v m m' a, m a = m' a -> write cells v m a = write cells v m' a.
Proof.
  induction cells as [|c r IH]; intros v m m' a E; cbn; [exact E|]. apply IH. now destruct (a =? c)%nat.
Qed.
Lemma read_eq cells m k : read cells m k = if (k <? length cells)%nat then m (nth k cells O) else 0.
Proof. reflexivity. Qed.
Section Sim.
  Variable d : nat -> nat.
  Variable cell : nat -> Prop.
  Hypothesis inj : forall a b, cell a -> cell b -> d a = d b -> a = b.
  Lemma write_map cells : (forall a, In a cells -> cell a) -> forall v (m m' : vec) a, cell a -> m a = m' (d a) ->
    write cells v m a = write (map d cells) v m' (d a).
  Proof.
    induction cells as [|c r IH]; intros H v m m' a Ha E; cbn; [exact E|]. apply IH; [intros; apply H; now right | exact Ha |].
    destruct (Nat.eqb_spec a c) as [->|N]; [now rewrite Nat.eqb_refl|].
    destruct (Nat.eqb_spec (d a) (d c)) as [E'|_]; [|exact E]. elim N. apply inj; auto. apply H. now left.
  Qed.
  Lemma add_map cells : (forall a, In a cells -> cell a) -> forall v (m m' : vec) a, cell a -> m a = m' (d a) ->
    add_to cells v m a = add_to (map d cells) v m' (d a).
  Proof.
    induction cells as [|c r IH]; intros H v m m' a Ha E; cbn; [exact E|]. apply IH; [intros; apply H; now right | exact Ha |].
    destruct (Nat.eqb_spec a c) as [->|N]; [rewrite Nat.eqb_refl; now rewrite E|].
    destruct (Nat.eqb_spec (d a) (d c)) as [E'|_]; [|exact E]. elim N. apply inj; auto. apply H. now left.
  Qed.
  Lemma read_map cells (m m' : vec) : (forall a, In a cells -> m a = m' (d a)) -> read cells m = read (map d cells) m'.
  Proof.
    intros H. apply functional_extensionality. intros k. unfold read, cut. rewrite map_length. destruct (Nat.ltb_spec k (length cells)) as [L|L]; [|reflexivity].
    rewrite (nth_indep (map d cells) O (d O)) by now rewrite map_length. rewrite map_nth. apply H. now apply nth_In.
  Qed.
  Lemma add_out cells v m a : ~ In a cells -> add_to cells v m a = m a.
  Proof.
    revert v m. induction cells as [|c r IH]; intros v m H; cbn; [reflexivity|]. rewrite IH by (intros N; apply H; now right).
    destruct (Nat.eqb_spec a c); [subst; elim H; now left | reflexivity].
  Qed.

  (** What the places of the buffers have to satisfy *)
  Record placed (Ls : list flayer) : Prop := {
    pl_cell : forall L a, In L Ls -> In a (f_in L) \/ In a (f_out L) -> cell a;
    pl_len : forall L, In L Ls -> length (f_in L) = n_in (f_kind L) /\ length (f_out L) = n_out (f_kind L) /\
                                  length (f_par L) = n_par (f_kind L) /\ length (f_grad L) = n_par (f_kind L);
    pl_delta : forall a b, cell a -> cell b -> d b <> a;
    pl_par : forall L a, In L Ls -> In a (f_par L) -> ~ cell a /\ forall b, cell b -> d b <> a;
    pl_par_grad : forall L L' a, In L Ls -> In L' Ls -> In a (f_par L) -> ~ In a (f_grad L') /\ ~ In a (f_loss L');
    pl_grad : forall L a, In L Ls -> In a (f_grad L) -> ~ cell a /\ forall b, cell b -> d b <> a;
    pl_loss : forall L a, In L Ls -> In a (f_loss L) -> ~ cell a;
    pl_one_loss : forall L, In L Ls -> f_loss L <> [] -> length (f_loss L) = 1%nat;
    pl_no_loss : forall L p x, In L Ls -> f_loss L = [] -> k_loss (f_kind L) p x = 0;
    pl_pars : NoDup (flat_map f_par Ls);
    pl_grads : NoDup (flat_map f_grad Ls);
    pl_losses : NoDup (flat_map f_loss Ls)
  }.
  Lemma NoDup_app_parts {A} (l r : list A) : NoDup (l ++ r) -> NoDup l /\ NoDup r /\ forall x, In x l -> ~ In x r.
  Proof.
    induction l as [|y l IH]; cbn; intros H; [split; [constructor|split; [exact H|intros x []]]|].
    inversion H as [|? ? Hn Hd]; subst. destruct (IH Hd) as [H1 [H2 H3]]. split; [|split; [exact H2|]].
    - constructor; [intros Hin; apply Hn, in_or_app; now left | exact H1].
    - intros x [<-|Hx]; [intros Hin; apply Hn, in_or_app; now right | now apply H3].
  Qed.

  Lemma NoDup_part {A B} (f : A -> list B) all x : NoDup (flat_map f all) -> In x all -> NoDup (f x).
  Proof.
    induction all as [|y r IH]; intros H Hin; [destruct Hin|]. cbn in H. apply NoDup_app_parts in H. destruct Hin as [->|Hin]; [apply H|now apply IH].
  Qed.

  (** *** Forward *)
  Definition sim (Ls : list flayer) (i : nat) (m : vec) (s : state) : Prop :=
    (forall a, cell a -> V s a = m a) /\
    (forall k L, nth_error Ls k = Some L -> P s (i + k)%nat = read (f_par L) m).
  Lemma run_forward_sim all L i m s : placed all -> In L all -> (forall a, cell a -> V s a = m a) -> P s i = read (f_par L) m ->
    (forall a, cell a -> V (layer_forward i (to_l L) s) a = run_forward (to_m d L) m a) /\
    (forall L', In L' all -> read (f_par L') (run_forward (to_m d L) m) = read (f_par L') m).
  Proof.
    intros PL HL HV HP. unfold run_forward, layer_forward, to_m, to_l, layer_of. cbn.
    assert (E : read (f_in L) (V s) = read (f_in L) m) by (apply read_ext; intros a Ha; apply HV; apply (pl_cell _ PL L); auto).
    rewrite HP, E. split.
    - intros a Ha. rewrite (write_out (f_loss L)) by (intros Hin; exact (pl_loss _ PL _ _ HL Hin Ha)). apply write_same. now apply HV.
    - intros L' HL'. apply read_ext. intros a Ha. destruct (pl_par _ PL _ _ HL' Ha) as [N1 _]. destruct (pl_par_grad _ PL _ _ _ HL' HL Ha) as [_ N2].
      rewrite write_out by exact N2. apply write_out. intros Hin. apply N1. apply (pl_cell _ PL L); auto.
  Qed.
  Lemma forward_sim all : placed all -> forall Ls i m s, (forall L, In L Ls -> In L all) -> sim Ls i m s ->
    let m1 := mem_forward (map (to_m d) Ls) m in
    let s1 := forward_from i (map to_l Ls) s in
    (forall a, cell a -> V s1 a = m1 a) /\ P s1 = P s /\ (forall L, In L all -> read (f_par L) m1 = read (f_par L) m).
  Proof.
    intros PL Ls. induction Ls as [|L r IH]; intros i m s Hin [HV HP]; cbv zeta; cbn [map mem_forward forward_from]; [auto|].
    destruct (run_forward_sim all L i m s PL (Hin L (or_introl eq_refl)) HV) as [A B].
    { rewrite <- (HP O L eq_refl). f_equal. lia. }
    destruct (IH (S i) (run_forward (to_m d L) m) (layer_forward i (to_l L) s)) as [C1 [C2 C3]].
    { intros L' HL'. apply Hin. now right. }
    { split; [exact A|]. intros k L' E. rewrite layer_forward_eq. cbn [P]. rewrite B by (apply Hin; right; eapply nth_error_In; eauto).
      rewrite <- (HP (S k) L' E). f_equal. lia. }
    split; [exact C1|]. split; [rewrite C2, layer_forward_eq; reflexivity|]. intros L' HL'. rewrite C3 by exact HL'. now apply B.
  Qed.
  (** the losses *)
  Lemma forward_keeps_mem all : placed all -> forall Ls m a, (forall L, In L Ls -> In L all) ->
    (forall L, In L Ls -> ~ In a (f_out L) /\ ~ In a (f_loss L)) -> mem_forward (map (to_m d) Ls) m a = m a.
  Proof.
    intros PL Ls. induction Ls as [|L r IH]; intros m a Hin H; cbn [map mem_forward]; [reflexivity|].
    rewrite IH; [|intros; apply Hin; now right|intros; apply H; now right]. unfold run_forward, to_m. cbn.
    destruct (H L (or_introl eq_refl)) as [H1 H2]. rewrite write_out by exact H2. now apply write_out.
  Qed.
  Lemma losses_sim all : placed all -> forall Ls i m s, (forall L, In L Ls -> In L all) -> NoDup (flat_map f_loss Ls) -> wf_net (map to_l Ls) -> sim Ls i m s ->
    mem_loss (map (to_m d) Ls) (mem_forward (map (to_m d) Ls) m) = losses_from i (map to_l Ls) (forward_from i (map to_l Ls) s).
  Proof.
    intros PL Ls. induction Ls as [|L r IH]; intros i m s Hin ND WF HS; cbn [map mem_forward forward_from mem_loss losses_from]; [reflexivity|].
    assert (HL : In L all) by (apply Hin; now left). destruct HS as [HV HP].
    assert (HPi : P s i = read (f_par L) m) by (rewrite <- (HP O L eq_refl); f_equal; lia).
    destruct (run_forward_sim all L i m s PL HL HV HPi) as [A B].
    cbn [flat_map] in ND. apply NoDup_app_parts in ND. destruct ND as [ND1 [ND2 ND3]]. assert (WF0 := WF). destruct WF as (WF1 & WF2 & WF3 & WF4).
    assert (HS' : sim r (S i) (run_forward (to_m d L) m) (layer_forward i (to_l L) s)).
    { split; [exact A|]. intros k L' E. rewrite layer_forward_eq. cbn [P]. rewrite B by (apply Hin; right; eapply nth_error_In; eauto).
      rewrite <- (HP (S k) L' E). f_equal. lia. }
    rewrite (IH (S i) _ _ ltac:(intros; apply Hin; now right) ND2 WF4 HS'). f_equal.
    destruct (forward_keeps (map to_l r) (S i) (layer_forward i (to_l L) s)) as (KP & KV & _).
    assert (EP : P (forward_from (S i) (map to_l r) (layer_forward i (to_l L) s)) i = P s i) by (rewrite KP, layer_forward_eq; reflexivity).
    assert (EX : read (l_in (to_l L)) (V (forward_from (S i) (map to_l r) (layer_forward i (to_l L) s))) = read (f_in L) m).
    { apply read_ext. intros a Ha. rewrite KV by (apply (wf_outs_disjoint _ _ _ WF0); now left). rewrite layer_forward_eq. cbn [V].
      rewrite write_out by (now apply WF2). apply HV. apply (pl_cell _ PL L); auto. }
    rewrite EP, EX, HPi. cbn [to_l layer_of l_loss to_m m_loss].
    destruct (f_loss L) as [|c q] eqn:Ef; [cbn; symmetry; now apply (pl_no_loss _ PL)|].
    assert (Hone : length (c :: q) = 1%nat) by (rewrite <- Ef; apply (pl_one_loss _ PL); auto; congruence).
    destruct q; [|discriminate]. cbn [length Rsum]. rewrite Rplus_0_l, read_at by (cbn; lia). cbn [nth].
    rewrite (forward_keeps_mem all PL); [|intros; apply Hin; now right|].
    - unfold run_forward, to_m. cbn. rewrite Ef. cbn. now rewrite Nat.eqb_refl.
    - intros L' HL'. split.
      + intros N. apply (pl_loss _ PL L c HL); [rewrite Ef; now left|]. apply (pl_cell _ PL L' c); [apply Hin; now right|now right].
      + intros N. apply (ND3 c); [now left|]. apply in_flat_map. eauto.
  Qed.

  (** *** Backward *)
  Definition bsim (all : list flayer) (m : vec) (s : state) : Prop :=
    (forall a, cell a -> V s a = m a) /\ (forall a, cell a -> DV s a = m (d a)) /\
    (forall k L, nth_error all k = Some L -> P s k = read (f_par L) m).
  (** what a backward pass leaves alone *)
  Lemma run_backward_keeps L m a : ~ In a (f_grad L) -> ~ In a (map d (f_out L)) -> ~ In a (map d (f_in L)) -> run_backward (to_m d L) m a = m a.
  Proof.
    intros H1 H2 H3. unfold run_backward, to_m. cbn. destruct (k_bwd _ _ _ _ _ _) as [dx g].
    rewrite write_out by exact H1. rewrite write_out by exact H2. now apply add_out.
  Qed.
  Lemma not_delta all L a : placed all -> In L all -> (forall b, cell b -> d b <> a) -> ~ In a (map d (f_out L)) /\ ~ In a (map d (f_in L)).
  Proof.
    intros PL HL H. split; intros N; apply in_map_iff in N; destruct N as [b [E Hb]]; apply (H b); auto; apply (pl_cell _ PL L); auto.
  Qed.
  Lemma run_backward_sim all i L m s : placed all -> nth_error all i = Some L -> bsim all m s ->
    G s i = (fun _ => 0) -> (forall a, In a (f_grad L) -> m a = 0) ->
    let m1 := run_backward (to_m d L) m in
    let s1 := layer_backward i (to_l L) s in
    bsim all m1 s1 /\ (forall j, (j < n_par (f_kind L))%nat -> G s1 i j = m1 (nth j (f_grad L) O)).
  Proof.
    intros PL Ei [HV [HD HP]] HG Hg m1 s1. assert (HL : In L all) by (eapply nth_error_In; eauto).
    assert (E1 : read (f_in L) (V s) = read (f_in L) m) by (apply read_ext; intros a Ha; apply HV; apply (pl_cell _ PL L); auto).
    assert (E2 : read (f_out L) (V s) = read (f_out L) m) by (apply read_ext; intros a Ha; apply HV; apply (pl_cell _ PL L); auto).
    assert (E3 : read (f_out L) (DV s) = read (map d (f_out L)) m) by (apply read_map; intros a Ha; apply HD; apply (pl_cell _ PL L); auto).
    assert (E4 : read (f_grad L) m = fun _ => 0).
    { apply functional_extensionality. intros k. rewrite read_eq. destruct (Nat.ltb_spec k (length (f_grad L))); [|reflexivity]. apply Hg. now apply nth_In. }
    assert (Keep : forall a, ~ In a (f_grad L) -> (forall b, cell b -> d b <> a) -> m1 a = m a).
    { intros a N1 N2. destruct (not_delta all L a PL HL N2) as [N3 N4]. unfold m1. now apply run_backward_keeps. }
    unfold bsim. subst s1 m1. unfold layer_backward, run_backward, to_m, to_l, layer_of in *. cbn in *.
    rewrite E1, E2, E3, HG, (HP i L Ei). rewrite E4 in *.
    destruct (k_bwd (f_kind L) (read (f_par L) m) (read (f_in L) m) (read (f_out L) m) (read (map d (f_out L)) m) (fun _ => 0)) as [dx g]. cbn in *.
    split; [split; [|split]|].
    - intros a Ha. rewrite Keep; [now apply HV | |].
      + intros N. now apply (proj1 (pl_grad _ PL _ _ HL N)).
      + intros b Hb. now apply (pl_delta _ PL).
    - intros a Ha. rewrite (write_out (f_grad L)) by (intros N; exact (proj2 (pl_grad _ PL _ _ HL N) a Ha eq_refl)).
      apply write_map; [intros; apply (pl_cell _ PL L); auto | exact Ha |]. apply add_map; [intros; apply (pl_cell _ PL L); auto | exact Ha | now apply HD].
    - intros k L' E. rewrite (HP k L' E). apply read_ext. intros a Ha. symmetry. assert (HL' : In L' all) by (eapply nth_error_In; eauto).
      apply Keep; [exact (proj1 (pl_par_grad _ PL _ _ _ HL' HL Ha)) | exact (proj2 (pl_par _ PL _ _ HL' Ha))].
    - intros j Hj. unfold upd. rewrite Nat.eqb_refl. symmetry. apply write_in.
      + exact (NoDup_part f_grad all L (pl_grads _ PL) HL).
      + destruct (pl_len _ PL L HL) as [_ [_ [_ ->]]]. exact Hj.
  Qed.
  Lemma grads_disjoint all : NoDup (flat_map f_grad all) -> forall i j L L' a, nth_error all i = Some L -> nth_error all j = Some L' -> i <> j -> In a (f_grad L) -> ~ In a (f_grad L').
  Proof.
    induction all as [|x r IH]; intros ND i j L L' a E1 E2 N Ha Hb; [destruct i; discriminate|]. cbn in ND. apply NoDup_app_parts in ND. destruct ND as [N1 [N2 N3]].
    destruct i as [|i], j as [|j]; cbn in E1, E2; [congruence| | |exact (IH N2 i j L L' a E1 E2 ltac:(congruence) Ha Hb)].
    - injection E1 as <-. apply (N3 a Ha). apply in_flat_map. exists L'. split; [eapply nth_error_In; eauto | exact Hb].
    - injection E2 as <-. apply (N3 a Hb). apply in_flat_map. exists L. split; [eapply nth_error_In; eauto | exact Ha].
  Qed.
  Lemma nth_error_pre {A} (pre : list A) x post : nth_error (pre ++ x :: post) (length pre) = Some x.
  Proof. rewrite nth_error_app2 by lia. now rewrite Nat.sub_diag. Qed.
  Lemma backward_sim all : placed all -> forall Ls pre m s, all = pre ++ Ls -> bsim all m s ->
    (forall k, G s k = (fun _ => 0)) -> (forall L a, In L all -> In a (f_grad L) -> m a = 0) ->
    let m1 := mem_backward (map (to_m d) Ls) m in
    let s1 := backward_from (length pre) (map to_l Ls) s in
    bsim all m1 s1 /\
    (forall k L, (k < length pre)%nat -> nth_error all k = Some L -> G s1 k = (fun _ => 0) /\ forall a, In a (f_grad L) -> m1 a = 0) /\
    (forall k L j, (length pre <= k)%nat -> nth_error all k = Some L -> (j < n_par (f_kind L))%nat -> G s1 k j = m1 (nth j (f_grad L) O)).
  Proof.
    intros PL Ls. induction Ls as [|L r IH]; intros pre m s Eall HS HG Hg; cbv zeta; cbn [map mem_backward backward_from].
    - split; [exact HS|]. split; [intros k L Hk E; split; [apply HG|intros a; apply (Hg L); eapply nth_error_In; eauto]|].
      intros k L j Hk E. exfalso. subst all. rewrite app_nil_r in E. assert (k < length pre)%nat by (apply nth_error_Some; congruence). lia.
    - destruct (IH (pre ++ [L]) m s ltac:(now rewrite <- app_assoc) HS HG Hg) as [B1 [B2 B3]]. rewrite app_length in B1, B2, B3. cbn [length] in B1, B2, B3.
      replace (length pre + 1)%nat with (S (length pre)) in B1, B2, B3 by lia.
      set (m1 := mem_backward (map (to_m d) r) m) in *. set (s1 := backward_from (S (length pre)) (map to_l r) s) in *.
      assert (Ei : nth_error all (length pre) = Some L) by (subst all; apply nth_error_pre). assert (HL : In L all) by (eapply nth_error_In; eauto).
      destruct (B2 (length pre) L ltac:(lia) Ei) as [G0 g0].
      destruct (run_backward_sim all (length pre) L m1 s1 PL Ei B1 G0 g0) as [C1 C2].
      assert (Gk : forall k, k <> length pre -> G (layer_backward (length pre) (to_l L) s1) k = G s1 k).
      { intros k Hk. unfold layer_backward. cbn. unfold upd. destruct (Nat.eqb_spec k (length pre)); [contradiction|reflexivity]. }
      assert (mk : forall k L' a, k <> length pre -> nth_error all k = Some L' -> In a (f_grad L') -> run_backward (to_m d L) m1 a = m1 a).
      { intros k L' a Hk E Ha. destruct (pl_grad _ PL L' a ltac:(eapply nth_error_In; eauto) Ha) as [_ N2].
        destruct (not_delta all L a PL HL N2). apply run_backward_keeps; auto. apply (grads_disjoint all (pl_grads _ PL) k (length pre) L' L a E Ei Hk Ha). }
      split; [exact C1|]. split.
      + intros k L' Hk E. destruct (B2 k L' ltac:(lia) E) as [D1 D2]. split; [rewrite Gk by lia; exact D1|].
        intros a Ha. rewrite (mk k L' a ltac:(lia) E Ha). now apply D2.
      + intros k L' j Hk E Hj. destruct (Nat.eq_dec k (length pre)) as [->|N].
        * rewrite Ei in E. injection E as <-. now apply C2.
        * rewrite Gk by exact N. rewrite (mk k L' _ N E); [apply B3; auto; lia|]. apply nth_In. destruct (pl_len _ PL L' ltac:(eapply nth_error_In; eauto)) as [_ [_ [_ ->]]]. exact Hj.
  Qed.

  (** ** Gradients and deltas in the memory *)
  Definition state_of (all : list flayer) (m : vec) : state :=
    mkS m (fun _ => 0) (fun _ _ => 0) (fun _ _ => 0) (fun k => match nth_error all k with Some L => read (f_par L) m | None => fun _ => 0 end) (fun _ _ => 0).
  (** What clearing has to do *)
  Record clears (all : list flayer) (cl : vec -> vec) : Prop := {
    cl_delta : forall m a, cell a -> cl m (d a) = 0;
    cl_grad : forall m L a, In L all -> In a (f_grad L) -> cl m a = 0;
    cl_cell : forall m a, cell a -> cl m a = m a;
    cl_par : forall m L a, In L all -> In a (f_par L) -> cl m a = m a
  }.
  Lemma state_sim all m : sim all O m (state_of all m).
  Proof. split; [reflexivity|]. intros k L E. cbn. now rewrite E. Qed.
  Lemma pars_disjoint all : NoDup (flat_map f_par all) -> forall i j L L' a, nth_error all i = Some L -> nth_error all j = Some L' -> i <> j -> In a (f_par L) -> ~ In a (f_par L').
  Proof.
    induction all as [|x r IH]; intros ND i j L L' a E1 E2 N Ha Hb; [destruct i; discriminate|]. cbn in ND. apply NoDup_app_parts in ND. destruct ND as [N1 [N2 N3]].
    destruct i as [|i], j as [|j]; cbn in E1, E2; [congruence| | |exact (IH N2 i j L L' a E1 E2 ltac:(congruence) Ha Hb)].
    - injection E1 as <-. apply (N3 a Ha). apply in_flat_map. exists L'. split; [eapply nth_error_In; eauto | exact Hb].
    - injection E2 as <-. apply (N3 a Hb). apply in_flat_map. exists L. split; [eapply nth_error_In; eauto | exact Ha].
  Qed.
  Definition mem_ok (all : list flayer) (m : vec) : Prop := forall L, In L all -> k_ok (f_kind L) (read (f_par L) m) (read (f_in L) m).
  Lemma mem_good all m : placed all -> mem_ok all (mem_forward (map (to_m d) all) m) ->
    good_from O (map to_l all) (P (state_of all m)) (V (net_forward (map to_l all) (state_of all m))).
  Proof.
    intros PL OK. destruct (forward_sim all PL all O m (state_of all m) (fun L H => H) (state_sim all m)) as [HV [HP Hp]]. unfold net_forward.
    set (s1 := forward_from 0 (map to_l all) (state_of all m)) in *. set (m1 := mem_forward (map (to_m d) all) m) in *.
    assert (X : forall Ls i, (forall k L, nth_error Ls k = Some L -> nth_error all (i + k) = Some L) -> good_from i (map to_l Ls) (P (state_of all m)) (V s1)).
    { induction Ls as [|L r IH]; intros i H; cbn [map good_from]; [exact I|]. assert (E := H O L eq_refl). rewrite Nat.add_0_r in E. assert (HL := nth_error_In _ _ E). split.
      - cbn [state_of P]. rewrite E. destruct (pl_len _ PL L HL) as [L1 [L2 _]]. apply C49_layers; [exact L1|exact L2|].
        assert (K := OK L HL). rewrite Hp in K by exact HL.
        replace (read (l_in (to_l L)) (V s1)) with (read (f_in L) m1); [exact K|]. symmetry. apply read_ext. intros a Ha. apply HV. apply (pl_cell _ PL L); auto.
      - apply IH. intros k L' E'. specialize (H (S k) L' E'). replace (S i + k)%nat with (i + S k)%nat by lia. exact H. }
    apply X. auto.
  Qed.
  Lemma cells_bound all : exists N, forall l a, In l (map to_l all) -> In a (l_in l) \/ In a (l_out l) -> (a < N)%nat.
  Proof.
    exists (S (list_max (flat_map (fun L => f_in L ++ f_out L) all))). intros l a Hl Ha. apply in_map_iff in Hl. destruct Hl as [L [<- HL]]. cbn in Ha.
    apply Nat.lt_succ_r. assert (H := proj1 (list_max_le (flat_map (fun L => f_in L ++ f_out L) all) _) (Nat.le_refl _)). rewrite Forall_forall in H. apply H.
    apply in_flat_map. exists L. split; [exact HL|]. now apply in_or_app.
  Qed.
  Lemma backward_start all cl m s : placed all -> clears all cl -> (forall a, cell a -> V s a = m a) -> (forall k L, nth_error all k = Some L -> P s k = read (f_par L) m) ->
    bsim all (cl m) (clear_backward s).
  Proof.
    intros PL CL HV HP. split; [|split].
    - intros a Ha. cbn. rewrite (cl_cell _ _ CL) by exact Ha. now apply HV.
    - intros a Ha. cbn. symmetry. now apply (cl_delta _ _ CL).
    - intros k L E. cbn. rewrite (HP k L E). apply read_ext. intros a Ha. symmetry. apply (cl_par _ _ CL m L); [eapply nth_error_In; eauto | exact Ha].
  Qed.
  Lemma whole_backward all cl m : placed all -> clears all cl ->
    let m1 := mem_backward (map (to_m d) all) (cl (mem_forward (map (to_m d) all) m)) in
    let s1 := net_backward (map to_l all) (net_forward (map to_l all) (state_of all m)) in
    bsim all m1 s1 /\ forall k L j, nth_error all k = Some L -> (j < n_par (f_kind L))%nat -> G s1 k j = m1 (nth j (f_grad L) O).
  Proof.
    intros PL CL. cbv zeta. destruct (forward_sim all PL all O m (state_of all m) (fun L H => H) (state_sim all m)) as [HV [HP Hp]].
    assert (BS := backward_start all cl _ _ PL CL HV ltac:(intros k L E; rewrite HP; cbn [state_of P]; rewrite E; symmetry; apply Hp; eapply nth_error_In; eauto)).
    destruct (backward_sim all PL all [] _ _ eq_refl BS ltac:(reflexivity) ltac:(intros L a HL Ha; now apply (cl_grad _ _ CL _ L))) as [B1 [_ B3]].
    split; [exact B1|]. intros k L j E Hj. apply B3; auto. cbn. lia.
  Qed.
  Theorem mem_gradient : forall all cl m i j L,
    placed all -> wf_net (map to_l all) -> clears all cl -> mem_ok all (mem_forward (map (to_m d) all) m) ->
    nth_error all i = Some L -> (j < n_par (f_kind L))%nat ->
    let a := nth j (f_par L) O in
    D (m a) (fun r => mem_loss (map (to_m d) all) (mem_forward (map (to_m d) all) (upd a r m)))
      (mem_backward (map (to_m d) all) (cl (mem_forward (map (to_m d) all) m)) (nth j (f_grad L) O)).
  Proof.
    intros all cl m i j L PL WF CL OK Ei Hj a. assert (HL := nth_error_In _ _ Ei). destruct (pl_len _ PL L HL) as [_ [_ [Lp _]]].
    assert (Ha : In a (f_par L)) by (apply nth_In; lia).
    destruct (cells_bound all) as [N HN].
    assert (X := C49_gradient (map to_l all) N (state_of all m) i j (to_l L) WF HN (mem_good all m PL OK) (map_nth_error to_l i all Ei) Hj).
    destruct (whole_backward all cl m PL CL) as [_ BG]. rewrite <- (BG i L j Ei Hj).
    assert (EP : P (state_of all m) i j = m a) by (cbn [state_of P]; rewrite Ei; apply read_at; lia). rewrite EP in X.
    refine (D_ext _ _ _ _ _ _ eq_refl X). intros r. symmetry. unfold total_loss, net_forward. apply (losses_sim all PL); [auto|exact (pl_losses _ PL)|exact WF|]. split.
    - intros b Hb. cbn. unfold upd. destruct (Nat.eqb_spec b a) as [->|]; [|reflexivity]. elim (proj1 (pl_par _ PL L a HL Ha)). exact Hb.
    - intros k L' E. cbn [Nat.add set_param state_of P]. rewrite Ei. unfold upd at 1. destruct (Nat.eqb_spec k i) as [->|Ne].
      + rewrite Ei in E. injection E as <-. apply functional_extensionality. intros q. rewrite read_eq. unfold upd. rewrite read_eq.
        destruct (Nat.eqb_spec q j) as [->|Nq]; [rewrite (proj2 (Nat.ltb_lt j (length (f_par L)))) by lia; now rewrite Nat.eqb_refl|].
        destruct (Nat.ltb_spec q (length (f_par L))) as [Lq|]; [|reflexivity]. destruct (Nat.eqb_spec (nth q (f_par L) O) a) as [Eq|]; [|reflexivity].
        elim Nq. refine (proj1 (NoDup_nth (f_par L) O) (NoDup_part f_par all L (pl_pars _ PL) HL) q j Lq _ Eq). lia.
      + rewrite E. apply read_ext. intros b Hb. unfold upd. destruct (Nat.eqb_spec b a) as [->|]; [|reflexivity].
        exfalso. exact (pars_disjoint all (pl_pars _ PL) i k L L' a Ei E ltac:(congruence) Ha Hb).
  Qed.
  Theorem mem_input_delta : forall all cl m a,
    placed all -> wf_net (map to_l all) -> clears all cl -> mem_ok all (mem_forward (map (to_m d) all) m) ->
    cell a -> (forall L, In L all -> ~ In a (f_out L)) ->
    D (m a) (fun r => mem_loss (map (to_m d) all) (mem_forward (map (to_m d) all) (upd a r m)))
      (mem_backward (map (to_m d) all) (cl (mem_forward (map (to_m d) all) m)) (d a)).
  Proof.
    intros all cl m a PL WF CL OK Ha Hn.
    destruct (cells_bound all) as [N HN].
    assert (X := C49_input_delta (map to_l all) (Nat.max N (S a)) (state_of all m) a WF
      ltac:(intros l b Hl Hb; specialize (HN l b Hl Hb); lia) (mem_good all m PL OK) ltac:(lia)
      ltac:(intros N'; apply in_flat_map in N'; destruct N' as [l [Hl Hin]]; apply in_map_iff in Hl; destruct Hl as [L [<- HL]]; exact (Hn L HL Hin))).
    destruct (whole_backward all cl m PL CL) as [[_ [BD _]] _]. rewrite <- (BD a Ha).
    change (V (state_of all m) a) with (m a) in X.
    refine (D_ext _ _ _ _ _ _ eq_refl X). intros r. symmetry. unfold total_loss, net_forward. apply (losses_sim all PL); [auto|exact (pl_losses _ PL)|exact WF|]. split.
    - reflexivity.
    - intros k L' E. cbn [Nat.add set_input state_of P]. rewrite E. apply read_ext. intros b Hb. unfold upd. destruct (Nat.eqb_spec b a) as [->|]; [|reflexivity].
      elim (proj1 (pl_par _ PL L' a (nth_error_In _ _ E) Hb)). exact Ha.
  Qed.
End Sim.
