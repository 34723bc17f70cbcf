(** Back-propagation through whole networks: C49 and C50. *)
From Coq Require Import Reals Lra Lia Arith List FunctionalExtensionality.
From Verif Require Import NumBase NumpyModel NumpyProps LayersProps RecurrentBase NetworkModel.
Import ListNotations.
Open Scope R_scope.

(** ** What is required of networks and layers *)
(** Layers only read cells that no layer after them (nor they themselves) write to, and every cell is written by one layer
    at most.  That is: the layers are in topological order (C03) and the outputs do not overlap (C15). *)
Fixpoint wf_net (ls : list layer) : Prop :=
  match ls with
  | [] => True
  | l :: r => NoDup (l_out l) /\ (forall a, In a (l_in l) -> ~ In a (l_out l)) /\
              (forall m a, In m r -> In a (l_in l) \/ In a (l_out l) -> ~ In a (l_out m)) /\ wf_net r
  end.
(** A layer back-propagates correctly at given parameters and inputs: along all curves
    through them, for all output deltas, the deltas and gradients computed from cleared
    buffers give the derivative of <output deltas, outputs> + loss. *)
Definition back_propagates (l : layer) (p0 x0 : vec) : Prop :=
  forall s0 (p x : R -> vec) p' x' dout, p s0 = p0 -> x s0 = x0 -> curve1 s0 (l_np l) p p' -> curve1 s0 (length (l_in l)) x x' ->
  let '(y, int) := l_fwd l p0 x0 in
  let r := l_bwd l p0 x0 (cut (length (l_out l)) y) int dout (fun _ => 0) (fun _ => 0) in
  D s0 (fun s => pair1 (length (l_out l)) dout (fst (l_fwd l (p s) (x s))) + l_loss l (p s) (x s))
       (pair1 (length (l_in l)) (b_din r) x' + pair1 (l_np l) (b_grad r) p').

(** ** Reading and writing cells *)
Definition inb (a : nat) (l : list nat) : bool := existsb (Nat.eqb a) l.
Lemma inb_In a l : inb a l = true <-> In a l.
Proof.
  unfold inb. rewrite existsb_exists. split; [intros (x & H & E); apply Nat.eqb_eq in E; now subst | intros H; exists a; split; [assumption | apply Nat.eqb_refl]].
Qed.
Lemma inb_not a l : inb a l = false <-> ~ In a l.
Proof. rewrite <- inb_In. destruct (inb a l); split; congruence. Qed.
Lemma write_out cells : forall v m a, ~ In a cells -> write cells v m a = m a.
Proof.
  induction cells as [|c r IH]; intros v m a H; cbn; [reflexivity|]. rewrite IH by (intros N; apply H; now right).
  destruct (Nat.eqb_spec a c); [subst; exfalso; apply H; now left | reflexivity].
Qed.
Lemma write_in cells : forall v m k, NoDup cells -> (k < length cells)%nat -> write cells v m (nth k cells O) = v k.
Proof.
  induction cells as [|c r IH]; intros v m k ND Hk; cbn in *; [lia|]. inversion ND; subst. destruct k as [|k].
  - rewrite write_out by assumption. now rewrite Nat.eqb_refl.
  - rewrite IH; [reflexivity | assumption | lia].
Qed.
Lemma add_to_spec cells : forall v m a, add_to cells v m a = m a + Rsum (length cells) (fun k => if (nth k cells O =? a)%nat then v k else 0).
Proof.
  induction cells as [|c r IH]; intros v m a; [cbn; lra|]. cbn [add_to length]. rewrite IH, Rsum_shift. cbn [nth].
  rewrite (Nat.eqb_sym c a). destruct (a =? c)%nat; lra.
Qed.
Lemma read_ext cells m1 m2 : (forall a, In a cells -> m1 a = m2 a) -> read cells m1 = read cells m2.
Proof.
  intros H. apply functional_extensionality. intros k. unfold read, cut. destruct (Nat.ltb_spec k (length cells)); [|reflexivity]. apply H. now apply nth_In.
Qed.
Lemma read_at cells m k : (k < length cells)%nat -> read cells m k = m (nth k cells O).
Proof. intros H. unfold read, cut. now rewrite (proj2 (Nat.ltb_lt _ _) H). Qed.
Lemma pair1_ext n a b c d : (forall k, (k < n)%nat -> a k * b k = c k * d k) -> pair1 n a b = pair1 n c d.
Proof. intros H. apply Rsum_ext. exact H. Qed.

(** Sums over the cells of a list *)
Lemma Rsum_if_eq N c (f : nat -> R) : (c < N)%nat -> Rsum N (fun a => if (c =? a)%nat then f a else 0) = f c.
Proof.
  intros H. rewrite (Rsum_single N c); [now rewrite Nat.eqb_refl | assumption |]. intros i _ Ne. destruct (Nat.eqb_spec c i); [congruence | reflexivity].
Qed.
Lemma Rsum_cells N cells (f : nat -> R) : NoDup cells -> (forall a, In a cells -> (a < N)%nat) ->
  Rsum N (fun a => if inb a cells then f a else 0) = Rsum (length cells) (fun k => f (nth k cells O)).
Proof.
  intros ND. induction cells as [|c r IH]; intros H.
  - cbn. now apply Rsum_zero.
  - inversion ND; subst. cbn [length]. rewrite Rsum_shift. cbn [nth]. rewrite <- IH by (auto; intros; apply H; now right).
    rewrite <- (Rsum_if_eq N c f) by (apply H; now left). rewrite <- Rsum_plus. apply Rsum_ext. intros a _. change (inb a (c :: r)) with ((a =? c)%nat || inb a r)%bool. rewrite (Nat.eqb_sym a c).
    destruct (Nat.eqb_spec c a) as [->|Ne]; cbn [orb]; [|lra]. assert (E : inb a r = false) by now apply inb_not. rewrite E. lra.
Qed.
Lemma Rsum_incs N cells (v w : vec) (skip : nat -> bool) : (forall a, In a cells -> (a < N)%nat /\ skip a = false) ->
  Rsum N (fun a => if skip a then 0 else Rsum (length cells) (fun k => if (nth k cells O =? a)%nat then v k else 0) * w a) = Rsum (length cells) (fun k => v k * w (nth k cells O)).
Proof.
  intros H. transitivity (Rsum N (fun a => Rsum (length cells) (fun k => if (nth k cells O =? a)%nat then (fun a => if skip a then 0 else v k * w a) a else 0))).
  - apply Rsum_ext. intros a _. destruct (skip a).
    + symmetry. apply Rsum_zero. intros k _. now destruct (_ =? _)%nat.
    + rewrite <- Rsum_scal_r. apply Rsum_ext. intros k _. destruct (_ =? _)%nat; lra.
  - rewrite Rsum_swap. apply Rsum_ext. intros k Hk. destruct (H (nth k cells O) ltac:(now apply nth_In)) as [L S].
    rewrite (Rsum_if_eq N (nth k cells O) (fun a => if skip a then 0 else v k * w a) L). now rewrite S.
Qed.

(** ** What the passes leave alone *)
Definition outs (ls : list layer) : list nat := flat_map l_out ls.
Lemma layer_forward_eq i l s : layer_forward i l s =
  mkS (write (l_out l) (fst (l_fwd l (P s i) (read (l_in l) (V s)))) (V s)) (DV s) (upd i (snd (l_fwd l (P s i) (read (l_in l) (V s)))) (In_ s)) (DIn s) (P s) (G s).
Proof. unfold layer_forward. destruct (l_fwd _ _ _). reflexivity. Qed.
Lemma forward_keeps ls : forall i s, P (forward_from i ls s) = P s /\ (forall a, ~ In a (outs ls) -> V (forward_from i ls s) a = V s a) /\
  (forall k, (k < i)%nat -> In_ (forward_from i ls s) k = In_ s k).
Proof.
  induction ls as [|l r IH]; intros i s; cbn [forward_from outs flat_map]; [repeat split|].
  destruct (IH (S i) (layer_forward i l s)) as (A & B & C). rewrite layer_forward_eq in A, B, C. rewrite layer_forward_eq. cbn [P V In_] in *. repeat split.
  - exact A.
  - intros a Ha. rewrite B by (intros N; apply Ha, in_or_app; now right). apply write_out. intros N. apply Ha, in_or_app. now left.
  - intros k Hk. rewrite C by lia. unfold upd. destruct (Nat.eqb_spec k i); [lia | reflexivity].
Qed.
Lemma backward_keeps ls : forall i s, P (backward_from i ls s) = P s /\ V (backward_from i ls s) = V s /\
  (forall k, (k < i)%nat -> In_ (backward_from i ls s) k = In_ s k /\ DIn (backward_from i ls s) k = DIn s k /\ G (backward_from i ls s) k = G s k).
Proof.
  induction ls as [|l r IH]; intros i s; cbn [backward_from]; [repeat split|]. destruct (IH (S i) s) as (A & B & C). unfold layer_backward. cbn [P V In_ DIn G].
  split; [exact A|]. split; [exact B|]. intros k Hk. unfold upd. destruct (Nat.eqb_spec k i); [lia|]. apply C. lia.
Qed.
Lemma wf_outs_disjoint l r a : wf_net (l :: r) -> In a (l_in l) \/ In a (l_out l) -> ~ In a (outs r).
Proof. intros (_ & _ & H & _) Ha N. apply in_flat_map in N as (m & Hm & Hin). exact (H m a Hm Ha Hin). Qed.

(** ** C49 *)
Section Backprop.
Variables (s0 : R) (N : nat) (P0 : R -> nat -> vec) (P0' : nat -> vec).
Fixpoint good_from (i : nat) (ls : list layer) (p : nat -> vec) (v : vec) : Prop :=
  match ls with [] => True | l :: r => back_propagates l (p i) (read (l_in l) v) /\ good_from (S i) r p v end.
Fixpoint par_curves (i : nat) (ls : list layer) : Prop :=
  match ls with [] => True | l :: r => curve1 s0 (l_np l) (fun s => P0 s i) (P0' i) /\ par_curves (S i) r end.
Fixpoint grads_from (i : nat) (ls : list layer) (g : nat -> vec) : R :=
  match ls with [] => 0 | l :: r => pair1 (l_np l) (g i) (P0' i) + grads_from (S i) r g end.
Lemma grads_ext ls : forall i g g', (forall k, (i <= k)%nat -> g k = g' k) -> grads_from i ls g = grads_from i ls g'.
Proof. induction ls as [|l r IH]; intros i g g' H; cbn; [reflexivity|]. rewrite (H i) by lia. f_equal. apply IH. intros k Hk. apply H. lia. Qed.
Lemma losses_ext ls : forall i s s', P s = P s' -> V s = V s' -> losses_from i ls s = losses_from i ls s'.
Proof. induction ls as [|l r IH]; intros i s s' E1 E2; cbn; [reflexivity|]. rewrite E1, E2. f_equal. now apply IH. Qed.

Lemma backprop ls : forall i (st : R -> state) (c : state) v',
  wf_net ls -> (forall l a, In l ls -> In a (l_in l) \/ In a (l_out l) -> (a < N)%nat) ->
  (forall s, P (st s) = P0 s) -> par_curves i ls -> curve1 s0 N (fun s => V (st s)) v' ->
  let fin := fun s => forward_from i ls (st s) in
  good_from i ls (P0 s0) (V (fin s0)) ->
  V c = V (fin s0) -> P c = P0 s0 -> (forall k, (i <= k)%nat -> In_ c k = In_ (fin s0) k /\ DIn c k = (fun _ => 0) /\ G c k = (fun _ => 0)) -> (forall a, DV c a = 0) ->
  D s0 (fun s => losses_from i ls (fin s))
       (Rsum N (fun a => if inb a (outs ls) then 0 else DV (backward_from i ls c) a * v' a) + grads_from i ls (G (backward_from i ls c))).
Proof.
  induction ls as [|l r IH]; intros i st c v' WF HN HP HC Hv fin Good EV EP EI ED.
  - cbn. apply (D_eq _ _ 0); [apply D_const|]. rewrite Rsum_zero; [lra|]. intros a _. rewrite ED. lra.
  - set (fwd := fun s => l_fwd l (P0 s i) (read (l_in l) (V (st s)))).
    set (st1 := fun s => layer_forward i l (st s)).
    assert (WF0 := WF). destruct WF as (ND & Hio & Hdis & WFr). destruct HC as [HCl HCr]. destruct Good as [Gl Gr].
    assert (NotR : forall a, In a (l_in l) \/ In a (l_out l) -> ~ In a (outs r)) by (intros a; now apply wf_outs_disjoint).
    (* inputs at the time of the layer's pass and at the end *)
    assert (Rin : forall s, read (l_in l) (V (fin s)) = read (l_in l) (V (st s))).
    { intros s. apply read_ext. intros a Ha. unfold fin. cbn [forward_from]. destruct (forward_keeps r (S i) (layer_forward i l (st s))) as (_ & B & _).
      rewrite B by (apply NotR; now left). rewrite layer_forward_eq. cbn [V]. apply write_out. now apply Hio. }
    assert (Vst1 : forall s, V (st1 s) = write (l_out l) (fst (fwd s)) (V (st s))) by (intros s; unfold st1; rewrite layer_forward_eq, HP; reflexivity).
    assert (Rout : forall s k, (k < length (l_out l))%nat -> V (fin s) (nth k (l_out l) O) = fst (fwd s) k).
    { intros s k Hk. unfold fin. cbn [forward_from]. destruct (forward_keeps r (S i) (layer_forward i l (st s))) as (_ & B & _).
      rewrite B by (apply NotR; right; now apply nth_In). fold (st1 s). rewrite Vst1. now apply write_in. }
    assert (Cin : curve1 s0 (length (l_in l)) (fun s => read (l_in l) (V (st s))) (read (l_in l) v')).
    { intros k Hk. rewrite read_at by assumption. apply (D_ext s0 (fun s => V (st s) (nth k (l_in l) O)) _ (v' (nth k (l_in l) O))); [intros s; now rewrite read_at | reflexivity |].
      apply Hv. apply (HN l); [now left | left; now apply nth_In]. }
    assert (Gd := fun dout => Gl s0 (fun s => P0 s i) (fun s => read (l_in l) (V (st s))) (P0' i) (read (l_in l) v') dout eq_refl (eq_sym (Rin s0)) HCl Cin).
    rewrite (Rin s0) in Gd. fold (fwd s0) in Gd. destruct (fwd s0) as [y int] eqn:Efwd.
    set (rs := fun dout => l_bwd l (P0 s0 i) (read (l_in l) (V (st s0))) (cut (length (l_out l)) y) int dout (fun _ => 0) (fun _ => 0)) in *.
    set (val := fun dout => pair1 (length (l_in l)) (b_din (rs dout)) (read (l_in l) v') + pair1 (l_np l) (b_grad (rs dout)) (P0' i)).
    assert (Gd' : forall dout, D s0 (fun s => pair1 (length (l_out l)) dout (fst (fwd s)) + l_loss l (P0 s i) (read (l_in l) (V (st s)))) (val dout)) by exact Gd.
    clear Gd.
    (* derivatives of loss and outputs *)
    set (z := fun _ : nat => 0).
    assert (Dl : D s0 (fun s => l_loss l (P0 s i) (read (l_in l) (V (st s)))) (val z)).
    { apply (D_ext s0 (fun s => pair1 (length (l_out l)) z (fst (fwd s)) + l_loss l (P0 s i) (read (l_in l) (V (st s)))) _ (val z)); [|reflexivity | apply Gd'].
      intros s. unfold pair1. rewrite Rsum_zero; [lra | intros; unfold z; lra]. }
    set (y' := fun k => val (fun j => if (j =? k)%nat then 1 else 0) - val z).
    assert (Dy : forall k, (k < length (l_out l))%nat -> D s0 (fun s => fst (fwd s) k) (y' k)).
    { intros k Hk. apply (D_ext s0 (fun s => (pair1 (length (l_out l)) (fun j => if (j =? k)%nat then 1 else 0) (fst (fwd s)) + l_loss l (P0 s i) (read (l_in l) (V (st s)))) - l_loss l (P0 s i) (read (l_in l) (V (st s)))) _ (y' k)); [|reflexivity|].
      - intros s. unfold pair1. rewrite (Rsum_single _ k); [rewrite Nat.eqb_refl; lra | assumption |]. intros j _ Ne. destruct (Nat.eqb_spec j k); [contradiction | lra].
      - apply (D_minus s0 (fun s => pair1 (length (l_out l)) (fun j => if (j =? k)%nat then 1 else 0) (fst (fwd s)) + l_loss l (P0 s i) (read (l_in l) (V (st s)))) (fun s => l_loss l (P0 s i) (read (l_in l) (V (st s))))); [apply Gd' | exact Dl]. }
    assert (Key : forall dout, pair1 (length (l_out l)) dout y' + val z = val dout).
    { intros dout. apply (D_unique s0 (fun s => pair1 (length (l_out l)) dout (fst (fwd s)) + l_loss l (P0 s i) (read (l_in l) (V (st s))))); [|apply Gd'].
      apply (D_plus s0 (fun s => pair1 (length (l_out l)) dout (fst (fwd s))) (fun s => l_loss l (P0 s i) (read (l_in l) (V (st s))))); [|exact Dl].
      apply (D_sum s0 (length (l_out l)) (fun k s => dout k * fst (fwd s) k)). intros k Hk. apply (D_scal s0 (dout k) (fun s => fst (fwd s) k)). now apply Dy. }
    (* the rest of the network *)
    set (v1' := write (l_out l) y' v').
    assert (Hv1 : curve1 s0 N (fun s => V (st1 s)) v1').
    { intros a Ha. destruct (in_dec Nat.eq_dec a (l_out l)) as [I|I].
      - apply (In_nth _ _ O) in I as (k & Hk & <-). unfold v1'. rewrite write_in by assumption.
        apply (D_ext s0 (fun s => fst (fwd s) k) _ (y' k)); [intros s; rewrite Vst1; symmetry; now apply write_in | reflexivity | now apply Dy].
      - unfold v1'. rewrite write_out by assumption. apply (D_ext s0 (fun s => V (st s) a) _ (v' a)); [intros s; rewrite Vst1; symmetry; now apply write_out | reflexivity | now apply Hv]. }
    assert (IHr := IH (S i) st1 c v1' WFr (fun m a Hm => HN m a (or_intror Hm))
      ltac:(intros s; unfold st1; rewrite layer_forward_eq; cbn [P]; apply HP) HCr Hv1 Gr EV EP
      ltac:(intros k Hk; apply EI; lia) ED). cbv zeta in IHr.
    set (b := backward_from (S i) r c) in *. set (dout := read (l_out l) (DV b)).
    destruct (backward_keeps r (S i) c) as (KP & KV & KI). fold b in KP, KV, KI.
    destruct (KI i ltac:(lia)) as (KI1 & KI2 & KI3). destruct (EI i ltac:(lia)) as (EI1 & EI2 & EI3).
    assert (Hint : In_ c i = int).
    { rewrite EI1. unfold fin. cbn [forward_from]. destruct (forward_keeps r (S i) (layer_forward i l (st s0))) as (_ & _ & C). rewrite C by lia.
      rewrite layer_forward_eq. cbn [In_]. unfold upd. rewrite Nat.eqb_refl, HP. change (snd (fwd s0) = int). now rewrite Efwd. }
    assert (Hrout : read (l_out l) (V c) = cut (length (l_out l)) y).
    { apply functional_extensionality. intros k. rewrite EV. unfold read, cut. destruct (Nat.ltb_spec k (length (l_out l))) as [L|L]; [|reflexivity]. rewrite Rout by assumption. now rewrite Efwd. }
    assert (Ebk : l_bwd l (P b i) (read (l_in l) (V b)) (read (l_out l) (V b)) (In_ b i) (read (l_out l) (DV b)) (DIn b i) (G b i) = rs dout).
    { rewrite KP, EP, KV, Hrout, KI1, Hint, KI2, EI2, KI3, EI3, EV, Rin. reflexivity. }
    cbn [backward_from losses_from grads_from]. fold b. unfold layer_backward. cbn [DV G]. rewrite Ebk.
    apply (D_ext s0 (fun s => l_loss l (P0 s i) (read (l_in l) (V (st s))) + losses_from (S i) r (forward_from (S i) r (st1 s))) _ (val z + (Rsum N (fun a => if inb a (outs r) then 0 else DV b a * v1' a) + grads_from (S i) r (G b)))).
    + intros s. rewrite Rin. f_equal. f_equal. unfold fin. cbn [forward_from]. destruct (forward_keeps r (S i) (layer_forward i l (st s))) as (A & _). rewrite A, layer_forward_eq. cbn [P]. now rewrite HP.
    + unfold upd at 1. rewrite Nat.eqb_refl.
      rewrite (grads_ext r (S i) (upd i (b_grad (rs dout)) (G b)) (G b)) by (intros k Hk; unfold upd; destruct (Nat.eqb_spec k i); [lia | reflexivity]).
      assert (K := Key dout). unfold val in K at 2.
      enough (Rsum N (fun a => if inb a (outs r) then 0 else DV b a * v1' a) + pair1 (length (l_in l)) (b_din (rs dout)) (read (l_in l) v') =
              Rsum N (fun a => if inb a (outs (l :: r)) then 0 else write (l_out l) (b_dout (rs dout)) (add_to (l_in l) (b_din (rs dout)) (DV b)) a * v' a) + pair1 (length (l_out l)) dout y') by lra.
      transitivity (Rsum N (fun a => if inb a (outs (l :: r)) then 0 else DV b a * v' a) + Rsum N (fun a => if inb a (l_out l) then DV b a * v1' a else 0) + pair1 (length (l_in l)) (b_din (rs dout)) (read (l_in l) v')).
      * f_equal. rewrite <- Rsum_plus. apply Rsum_ext. intros a _. change (outs (l :: r)) with (l_out l ++ outs r).
        destruct (inb a (l_out l)) eqn:E1.
        -- assert (I := proj1 (inb_In _ _) E1). rewrite (proj2 (inb_not a (outs r)) (NotR a (or_intror I))).
           rewrite (proj2 (inb_In a (l_out l ++ outs r)) (in_or_app _ _ _ (or_introl I))). lra.
        -- apply inb_not in E1. destruct (inb a (outs r)) eqn:E2.
           ++ rewrite (proj2 (inb_In a (l_out l ++ outs r)) (in_or_app _ _ _ (or_intror (proj1 (inb_In _ _) E2)))). lra.
           ++ apply inb_not in E2. rewrite (proj2 (inb_not a (l_out l ++ outs r))) by (rewrite in_app_iff; tauto). unfold v1'. rewrite write_out by assumption. lra.
      * rewrite (Rsum_cells N (l_out l) (fun a => DV b a * v1' a) ND (fun a Ha => HN l a (or_introl eq_refl) (or_intror Ha))).
        rewrite (Rsum_ext (length (l_out l)) (fun k => DV b (nth k (l_out l) O) * v1' (nth k (l_out l) O)) (fun k => dout k * y' k)).
        2:{ intros k Hk. unfold dout, v1'. now rewrite read_at, write_in. }
        change (Rsum (length (l_out l)) (fun k => dout k * y' k)) with (pair1 (length (l_out l)) dout y').
        enough (E : Rsum N (fun a => if inb a (outs (l :: r)) then 0 else write (l_out l) (b_dout (rs dout)) (add_to (l_in l) (b_din (rs dout)) (DV b)) a * v' a) =
          Rsum N (fun a => if inb a (outs (l :: r)) then 0 else DV b a * v' a) + pair1 (length (l_in l)) (b_din (rs dout)) (read (l_in l) v')) by (rewrite E; lra).
        rewrite (pair1_ext (length (l_in l)) (b_din (rs dout)) (read (l_in l) v') (b_din (rs dout)) (fun k => v' (nth k (l_in l) O))) by (intros k Hk; now rewrite read_at).
        unfold pair1. rewrite <- (Rsum_incs N (l_in l) (b_din (rs dout)) v' (fun a => inb a (outs (l :: r)))).
        2:{ intros a Ha. split; [apply (HN l a); [now left | now left]|]. apply inb_not. change (outs (l :: r)) with (l_out l ++ outs r). rewrite in_app_iff. intros [I|I]; [now apply (Hio a) | now apply (NotR a (or_introl Ha))]. }
        rewrite <- Rsum_plus. apply Rsum_ext. intros a _. destruct (inb a (outs (l :: r))) eqn:E; [lra|]. apply inb_not in E. change (outs (l :: r)) with (l_out l ++ outs r) in E. rewrite in_app_iff in E.
        rewrite write_out by tauto. rewrite add_to_spec. lra.
    + apply (D_plus s0 (fun s => l_loss l (P0 s i) (read (l_in l) (V (st s)))) (fun s => losses_from (S i) r (forward_from (S i) r (st1 s)))); [exact Dl | exact IHr].
Qed.
End Backprop.

(** After forward_pass and backward_pass the gradients and the deltas of the network's
    inputs (the cells not written by any layer) are the derivatives of the total loss: along every curve of
    parameters and inputs through the present ones, whatever the buffers
    contained before. *)
Theorem C49_backprop : forall ls N s0 (st : R -> state) p' v',
  wf_net ls -> (forall l a, In l ls -> In a (l_in l) \/ In a (l_out l) -> (a < N)%nat) ->
  par_curves s0 (fun s => P (st s)) p' O ls -> curve1 s0 N (fun s => V (st s)) v' ->
  good_from O ls (P (st s0)) (V (net_forward ls (st s0))) ->
  let s1 := net_backward ls (net_forward ls (st s0)) in
  D s0 (fun s => total_loss ls (net_forward ls (st s)))
       (Rsum N (fun a => if inb a (outs ls) then 0 else DV s1 a * v' a) + grads_from p' O ls (G s1)).
Proof.
  intros ls N s0 st p' v' WF HN HC Hv Good s1.
  apply (backprop s0 N (fun s => P (st s)) p' ls O st (clear_backward (net_forward ls (st s0))) v'); auto.
  cbn [P clear_backward]. exact (proj1 (forward_keeps ls O (st s0))).
Qed.
Print Assumptions C49_backprop.

(** ** C50 *)
Lemma backward_det ls : forall i c c', V c = V c' -> P c = P c' -> DV c = DV c' ->
  (forall k, (i <= k < i + length ls)%nat -> In_ c k = In_ c' k /\ DIn c k = DIn c' k /\ G c k = G c' k) ->
  DV (backward_from i ls c) = DV (backward_from i ls c') /\
  (forall k, (i <= k < i + length ls)%nat -> In_ (backward_from i ls c) k = In_ (backward_from i ls c') k /\ DIn (backward_from i ls c) k = DIn (backward_from i ls c') k /\ G (backward_from i ls c) k = G (backward_from i ls c') k).
Proof.
  induction ls as [|l r IH]; intros i c c' EV EP ED EI; cbn [backward_from length]; [split; [assumption | intros; lia]|].
  destruct (IH (S i) c c' EV EP ED ltac:(intros k Hk; apply EI; cbn [length]; lia)) as [A B].
  destruct (backward_keeps r (S i) c) as (KP & KV & KI). destruct (backward_keeps r (S i) c') as (KP' & KV' & KI').
  destruct (KI i ltac:(lia)) as (K1 & K2 & K3). destruct (KI' i ltac:(lia)) as (K1' & K2' & K3'). destruct (EI i ltac:(cbn [length]; lia)) as (E1 & E2 & E3).
  unfold layer_backward. cbn [DV In_ DIn G]. rewrite KP, KP', KV, KV', EV, EP, A, K1, K1', K2, K2', K3, K3', E1, E2, E3.
  split; [reflexivity|]. intros k Hk. unfold upd. destruct (Nat.eqb_spec k i); [repeat split|]. apply B. lia.
Qed.
(** Two networks with the same parameters and inputs, otherwise in any state - deltas,
    gradients, internals and outputs left over from whatever happened before -
    have the same gradients and deltas after forward and backward pass. *)
Lemma forward_det ls : forall i s s', wf_net ls -> P s = P s' -> (forall l a, In l ls -> In a (l_in l) -> ~ In a (outs ls) -> V s a = V s' a) ->
  (forall l a, In l ls -> In a (l_in l) -> V (forward_from i ls s) a = V (forward_from i ls s') a) /\
  (forall a, In a (outs ls) -> V (forward_from i ls s) a = V (forward_from i ls s') a) /\
  (forall k, (i <= k < i + length ls)%nat -> In_ (forward_from i ls s) k = In_ (forward_from i ls s') k).
Proof.
  induction ls as [|l r IH]; intros i s s' WF EP EV; cbn [forward_from length].
  - repeat split; [intros l a [] | intros a [] | intros; lia].
  - assert (WF0 := WF). destruct WF as (ND & Hio & Hdis & WFr).
    assert (NotR : forall a, In a (l_in l) \/ In a (l_out l) -> ~ In a (outs r)) by (intros a; now apply wf_outs_disjoint).
    assert (Er : read (l_in l) (V s) = read (l_in l) (V s')).
    { apply read_ext. intros a Ha. apply (EV l a); [now left | assumption |]. change (outs (l :: r)) with (l_out l ++ outs r). rewrite in_app_iff. intros [I|I]; [now apply (Hio a) | now apply (NotR a (or_introl Ha))]. }
    set (s1 := layer_forward i l s). set (s1' := layer_forward i l s').
    assert (Eo : forall a, In a (l_out l) -> V s1 a = V s1' a).
    { intros a Ha. apply (In_nth _ _ O) in Ha as (k & Hk & <-). unfold s1, s1'. rewrite !layer_forward_eq. cbn [V]. rewrite !write_in by assumption. now rewrite EP, Er. }
    assert (Ei : In_ s1 i = In_ s1' i) by (unfold s1, s1'; rewrite !layer_forward_eq; cbn [In_]; unfold upd; now rewrite Nat.eqb_refl, EP, Er).
    assert (Ek : forall a, ~ In a (l_out l) -> V s1 a = V s a /\ V s1' a = V s' a) by (intros a Ha; unfold s1, s1'; rewrite !layer_forward_eq; cbn [V]; now rewrite !write_out).
    destruct (IH (S i) s1 s1' WFr) as (A & B & C).
    { unfold s1, s1'. rewrite !layer_forward_eq. exact EP. }
    { intros m a Hm Ha Hn. destruct (in_dec Nat.eq_dec a (l_out l)) as [I|I]; [now apply Eo|]. destruct (Ek a I) as [-> ->]. apply (EV m a); [now right | assumption |].
      change (outs (l :: r)) with (l_out l ++ outs r). rewrite in_app_iff. tauto. }
    destruct (forward_keeps r (S i) s1) as (_ & K & KI). destruct (forward_keeps r (S i) s1') as (_ & K' & KI').
    split; [|split].
    + intros m a [<-|Hm] Ha; [|now apply (A m)]. rewrite K, K' by (apply NotR; now left). destruct (Ek a (Hio a Ha)) as [-> ->].
      apply (EV l a); [now left | assumption |]. change (outs (l :: r)) with (l_out l ++ outs r). rewrite in_app_iff. intros [I|I]; [now apply (Hio a) | now apply (NotR a (or_introl Ha))].
    + intros a Ha. change (outs (l :: r)) with (l_out l ++ outs r) in Ha. destruct (in_dec Nat.eq_dec a (outs r)) as [I|I]; [now apply B|].
      rewrite K, K' by assumption. apply Eo. apply in_app_or in Ha. tauto.
    + intros k Hk. destruct (Nat.eq_dec k i) as [->|N]; [|apply C; lia]. rewrite KI, KI' by lia. exact Ei.
Qed.
Theorem C50_fresh : forall ls s s', wf_net ls -> P s = P s' -> (forall a, ~ In a (outs ls) -> V s a = V s' a) ->
  let b := net_backward ls (net_forward ls s) in let b' := net_backward ls (net_forward ls s') in
  DV b = DV b' /\ forall k, (k < length ls)%nat -> G b k = G b' k.
Proof.
  intros ls s s' WF EP EV b b'. destruct (forward_det ls O s s' WF EP (fun l a _ _ Hn => EV a Hn)) as (_ & B & C).
  destruct (forward_keeps ls O s) as (KP & KV & _). destruct (forward_keeps ls O s') as (KP' & KV' & _).
  destruct (backward_det ls O (clear_backward (net_forward ls s)) (clear_backward (net_forward ls s'))) as [X Y].
  - cbn [V clear_backward]. apply functional_extensionality. intros a. unfold net_forward. destruct (in_dec Nat.eq_dec a (outs ls)) as [I|I]; [now apply B|]. rewrite KV, KV' by assumption. now apply EV.
  - cbn [P clear_backward]. unfold net_forward. now rewrite KP, KP'.
  - reflexivity.
  - intros k Hk. cbn [In_ DIn G clear_backward]. repeat split. now apply C.
  - split; [exact X|]. intros k Hk. apply Y. lia.
Qed.
Print Assumptions C50_fresh.

(** A layer whose backward pass changes its internals only in ways that do not matter for another
    backward pass (all layers but ClockworkLstm leave them as they are). *)
Definition stable (l : layer) : Prop := forall p x y int dout dint g,
  l_bwd l p x y (b_int (l_bwd l p x y int dout dint g)) = l_bwd l p x y int.
Lemma stable_again ls : forall i c c', (forall l, In l ls -> stable l) -> V c = V c' -> P c = P c' -> DV c = DV c' ->
  (forall k, (i <= k)%nat -> DIn c k = DIn c' k /\ G c k = G c' k) ->
  (forall k, (i <= k)%nat -> In_ c' k = In_ (backward_from i ls c) k) ->
  DV (backward_from i ls c') = DV (backward_from i ls c) /\
  (forall k, (i <= k)%nat -> DIn (backward_from i ls c') k = DIn (backward_from i ls c) k /\ G (backward_from i ls c') k = G (backward_from i ls c) k).
Proof.
  induction ls as [|l r IH]; intros i c c' St EV EP ED EI EX; cbn [backward_from] in *.
  - split; [now symmetry|]. intros k Hk. destruct (EI k Hk). now split.
  - destruct (IH (S i) c c' (fun m Hm => St m (or_intror Hm)) EV EP ED ltac:(intros k Hk; apply EI; lia)) as [A B].
    { intros k Hk. rewrite EX by lia. unfold layer_backward. cbn [In_]. unfold upd. destruct (Nat.eqb_spec k i); [lia | reflexivity]. }
    destruct (backward_keeps r (S i) c) as (KP & KV & KI). destruct (backward_keeps r (S i) c') as (KP' & KV' & KI').
    destruct (KI i ltac:(lia)) as (K1 & K2 & K3). destruct (KI' i ltac:(lia)) as (K1' & K2' & K3'). destruct (EI i ltac:(lia)) as (E2 & E3).
    assert (X := EX i ltac:(lia)). unfold layer_backward in X. cbn [In_] in X. unfold upd in X. rewrite Nat.eqb_refl in X.
    rewrite KP, KV, K1, K2, K3, EV, EP, E2, E3 in X.
    unfold layer_backward. cbn [DV In_ DIn G]. rewrite K1', X, KP, KP', KV, KV', EV, EP, A, K1, K2, K2', K3, K3', E2, E3.
    rewrite (St l (or_introl eq_refl)).
    split; [reflexivity|]. intros k Hk. unfold upd. destruct (Nat.eqb_spec k i); [split; reflexivity|]. apply B. lia.
Qed.
(** Calling backward_pass again gives the same deltas and gradients *)
Theorem C50_repeat : forall ls s, (forall l, In l ls -> stable l) ->
  let s1 := net_backward ls s in let s2 := net_backward ls s1 in
  DV s2 = DV s1 /\ G s2 = G s1.
Proof.
  intros ls s St s1 s2. destruct (backward_keeps ls O (clear_backward s)) as (KP & KV & _).
  destruct (stable_again ls O (clear_backward s) (clear_backward s1) St) as [A B].
  - cbn [V clear_backward]. symmetry. exact KV.
  - cbn [P clear_backward]. symmetry. exact KP.
  - reflexivity.
  - intros k _. split; reflexivity.
  - reflexivity.
  - split; [exact A|]. apply functional_extensionality. intros k. apply B. lia.
Qed.
Print Assumptions C50_repeat.
