(** Facts about the executions of CudaModel: what a cell holds after any interleaving of
    the threads of a launch. *)
From Coq Require Import Reals ZArith Arith List Bool Lia Lra Permutation.
From Verif Require Import NumBase NumpyModel ConvModel PoolModel CudaModel.
Import ListNotations.
Open Scope R_scope.

Lemma cell_eqb_spec c d : reflect (c = d) (cell_eqb c d).
Proof.
  destruct c as [a i], d as [b j]. unfold cell_eqb; cbn. destruct (Nat.eqb_spec a b), (Z.eqb_spec i j); cbn; constructor; congruence.
Qed.
Lemma nth_set_eq {X} k (x y : X) l : nth_error l k = Some y -> nth_error (set_nth k x l) k = Some x.
Proof.
  intros H. assert (L : (k < length l)%nat) by (apply nth_error_Some; congruence). unfold set_nth.
  rewrite nth_error_app2; rewrite firstn_length_le by lia; [|lia]. now rewrite Nat.sub_diag.
Qed.
Lemma nth_set_neq {X} k k' (x y : X) l : nth_error l k = Some y -> k' <> k -> nth_error (set_nth k x l) k' = nth_error l k'.
Proof.
  revert k k'. induction l as [|z l IH]; intros [|k] [|k'] H N; cbn in H; try discriminate; try congruence; try reflexivity.
  change (nth_error (set_nth k x l) k' = nth_error l k'). apply IH; [exact H | congruence].
Qed.
Lemma concat_set {X} k (x : X) r l : nth_error l k = Some (x :: r) -> Permutation (concat l) (x :: concat (set_nth k r l)).
Proof.
  revert k. induction l as [|z l IH]; intros [|k] H; cbn in H; try discriminate.
  - injection H as ->. reflexivity.
  - change (Permutation (z ++ concat l) (x :: z ++ concat (set_nth k r l))). rewrite (IH k H). symmetry. apply Permutation_middle.
Qed.

Lemma interleaving_perm ts l : interleaving ts l -> Permutation (concat ts) l.
Proof.
  induction 1 as [ts H|ts k w r l H I IH].
  - replace (concat ts) with (@nil write); [constructor|]. induction H as [|t ts E _ IH]; cbn; [reflexivity | now rewrite <- E, <- IH].
  - rewrite (concat_set k w r ts H). now constructor.
Qed.
(** Some execution exists: one thread after the other. *)
Lemma interleaving_exists ts : exists l, interleaving ts l.
Proof.
  remember (length (concat ts)) as n eqn:E. revert ts E. induction n as [|n IH]; intros ts E.
  - exists []. constructor. apply Forall_forall. intros t Ht. destruct t as [|w t]; [reflexivity|]. exfalso.
    destruct (in_split _ _ Ht) as (u & v & ->). rewrite concat_app, app_length in E. cbn in E. lia.
  - assert (X : exists k w r, nth_error ts k = Some (w :: r)).
    { clear IH. revert n E. induction ts as [|t ts IH]; intros n E; cbn in E; [discriminate|]. destruct t as [|w t]; [|now exists O, w, t].
      destruct (IH n E) as (k & w & r & H). now exists (S k), w, r. }
    destruct X as (k & w & r & H). destruct (IH (set_nth k r ts)) as (l & I).
    + assert (P := Permutation_length (concat_set k w r ts H)). cbn in P. lia.
    + exists (w :: l). now apply thread_step with k r.
Qed.

Lemma exec_local a i ws m m' : m a i = m' a i -> exec ws m a i = exec (filter (fun w => cell_eqb (a, i) (cell w)) ws) m' a i.
Proof.
  unfold exec. revert m m'. induction ws as [|w ws IH]; intros m m' E; cbn [fold_left filter]; [exact E|].
  destruct (cell_eqb (a, i) (cell w)) eqn:C; cbn [fold_left]; apply IH; unfold perform; rewrite C; [|exact E]. destruct w; congruence.
Qed.
Lemma interleaving_filter p ts l k t : interleaving ts l -> nth_error ts k = Some t ->
  (forall k' t', nth_error ts k' = Some t' -> k' <> k -> filter p t' = []) -> filter p l = filter p t.
Proof.
  intros I. revert t. induction I as [ts H|ts k0 w r l H I IH]; intros t Ht O.
  - apply nth_error_In in Ht. rewrite Forall_forall in H. now rewrite <- (H t Ht).
  - destruct (Nat.eq_dec k0 k) as [->|N].
    + rewrite H in Ht. injection Ht as <-. cbn. rewrite (IH r); [reflexivity | now apply nth_set_eq with (w :: r) |].
      intros k' t' H' N'. apply (O k'); [|exact N']. now rewrite <- (nth_set_neq k k' r (w :: r) ts H N').
    + assert (F := O k0 _ H N). cbn in F |- *. destruct (p w); [discriminate|]. apply IH.
      * now rewrite (nth_set_neq k0 k r (w :: r)) by auto.
      * intros k' t' H' N'. destruct (Nat.eq_dec k' k0) as [->|N0].
        -- rewrite (nth_set_eq k0 r (w :: r)) in H' by exact H. now injection H' as <-.
        -- apply (O k'); [|exact N']. now rewrite <- (nth_set_neq k0 k' r (w :: r) ts H N0).
Qed.
Lemma filter_none {X} (p : X -> bool) l : (forall x, In x l -> p x = false) -> filter p l = [].
Proof. induction l as [|x l IH]; intros H; cbn; [reflexivity|]. rewrite (H x) by now left. apply IH. intros y Hy. apply H. now right. Qed.
Lemma cell_other a i w : cell w <> (a, i) -> cell_eqb (a, i) (cell w) = false.
Proof. intros N. destruct (cell_eqb_spec (a, i) (cell w)); congruence. Qed.

(** A cell written by one thread only holds what this thread alone makes of it. *)
Lemma owner ts l m a i k t : interleaving ts l -> nth_error ts k = Some t ->
  (forall k' t' w, nth_error ts k' = Some t' -> k' <> k -> In w t' -> cell w <> (a, i)) -> exec l m a i = exec t m a i.
Proof.
  intros I Ht O. rewrite (exec_local a i l m m eq_refl), (exec_local a i t m m eq_refl).
  rewrite (interleaving_filter (fun w => cell_eqb (a, i) (cell w)) ts l k t I Ht); [reflexivity|].
  intros k' t' H N. apply filter_none. intros w Hw. apply cell_other. now apply (O k' t').
Qed.
Lemma untouched ts l m a i : interleaving ts l -> (forall t w, In t ts -> In w t -> cell w <> (a, i)) -> exec l m a i = m a i.
Proof.
  intros I O. rewrite (exec_local a i l m m eq_refl), filter_none; [reflexivity|]. intros w Hw. apply cell_other.
  apply (Permutation_in w (Permutation_sym (interleaving_perm _ _ I))) in Hw. apply in_concat in Hw as (t & Ht & Hw). now apply (O t).
Qed.

(** ** Additions *)
Definition lsum (l : list R) : R := fold_right Rplus 0 l.
Definition contribution (a : nat) (i : Z) (w : write) : R := if cell_eqb (a, i) (cell w) then match w with Put _ _ v | Inc _ _ v | AtomicAdd _ _ v => v end else 0.
Lemma lsum_perm l l' : Permutation l l' -> lsum l = lsum l'.
Proof. unfold lsum. induction 1; cbn in *; lra. Qed.
Lemma lsum_app l l' : lsum (l ++ l') = lsum l + lsum l'.
Proof. unfold lsum. induction l as [|x l IH]; cbn in *; [lra|]. rewrite IH. lra. Qed.
Lemma exec_adds a i l m : (forall w, In w l -> cell w = (a, i) -> forall b j v, w <> Put b j v) -> exec l m a i = m a i + lsum (map (contribution a i) l).
Proof.
  unfold exec. revert m. induction l as [|w l IH]; intros m H; cbn [fold_left map lsum fold_right]; [lra|].
  change (fold_right Rplus 0 (map (contribution a i) l)) with (lsum (map (contribution a i) l)). rewrite IH by (intros v Hv; apply H; now right).
  unfold perform, contribution at 2. destruct (cell_eqb_spec (a, i) (cell w)) as [E|N]; [|lra]. destruct w as [b j v|b j v|b j v]; [|lra|lra].
  exfalso. apply (H (Put b j v)) with b j v; [now left | now symmetry | reflexivity].
Qed.
Lemma adds ts l m a i : interleaving ts l -> (forall t w, In t ts -> In w t -> forall b j v, w <> Put b j v) ->
  exec l m a i = m a i + lsum (map (fun t => lsum (map (contribution a i) t)) ts).
Proof.
  intros I O. assert (P := interleaving_perm _ _ I). rewrite exec_adds.
  - f_equal. rewrite <- (lsum_perm _ _ (Permutation_map (contribution a i) P)). clear. induction ts as [|t ts IH]; cbn; [reflexivity|].
    rewrite map_app, lsum_app, IH. reflexivity.
  - intros w Hw _. apply (Permutation_in w (Permutation_sym P)) in Hw. apply in_concat in Hw as (t & Ht & Hw). now apply (O t).
Qed.

(** ** Launches *)
Lemma in_zrange n k : In k (zrange n) <-> (0 <= k < n)%Z.
Proof.
  unfold zrange. rewrite in_map_iff. split.
  - intros (x & <- & H). apply in_seq in H. lia.
  - intros H. exists (Z.to_nat k). split; [lia|]. apply in_seq. lia.
Qed.
Lemma zrange_length n : length (zrange n) = Z.to_nat n.
Proof. unfold zrange. now rewrite map_length, seq_length. Qed.
Lemma nth_zrange n k : (0 <= k < n)%Z -> nth_error (zrange n) (Z.to_nat k) = Some k.
Proof.
  intros H. unfold zrange. rewrite nth_error_map, (nth_error_nth' _ O) by (rewrite seq_length; lia). rewrite seq_nth by lia. cbn. f_equal. lia.
Qed.
Lemma zrange_app a b : (0 <= a)%Z -> (0 <= b)%Z -> zrange (a + b) = zrange a ++ map (fun t => a + t)%Z (zrange b).
Proof.
  intros Ha Hb. unfold zrange. rewrite Z2Nat.inj_add by lia. rewrite seq_app, map_app, map_map. f_equal. cbn [Nat.add].
  assert (G : forall n c, map Z.of_nat (seq (Z.to_nat a + c) n) = map (fun x => (a + Z.of_nat x)%Z) (seq c n)).
  { induction n as [|n IH]; intros c; cbn [seq map]; [reflexivity|]. f_equal; [lia|]. rewrite <- IH. f_equal. f_equal. lia. }
  rewrite <- G. f_equal. f_equal. lia.
Qed.
Lemma flat_zrange {X} (f : Z -> X) dim blocks : (0 <= dim)%Z -> (0 <= blocks)%Z ->
  flat_map (fun block => map (fun thread => f (block * dim + thread)%Z) (zrange dim)) (zrange blocks) = map f (zrange (blocks * dim)).
Proof.
  intros Hd Hblocks. pattern blocks. apply natlike_ind; [reflexivity | | exact Hblocks].
  intros b Hb IH. unfold Z.succ. rewrite Z.mul_add_distr_r, Z.mul_1_l, (zrange_app b 1), (zrange_app (b * dim) dim) by nia.
  rewrite flat_map_app, map_app, IH. f_equal. change (zrange 1) with [0%Z]. cbn [map flat_map]. rewrite app_nil_r, Z.add_0_r, map_map. reflexivity.
Qed.
(** With at least as many threads as indices every thread makes at most one iteration. *)
Lemma strided_once n k step body : (0 <= k)%Z -> (n <= k + step)%Z ->
  strided (Z.to_nat n) k step n 0 body = if (k <? n)%Z then fst (body k 0%Z) else [].
Proof.
  intros Hk Hs. destruct (Z.ltb_spec k n) as [L|L].
  - destruct (Z.to_nat n) as [|f] eqn:F; [lia|]. cbn. destruct (Z.ltb_spec k n); [|lia]. destruct (body k 0%Z) as [ws o]. cbn.
    destruct f as [|f]; cbn; [apply app_nil_r|]. destruct (Z.ltb_spec (k + step) n); [lia | apply app_nil_r].
  - destruct (Z.to_nat n) as [|f]; cbn; [reflexivity|]. destruct (Z.ltb_spec k n); [lia | reflexivity].
Qed.
Definition once (n : Z) (body : Z -> Z -> list write * Z) (k : Z) : list write := if (k <? n)%Z then fst (body k 0%Z) else [].
Lemma get_blocks_enough n : (0 <= n)%Z -> (0 <= get_blocks n)%Z /\ (n <= get_blocks n * NUM_CUDA_THREADS)%Z.
Proof.
  intros H. unfold get_blocks, NUM_CUDA_THREADS. assert (D := Z.div_mod (n + 1024 - 1) 1024 ltac:(lia)). assert (M := Z.mod_pos_bound (n + 1024 - 1) 1024 ltac:(lia)).
  split; [apply Z.div_pos|]; lia.
Qed.
Lemma launch_once n body : (0 <= n)%Z -> launch (get_blocks n) NUM_CUDA_THREADS n body = map (once n body) (zrange (get_blocks n * NUM_CUDA_THREADS)).
Proof.
  intros H. destruct (get_blocks_enough n H) as [B E]. unfold launch. rewrite <- flat_zrange by (unfold NUM_CUDA_THREADS in *; lia).
  rewrite !flat_map_concat_map. f_equal. apply map_ext_in. intros b Hb. apply map_ext_in. intros t Ht. apply in_zrange in Hb, Ht.
  apply strided_once; unfold NUM_CUDA_THREADS in *; lia.
Qed.

Section Threads.
Variables (N : Z) (T : Z -> list write).
Lemma nth_threads k t : nth_error (map T (zrange N)) k = Some t -> (0 <= Z.of_nat k < N)%Z /\ t = T (Z.of_nat k).
Proof.
  intros H. assert (L : (k < length (map T (zrange N)))%nat) by (apply nth_error_Some; congruence). rewrite map_length, zrange_length in L.
  assert (R : (0 <= Z.of_nat k < N)%Z) by lia. split; [exact R|]. rewrite nth_error_map in H. assert (E := nth_zrange N _ R). rewrite Nat2Z.id in E. rewrite E in H. now injection H as <-.
Qed.
Lemma threads_owner l m a i k : interleaving (map T (zrange N)) l -> (0 <= k < N)%Z ->
  (forall k' w, (0 <= k' < N)%Z -> k' <> k -> In w (T k') -> cell w <> (a, i)) -> exec l m a i = exec (T k) m a i.
Proof.
  intros I Hk O. apply owner with (map T (zrange N)) (Z.to_nat k); [exact I | now rewrite nth_error_map, nth_zrange |].
  intros k' t' w H Nk Hw. apply nth_threads in H as [R ->]. apply (O (Z.of_nat k')); [exact R | lia | exact Hw].
Qed.
Lemma threads_untouched l m a i : interleaving (map T (zrange N)) l -> (forall k w, (0 <= k < N)%Z -> In w (T k) -> cell w <> (a, i)) -> exec l m a i = m a i.
Proof.
  intros I O. apply untouched with (map T (zrange N)); [exact I|]. intros t w Ht Hw. apply in_map_iff in Ht as (k & <- & Hk). apply in_zrange in Hk. now apply (O k).
Qed.
Lemma threads_race_free : (forall k k' w w', (0 <= k < N)%Z -> (0 <= k' < N)%Z -> k <> k' -> In w (T k) -> In w' (T k') -> cell w <> cell w') -> race_free (map T (zrange N)).
Proof.
  intros O k k' t t' w w' H H' Nk Hw Hw' E. apply nth_threads in H as [R ->]. apply nth_threads in H' as [R' ->]. exfalso.
  apply (O (Z.of_nat k) (Z.of_nat k') w w'); [exact R | exact R' | lia | exact Hw | exact Hw' | exact E].
Qed.
End Threads.

Section Launch.
Variables (n : Z) (body : Z -> Z -> list write * Z).
Hypothesis (Hn : (0 <= n)%Z).
Lemma in_once k w : In w (once n body k) -> (k < n)%Z /\ In w (fst (body k 0%Z)).
Proof. unfold once. destruct (Z.ltb_spec k n); [tauto | intros []]. Qed.
Lemma launch_owner l m a i k : interleaving (launch (get_blocks n) NUM_CUDA_THREADS n body) l -> (0 <= k < n)%Z ->
  (forall k' w, (0 <= k' < n)%Z -> k' <> k -> In w (fst (body k' 0%Z)) -> cell w <> (a, i)) -> exec l m a i = exec (fst (body k 0%Z)) m a i.
Proof.
  intros I Hk O. rewrite launch_once in I by exact Hn. destruct (get_blocks_enough n Hn) as [_ E].
  rewrite (threads_owner _ _ l m a i k I).
  - unfold once. destruct (Z.ltb_spec k n); [reflexivity | lia].
  - lia.
  - intros k' w R Nk Hw. apply in_once in Hw as [L Hw]. apply (O k'); [lia | exact Nk | exact Hw].
Qed.
Lemma launch_untouched l m a i : interleaving (launch (get_blocks n) NUM_CUDA_THREADS n body) l ->
  (forall k w, (0 <= k < n)%Z -> In w (fst (body k 0%Z)) -> cell w <> (a, i)) -> exec l m a i = m a i.
Proof.
  intros I O. rewrite launch_once in I by exact Hn. apply (threads_untouched _ _ l m a i I). intros k w R Hw. apply in_once in Hw as [L Hw]. apply (O k); [lia | exact Hw].
Qed.
Lemma launch_race_free : (forall k k' w w', (0 <= k < n)%Z -> (0 <= k' < n)%Z -> k <> k' -> In w (fst (body k 0%Z)) -> In w' (fst (body k' 0%Z)) -> cell w <> cell w') ->
  race_free (launch (get_blocks n) NUM_CUDA_THREADS n body).
Proof.
  intros O. rewrite launch_once by exact Hn. apply threads_race_free. intros k k' w w' R R' Nk Hw Hw'. apply in_once in Hw as [L Hw], Hw' as [L' Hw']. apply (O k k'); try lia; assumption.
Qed.
Lemma launch_atomic_race_free : (forall k w, (0 <= k < n)%Z -> In w (fst (body k 0%Z)) -> exists a i v, w = AtomicAdd a i v) -> race_free (launch (get_blocks n) NUM_CUDA_THREADS n body).
Proof.
  intros O. rewrite launch_once by exact Hn. intros k k' t t' w w' H H' _ Hw Hw' _.
  apply nth_threads in H as [R ->]. apply nth_threads in H' as [R' ->]. apply in_once in Hw as [L Hw], Hw' as [L' Hw'].
  split; [apply (O (Z.of_nat k)) | apply (O (Z.of_nat k'))]; try lia; assumption.
Qed.
Lemma lsum_zrange f k : (0 <= k)%Z -> lsum (map f (zrange k)) = Rsum (Z.to_nat k) (fun q => f (Z.of_nat q)).
Proof.
  intros Hk. rewrite <- (Z2Nat.id k Hk) at 1. induction (Z.to_nat k) as [|q IH]; [reflexivity|].
  rewrite Nat2Z.inj_succ. unfold Z.succ. rewrite zrange_app, map_app, lsum_app, IH by lia. cbn [Rsum]. f_equal.
  change (zrange 1) with [0%Z]. cbn [map lsum fold_right]. rewrite Z.add_0_r. unfold lsum. cbn. lra.
Qed.
Lemma launch_adds l m a i : interleaving (launch (get_blocks n) NUM_CUDA_THREADS n body) l ->
  (forall k w, (0 <= k < n)%Z -> In w (fst (body k 0%Z)) -> forall b j v, w <> Put b j v) ->
  exec l m a i = m a i + Rsum (Z.to_nat n) (fun k => lsum (map (contribution a i) (fst (body (Z.of_nat k) 0%Z)))).
Proof.
  intros I O. rewrite launch_once in I by exact Hn. destruct (get_blocks_enough n Hn) as [B E]. rewrite (adds _ _ m a i I).
  - f_equal. rewrite map_map. set (X := (get_blocks n * NUM_CUDA_THREADS)%Z) in *. replace X with (n + (X - n))%Z by lia.
    rewrite zrange_app, map_app, lsum_app, lsum_zrange by lia. rewrite (Rsum_ext _ _ (fun k => lsum (map (contribution a i) (fst (body (Z.of_nat k) 0%Z))))).
    + rewrite <- (Rplus_0_r (Rsum _ _)) at 2. f_equal. rewrite map_map.
      assert (Z : forall L, (forall x, In x L -> (0 <= x)%Z) -> lsum (map (fun x => lsum (map (contribution a i) (once n body (n + x)))) L) = 0).
      { induction L as [|x L IH]; intros H; [reflexivity|]. cbn. change (lsum (map (contribution a i) (once n body (n + x))) + lsum (map (fun x => lsum (map (contribution a i) (once n body (n + x)))) L) = 0).
        rewrite IH by (intros; apply H; now right). unfold once. assert (0 <= x)%Z by (apply H; now left). destruct (Z.ltb_spec (n + x) n); [lia | cbn; lra]. }
      apply Z. intros x Hx. apply in_zrange in Hx. lia.
    + intros k Hk. unfold once. destruct (Z.ltb_spec (Z.of_nat k) n); [reflexivity | lia].
  - intros t w Ht Hw. apply in_map_iff in Ht as (k & <- & Hk). apply in_zrange in Hk. apply in_once in Hw as [L Hw]. apply (O k); [lia | exact Hw].
Qed.
End Launch.

(** ** Writes of one thread *)
Lemma exec_one {X} (g : X -> write) L m a i k : In k L -> NoDup L -> cell (g k) = (a, i) -> (forall k', In k' L -> cell (g k') = (a, i) -> k' = k) ->
  exec (map g L) m a i = perform m (g k) a i.
Proof.
  intros Hk ND E U. rewrite (exec_local a i _ m m eq_refl). assert (F : filter (fun w => cell_eqb (a, i) (cell w)) (map g L) = [g k]); [|now rewrite F].
  induction ND as [|x L Nx ND IH]; [now destruct Hk|]. cbn [map filter]. destruct (cell_eqb_spec (a, i) (cell (g x))) as [C|C].
  - assert (x = k) as -> by (apply U; [now left | now symmetry]). f_equal. apply filter_none. intros w Hw. apply in_map_iff in Hw as (y & <- & Hy).
    apply cell_other. intros Cy. apply Nx. now rewrite <- (U y (or_intror Hy) Cy).
  - destruct Hk as [->|Hk]; [now rewrite E in C|]. apply IH; [exact Hk|]. intros k' H'. apply U. now right.
Qed.
Lemma exec_none {X} (g : X -> write) L m a i : (forall k, In k L -> cell (g k) <> (a, i)) -> exec (map g L) m a i = m a i.
Proof.
  intros U. rewrite (exec_local a i _ m m eq_refl), filter_none; [reflexivity|]. intros w Hw. apply in_map_iff in Hw as (y & <- & Hy). now apply cell_other, U.
Qed.
Lemma NoDup_zrange n : NoDup (zrange n).
Proof. unfold zrange. apply FinFun.Injective_map_NoDup; [intros x y H; lia | apply seq_NoDup]. Qed.
Lemma perform_same m w a i : cell w = (a, i) -> perform m w a i = match w with Put _ _ v => v | Inc _ _ v | AtomicAdd _ _ v => m a i + v end.
Proof. intros E. unfold perform. rewrite E. destruct (cell_eqb_spec (a, i) (a, i)); [reflexivity | congruence]. Qed.
Lemma exec_put ws m a i v : In (Put a i v) ws -> (forall w, In w ws -> cell w = (a, i) -> w = Put a i v) -> exec ws m a i = v.
Proof.
  unfold exec. revert m. induction ws as [|w ws IH] using rev_ind; intros m Hi U; [destruct Hi|].
  rewrite fold_left_app. cbn [fold_left]. unfold perform at 1. destruct (cell_eqb_spec (a, i) (cell w)) as [E|N].
  - rewrite (U w); [reflexivity | apply in_app_iff; right; now left | now symmetry].
  - apply IH; [|intros w' Hw'; apply U, in_app_iff; now left]. apply in_app_iff in Hi as [Hi|[->|[]]]; [exact Hi | now destruct N].
Qed.
