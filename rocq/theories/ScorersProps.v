(** Properties of scorers and evaluate: C30. *)
From Coq Require Import String List Arith Bool Reals Lra Lia Permutation.
From Verif Require Import PyBase PyFacts HooksModel ScorersModel.
Import ListNotations.
Open Scope string_scope.
Open Scope list_scope.
Open Scope nat_scope.

(** * Sums *)
Lemma rsum_app l1 l2 : rsum (l1 ++ l2) = (rsum l1 + rsum l2)%R.
Proof. unfold rsum. induction l1 as [|x l1 IH]; cbn [app fold_right]; [lra|]. rewrite IH. lra. Qed.
Lemma rsum_perm l1 l2 : Permutation l1 l2 -> rsum l1 = rsum l2.
Proof. unfold rsum. induction 1; cbn [fold_right]; lra. Qed.
Lemma rsum_flat_map {X} (f : X -> list R) l : rsum (flat_map f l) = rsum (map (fun x => rsum (f x)) l).
Proof. induction l as [|x l IH]; [reflexivity|]. cbn [flat_map map]. rewrite rsum_app, IH. reflexivity. Qed.
Lemma rsum_cons x l : rsum (x :: l) = (x + rsum l)%R.
Proof. reflexivity. Qed.
Lemma rsum_zero l : Forall (fun x => x = 0%R) l -> rsum l = 0%R.
Proof. induction 1 as [|x l Hx _ IH]; [reflexivity|]. rewrite rsum_cons, Hx, IH. lra. Qed.
Lemma rsum_add {X} (f g : X -> R) l : rsum (map (fun x => f x + g x)%R l) = (rsum (map f l) + rsum (map g l))%R.
Proof. induction l as [|x l IH]; [cbn; lra|]. cbn [map]. rewrite !rsum_cons, IH. lra. Qed.
Lemma rsum_scal {X} (f : X -> R) c l : rsum (map (fun x => c * f x)%R l) = (c * rsum (map f l))%R.
Proof. induction l as [|x l IH]; [cbn; lra|]. cbn [map]. rewrite !rsum_cons, IH. lra. Qed.
Lemma rsum_swap {X Y} (f : X -> Y -> R) lx ly :
  rsum (map (fun x => rsum (map (f x) ly)) lx) = rsum (map (fun y => rsum (map (fun x => f x y) lx)) ly).
Proof.
  induction lx as [|x lx IH]; cbn [map].
  - symmetry. apply rsum_zero. apply Forall_forall. intros z Hz. apply in_map_iff in Hz. destruct Hz as [y [<- _]]. reflexivity.
  - rewrite rsum_cons, IH. rewrite <- rsum_add. reflexivity.
Qed.
Lemma rsum_concat {X} (f : X -> R) (ls : list (list X)) : rsum (map f (concat ls)) = rsum (map (fun l => rsum (map f l)) ls).
Proof. induction ls as [|l ls IH]; [reflexivity|]. cbn [concat map]. rewrite map_app, rsum_app, IH. reflexivity. Qed.
Lemma rsum_ext_in {X} (f g : X -> R) l : (forall x, In x l -> f x = g x) -> rsum (map f l) = rsum (map g l).
Proof. intros H. f_equal. now apply map_ext_in. Qed.

(** * Sums over the time steps and sequences of batches *)
Section Parts.
  Context {X : Type}.
  Variable D : nat -> nat -> X.         (* time step, sequence *)
  (** The rows of a batch, flattened over time and sequences. *)
  Definition rows (p : list nat * nat) : list X := flat_map (fun t => map (D t) (fst p)) (seq 0 (snd p)).

  Lemma rows_sum (g : X -> R) p : rsum (map g (rows p)) = rsum (map (fun j => rsum (map (fun t => g (D t j)) (seq 0 (snd p)))) (fst p)).
  Proof.
    unfold rows. rewrite <- (rsum_swap (fun t j => g (D t j))). rewrite flat_map_concat_map, rsum_concat, map_map. f_equal. apply map_ext. intros t. rewrite map_map. reflexivity.
  Qed.

  Lemma cut_sum (g : nat -> R) len T : len <= T -> (forall t, len <= t < T -> g t = 0%R) -> rsum (map g (seq 0 len)) = rsum (map g (seq 0 T)).
  Proof.
    intros L H. replace T with (len + (T - len)) by lia. rewrite seq_app, map_app, rsum_app. rewrite (rsum_zero (map g (seq (0 + len) (T - len)))); [lra|].
    apply Forall_forall. intros x Hx. apply in_map_iff in Hx. destruct Hx as [t [<- Ht]]. apply in_seq in Ht. apply H. lia.
  Qed.

  Lemma parts_sum (g : X -> R) T n parts : Permutation (concat (map fst parts)) (seq 0 n) ->
    (forall p, In p parts -> snd p <= T /\ forall t j, In j (fst p) -> snd p <= t < T -> g (D t j) = 0%R) ->
    rsum (map (fun p => rsum (map g (rows p))) parts) = rsum (map g (rows (seq 0 n, T))).
  Proof.
    intros HP Hc. rewrite (rows_sum g (seq 0 n, T)). cbn [fst snd].
    rewrite <- (rsum_perm _ _ (Permutation_map (fun j => rsum (map (fun t => g (D t j)) (seq 0 T))) HP)). rewrite rsum_concat, map_map.
    apply rsum_ext_in. intros p Hp. rewrite rows_sum. destruct (Hc p Hp) as [L H]. apply rsum_ext_in. intros j Hj. apply cut_sum; [assumption|]. intros t Ht. now apply H.
  Qed.
End Parts.

(** ** C30: scores *)
(** A batch may only leave out time steps whose mask is zero. *)
Definition only_masked_cut (D : nat -> nat -> sample) (T : nat) (p : list nat * nat) : Prop :=
  snd p <= T /\ forall t j, In j (fst p) -> snd p <= t < T -> exists m, sa_mask (D t j) = Some m /\ Forall (fun x => x = 0%R) m.

Lemma row_elements_masked k s m : sa_mask s = Some m -> Forall (fun x => x = 0%R) m -> rsum (row_elements k s) = 0%R.
Proof.
  intros E H. assert (Z : forall i, bget m i = 0%R).
  { intros i. unfold bget. assert (N : forall i, nth i m 0%R = 0%R). { clear - H. induction H as [|x l Hx _ IH]; intros [|i]; cbn; auto. } destruct (length m =? 1); apply N. }
  assert (M : forall i x, masked (sa_mask s) i x = 0%R) by (intros i x; rewrite E; cbn; rewrite Z; lra).
  apply rsum_zero. apply Forall_forall. intros x Hx. destruct k; cbn [row_elements] in Hx; apply in_map_iff in Hx; destruct Hx as [i [<- _]]; apply M.
Qed.
Lemma call_sum k labels l : call k labels l =
  ((match k with Accuracy => 1 | Hamming _ => / INR labels | MeanSquaredError => / 2 end) * rsum (map (fun s => rsum (row_elements k s)) l))%R.
Proof. unfold call. rewrite rsum_flat_map. destruct k; unfold Rdiv; try lra. Qed.

(** The aggregated score is the score of all the data at once, for every way of
    dividing the sequences into batches and cutting masked time steps. *)
Theorem C30_scores : forall D T n parts k labels, Permutation (concat (map fst parts)) (seq 0 n) ->
  (forall p, In p parts -> only_masked_cut D T p) ->
  aggregate (map (fun p => (weight (rows D p), call k labels (rows D p))) parts) =
  aggregate [(weight (rows D (seq 0 n, T)), call k labels (rows D (seq 0 n, T)))] /\
  rsum (map (fun p => weight (rows D p)) parts) = weight (rows D (seq 0 n, T)).
Proof.
  intros D T n parts k labels HP Hc.
  assert (W : rsum (map (fun p => weight (rows D p)) parts) = weight (rows D (seq 0 n, T))).
  { unfold weight. apply parts_sum; [assumption|]. intros p Hp. destruct (Hc p Hp) as [L H]. split; [assumption|]. intros t j Hj Ht. destruct (H t j Hj Ht) as [m [-> Hm]]. now apply rsum_zero. }
  split; [|assumption]. unfold aggregate. cbn [map fst snd]. rewrite !map_map. cbn [fst snd]. rewrite W. change (rsum [weight (rows D (seq 0 n, T))]) with (weight (rows D (seq 0 n, T)) + 0)%R. rewrite Rplus_0_r. f_equal.
  change (rsum [call k labels (rows D (seq 0 n, T))]) with (call k labels (rows D (seq 0 n, T)) + 0)%R. rewrite Rplus_0_r.
  rewrite call_sum. rewrite (map_ext _ _ (fun p => call_sum k labels (rows D p))). rewrite rsum_scal. f_equal.
  apply (parts_sum D (fun s => rsum (row_elements k s))); [assumption|]. intros p Hp. destruct (Hc p Hp) as [L H]. split; [assumption|].
  intros t j Hj Ht. destruct (H t j Hj Ht) as [m [Em Hm]]. exact (row_elements_masked k _ m Em Hm).
Qed.
Print Assumptions C30_scores.

(** ** C30: losses *)
(** The loss of a batch: loss_layer.py:41-52 applied to the values at its time
    steps and sequences. *)
Definition batch_loss (importance : R) (x : nat -> nat -> R) (p : list nat * nat) : R :=
  loss_value (mkLoss "" importance (Some (length (fst p))) (rows x p)).
Theorem C30_losses : forall importance x T n parts, 0 < n -> Permutation (concat (map fst parts)) (seq 0 n) ->
  (forall p, In p parts -> fst p <> [] /\ snd p <= T /\ forall t j, In j (fst p) -> snd p <= t < T -> x t j = 0%R) ->
  weighted_average (map (fun p => (INR (length (fst p)), batch_loss importance x p)) parts) = batch_loss importance x (seq 0 n, T).
Proof.
  intros importance x T n parts Hn HP Hc. unfold weighted_average. rewrite !map_map. cbn [fst snd].
  assert (W : rsum (map (fun p : list nat * nat => INR (length (fst p))) parts) = INR n).
  { rewrite <- (seq_length n 0). rewrite <- (Permutation_length HP). clear. induction parts as [|p parts IH]; [reflexivity|]. cbn [map concat]. rewrite rsum_cons, app_length, plus_INR, IH. reflexivity. }
  rewrite W. assert (N0 : INR n <> 0%R) by (apply not_0_INR; lia).
  rewrite (rsum_ext_in _ (fun p => (importance / INR n) * rsum (map (fun v => v) (rows x p)))%R).
  - rewrite rsum_scal. rewrite (parts_sum x (fun v => v) T n parts HP).
    + unfold batch_loss, loss_value. cbn [lo_importance lo_batch lo_input fst]. rewrite seq_length, map_id. reflexivity.
    + intros p Hp. exact (proj2 (Hc p Hp)).
  - intros p Hp. unfold batch_loss, loss_value. cbn [lo_importance lo_batch lo_input]. rewrite map_id. destruct (Hc p Hp) as [Hne _].
    assert (INR (length (fst p)) <> 0%R) by (apply not_0_INR; destruct (fst p); [congruence | discriminate]). field. split; assumption.
Qed.
Print Assumptions C30_losses.
(** A loss that does not depend on the data (no batch dimension) is reported
    unchanged. *)
Theorem C30_constant_losses : forall v sizes, sizes <> [] -> (forall b, In b sizes -> 0 < b) ->
  weighted_average (map (fun b => (INR b, v)) sizes) = v.
Proof.
  intros v sizes Hne Hs. unfold weighted_average. rewrite !map_map. cbn [fst snd]. assert (P : (0 < rsum (map INR sizes))%R).
  { destruct sizes as [|b r]; [congruence|]. cbn [map]. rewrite rsum_cons. assert (0 < INR b)%R by (apply lt_0_INR, Hs; now left).
    assert (0 <= rsum (map INR r))%R; [|lra]. clear. induction r as [|y r IH]; [cbn; lra|]. cbn [map]. rewrite rsum_cons. assert (Q := pos_INR y). lra. }
  rewrite (rsum_ext_in _ (fun b => (v / rsum (map INR sizes)) * INR b)%R).
  - rewrite (rsum_scal INR). field. lra.
  - intros b _. change (map (fun x : nat => INR x) sizes) with (map INR sizes). field. lra.
Qed.
Print Assumptions C30_constant_losses.

(** ** C30: evaluate puts the numbers together *)
Section Evaluate.
  Variable loss_names : list string.
  Variable scorers : list scorer.
  Hypothesis distinct : NoDup (loss_names ++ map sc_name scorers).

  Lemma appends_spec : forall xs scores, NoDup (map fst xs) -> (forall k, In k (map fst xs) -> In k (dkeys scores)) ->
    exists s, appends xs scores = Some s /\ dkeys s = dkeys scores /\
      forall k, dget k s = match dget k xs with Some x => option_map (fun l => l ++ [x]) (dget k scores) | None => dget k scores end.
  Proof.
    induction xs as [|[n x] xs IH]; intros scores Hn Hk.
    - exists scores. split; [reflexivity|]. split; reflexivity.
    - cbn [appends]. unfold append. destruct (key_dget n scores (Hk n (or_introl eq_refl))) as [l El]. rewrite El. cbn [map fst] in Hn. inversion Hn as [|? ? Hni Hn']; subst.
      assert (K : dkeys (dset n (l ++ [x]) scores) = dkeys scores).
      { rewrite dkeys_dset. apply dget_Some_key in El. apply smem_In in El. now rewrite El. }
      destruct (IH (dset n (l ++ [x]) scores) Hn') as [s [S1 [S2 S3]]].
      { intros k Hin. rewrite K. apply Hk. now right. }
      exists s. split; [assumption|]. split; [congruence|]. intros k. rewrite S3. cbn [dget]. destruct (String.eqb_spec k n) as [E|Ne].
      + subst k. destruct (dget n xs) as [y|] eqn:Ey; [apply dget_Some_key in Ey; contradiction|]. now rewrite dget_dset_same, El.
      + rewrite dget_dset_other by assumption. reflexivity.
  Qed.

  Lemma enumerate_map {Y} (f : nat * scorer -> Y) l i : map f (enumerate i l) = map (fun p => f p) (combine (seq i (length l)) l).
  Proof. revert i. induction l as [|x l IH]; intros i; [reflexivity|]. cbn. now rewrite IH. Qed.
  Lemma map_fst_map {X Y} (f : X -> string) (g : X -> Y) l : map fst (map (fun x => (f x, g x)) l) = map f l.
  Proof. rewrite map_map. reflexivity. Qed.
  Lemma enumerate_snd {X} (l : list X) i : map snd (enumerate i l) = l.
  Proof. revert i. induction l as [|x l IH]; intros i; [reflexivity|]. cbn. now rewrite IH. Qed.
  Lemma enumerate_In {X} (l : list X) i j x : nth_error l j = Some x -> In (i + j, x) (enumerate i l).
  Proof. revert i j. induction l as [|y l IH]; intros i [|j] H; try discriminate. - injection H as ->. left. f_equal. lia. - right. specialize (IH (S i) j H). now replace (i + S j) with (S i + j) by lia. Qed.

  (** What one batch contributes to the entry [k]. *)
  Definition contribution (n : net_state) : dict (R * R) :=
    map (fun kv => (fst kv, (INR (n_batch n), snd kv))) (n_losses n) ++
    map (fun p => (sc_name (snd p), (weight (n_rows n (fst p)), call (sc_kind (snd p)) (sc_labels (snd p)) (n_rows n (fst p))))) (enumerate 0 scorers).
  Lemma contribution_keys n : dkeys (n_losses n) = loss_names -> map fst (contribution n) = loss_names ++ map sc_name scorers.
  Proof.
    intros H. unfold contribution. rewrite map_app, !map_map. cbn [fst]. f_equal; [exact H|]. rewrite <- (enumerate_snd scorers 0) at 2. rewrite map_map. reflexivity.
  Qed.

  Lemma gather_all_spec : forall ns scores, (forall n, In n ns -> dkeys (n_losses n) = loss_names) ->
    (forall k, In k (loss_names ++ map sc_name scorers) -> In k (dkeys scores)) ->
    exists s, gather_all scorers ns scores = Some s /\ dkeys s = dkeys scores /\
      forall k l, In k (loss_names ++ map sc_name scorers) -> dget k scores = Some l ->
        dget k s = Some (l ++ map (fun n => match dget k (contribution n) with Some x => x | None => (0, 0)%R end) ns).
  Proof.
    induction ns as [|n ns IH]; intros scores Hl Hk.
    - exists scores. split; [reflexivity|]. split; [reflexivity|]. intros k l _ E. cbn. now rewrite app_nil_r.
    - cbn [gather_all]. unfold gather. fold (contribution n). assert (CK := contribution_keys n (Hl n (or_introl eq_refl))).
      destruct (appends_spec (contribution n) scores) as [s1 [S1 [S2 S3]]]; [now rewrite CK | rewrite CK; exact Hk|]. rewrite S1.
      destruct (IH s1) as [s [E1 [E2 E3]]]; [intros; apply Hl; now right | intros k Hin; rewrite S2; now apply Hk |].
      exists s. split; [assumption|]. split; [congruence|]. intros k l Hin El. destruct (dget k (contribution n)) as [x|] eqn:Ex.
      + rewrite (E3 k (l ++ [x]) Hin); [|rewrite S3, Ex, El; reflexivity]. cbn [map]. rewrite Ex, <- app_assoc. reflexivity.
      + exfalso. apply dget_None in Ex. apply Ex. unfold dkeys. now rewrite CK.
  Qed.

  Lemma set_all_spec : forall xs scores results, NoDup (map fst xs) -> (forall k, In k (map fst xs) -> In k (dkeys scores) /\ ~ In k (dkeys results)) ->
    exists r, set_all xs scores results = Some r /\ dkeys r = dkeys results ++ map fst xs /\
      (forall k, ~ In k (map fst xs) -> dget k r = dget k results) /\
      forall k f l, In (k, f) xs -> dget k scores = Some l -> dget k r = Some (f l).
  Proof.
    induction xs as [|[n f] xs IH]; intros scores results Hn Hk.
    - exists results. split; [reflexivity|]. cbn. rewrite app_nil_r. split; [reflexivity|]. split; [reflexivity|]. intros k f l [].
    - cbn [set_all]. destruct (Hk n (or_introl eq_refl)) as [K1 K2]. destruct (key_dget n scores K1) as [l El]. rewrite El. cbn [map fst] in Hn. inversion Hn as [|? ? Hni Hn']; subst.
      assert (D : dkeys (dset n (f l) results) = dkeys results ++ [n]).
      { rewrite dkeys_dset. apply smem_false in K2. now rewrite K2. }
      destruct (IH scores (dset n (f l) results) Hn') as [r [R1 [R2 [R3 R4]]]].
      { intros k Hin. destruct (Hk k (or_intror Hin)) as [A B]. split; [assumption|]. rewrite D. intros C. apply in_app_or in C. destruct C as [C|[<-|[]]]; contradiction. }
      exists r. split; [assumption|]. split; [rewrite R2, D, <- app_assoc; reflexivity|]. split.
      + intros k Hin. rewrite R3 by (intros C; apply Hin; now right). apply dget_dset_other. intros ->. apply Hin. now left.
      + intros k g l' [E|Hin] El'.
        * injection E as <- <-. rewrite R3 by assumption. rewrite dget_dset_same. congruence.
        * exact (R4 k g l' Hin El').
  Qed.

  Lemma init_scores : let scores := fold_left (fun d n => dset n (@nil (R * R)) d) (map sc_name scorers ++ loss_names) [] in
    forall k, In k (loss_names ++ map sc_name scorers) -> dget k scores = Some [].
  Proof.
    intros scores k Hk. unfold scores. assert (G : forall l d, (forall k v, dget k d = Some v -> v = []) -> (forall k, In k l \/ In k (dkeys d) -> dget k (fold_left (fun d n => dset n (@nil (R * R)) d) l d) = Some [])).
    { clear. induction l as [|x l IH]; intros d Hd k Hin; cbn [fold_left].
      - destruct Hin as [[]|Hin]. destruct (key_dget k d Hin) as [v Ev]. rewrite Ev. f_equal. exact (Hd _ _ Ev).
      - apply IH.
        + intros k' v E. destruct (string_dec k' x) as [->|Ne]; [rewrite dget_dset_same in E; congruence | rewrite dget_dset_other in E by assumption; exact (Hd _ _ E)].
        + destruct (string_dec k x) as [->|Ne]; [right; apply (dget_Some_key x []), dget_dset_same|]. destruct Hin as [[->|Hin]|Hin]; [congruence | now left | right].
          rewrite dkeys_dset. destruct (smem x (dkeys d)); [assumption | apply in_or_app; now left]. }
    apply G; [intros ? ? E; discriminate E|]. left. apply in_app_or in Hk. apply in_or_app. tauto.
  Qed.

  (** The result has an entry for each loss and each scorer: the average over the
      batches weighted by batch size, and sum of scores over sum of weights. *)
  Theorem C30_evaluate : forall ns, (forall n, In n ns -> dkeys (n_losses n) = loss_names) ->
    exists r, evaluate loss_names scorers ns = Some r /\ dkeys r = loss_names ++ map sc_name scorers /\
      (forall name, In name loss_names -> forall (v : net_state -> R), (forall n, In n ns -> dget name (n_losses n) = Some (v n)) ->
         dget name r = Some (weighted_average (map (fun n => (INR (n_batch n), v n)) ns))) /\
      (forall i sc, nth_error scorers i = Some sc ->
         dget (sc_name sc) r = Some (aggregate (map (fun n => (weight (n_rows n i), call (sc_kind sc) (sc_labels sc) (n_rows n i))) ns))).
  Proof.
    intros ns Hl. unfold evaluate. set (scores := fold_left (fun d n => dset n (@nil (R * R)) d) (map sc_name scorers ++ loss_names) []).
    assert (I := init_scores). cbv zeta in I. fold scores in I.
    destruct (gather_all_spec ns scores Hl) as [s [S1 [S2 S3]]]; [intros k Hk; eapply dget_Some_key; now apply I|]. rewrite S1.
    unfold aggregate_all. set (xs := map (fun n => (n, weighted_average)) loss_names ++ map (fun sc => (sc_name sc, aggregate)) scorers).
    assert (XK : map fst xs = loss_names ++ map sc_name scorers) by (unfold xs; rewrite map_app, !map_map; cbn [fst]; now rewrite map_id).
    destruct (set_all_spec xs s []) as [r [R1 [R2 [R3 R4]]]]; [now rewrite XK| |].
    { intros k Hk. rewrite XK in Hk. split; [|intros []]. rewrite S2. eapply dget_Some_key. now apply I. }
    exists r. split; [assumption|]. split; [rewrite R2, XK; reflexivity|].
    assert (F : forall k f, In (k, f) xs -> dget k r = Some (f (map (fun n => match dget k (contribution n) with Some x => x | None => (0, 0)%R end) ns))).
    { intros k f Hin. assert (Hk : In k (loss_names ++ map sc_name scorers)) by (rewrite <- XK; apply (in_map fst) in Hin; exact Hin).
      apply (R4 k f _ Hin). rewrite (S3 k [] Hk (I k Hk)). reflexivity. }
    split.
    - intros name Hin v Hv. rewrite (F name weighted_average) by (apply in_or_app; left; now apply (in_map (fun n => (n, weighted_average)))).
      do 2 f_equal. apply map_ext_in. intros n Hn. rewrite (In_dget name (INR (n_batch n), v n)).
      + reflexivity.
      + unfold dkeys. rewrite (contribution_keys n (Hl n Hn)). assumption.
      + apply in_or_app. left. assert (Q := dget_In _ _ _ (Hv n Hn)). apply (in_map (fun kv => (fst kv, (INR (n_batch n), snd kv)))) in Q. exact Q.
    - intros i sc Hi. rewrite (F (sc_name sc) aggregate) by (apply in_or_app; right; apply (in_map (fun sc => (sc_name sc, aggregate))); eapply nth_error_In; eassumption).
      do 2 f_equal. apply map_ext_in. intros n Hn. rewrite (In_dget (sc_name sc) (weight (n_rows n i), call (sc_kind sc) (sc_labels sc) (n_rows n i))).
      + reflexivity.
      + unfold dkeys. rewrite (contribution_keys n (Hl n Hn)). assumption.
      + apply in_or_app. right. assert (Hin := enumerate_In scorers 0 i sc Hi). cbn [Nat.add] in Hin.
        apply (in_map (fun p => (sc_name (snd p), (weight (n_rows n (fst p)), call (sc_kind (snd p)) (sc_labels (snd p)) (n_rows n (fst p)))))) in Hin. exact Hin.
  Qed.
End Evaluate.
Print Assumptions C30_evaluate.

(** Cases *)
Definition ex_D (t j : nat) : sample := mkSample [0%R] [INR j] None.
Example C30_case : Permutation (concat (map fst [([2], 1); ([0; 1], 1)])) (seq 0 3) /\
  (forall p, In p [([2], 1); ([0; 1], 1)] -> only_masked_cut ex_D 1 p) /\
  aggregate (map (fun p => (weight (rows ex_D p), call MeanSquaredError 1 (rows ex_D p))) [([2], 1); ([0; 1], 1)]) = (5 / 6)%R.
Proof.
  split; [|split].
  - cbn. apply (Permutation_cons_app [0; 1] [] 2). apply Permutation_refl.
  - intros p [<-|[<-|[]]]; (split; [cbn; lia|]); cbn; intros; lia.
  - unfold aggregate, call, weight, rows, rsum, ex_D, Rsqr. cbn. unfold bget, Rsqr. cbn. lra.
Qed.
Example C30_losses_case : weighted_average (map (fun p => (INR (length (fst p)), batch_loss 3 (fun _ j => INR j) p)) [([2], 1); ([0; 1], 1)]) = 3%R.
Proof. unfold weighted_average, batch_loss, loss_value, rows, rsum. cbn. field. Qed.

(** Two scorers with the same name (e.g. two MeanSquaredError for different
    outputs): one entry with the average of both. *)
Definition two_outputs : net_state := mkNet 1 [] (fun i => [mkSample [0%R] [if i =? 0 then 1%R else 3%R] None]).
Definition mse : scorer := mkScorer "MeanSquaredError" MeanSquaredError 1.
Theorem C30_same_name_refuted : exists r, evaluate [] [mse; mse] [two_outputs] = Some [("MeanSquaredError", r)] /\ r = (5 / 2)%R /\
  aggregate [(weight (n_rows two_outputs 0), call MeanSquaredError 1 (n_rows two_outputs 0))] = (1 / 2)%R /\
  aggregate [(weight (n_rows two_outputs 1), call MeanSquaredError 1 (n_rows two_outputs 1))] = (9 / 2)%R.
Proof.
  eexists. split; [cbn; reflexivity|]. unfold aggregate, call, weight, rsum, bget, Rsqr. cbn. unfold bget, Rsqr. cbn. repeat split; field.
Qed.
Print Assumptions C30_same_name_refuted.

(** ** C30: what the scores mean *)
Definition first_max (l : list R) (i : nat) : Prop :=
  i < length l /\ (forall j, j < length l -> (nth j l 0 <= nth i l 0)%R) /\ (forall j, j < i -> (nth j l 0 < nth i l 0)%R).
Lemma argmax_from_spec : forall r pre best bi, bi < length pre -> nth bi pre 0%R = best ->
  (forall j, j < length pre -> (nth j pre 0 <= best)%R) -> (forall j, j < bi -> (nth j pre 0 < best)%R) ->
  first_max (pre ++ r) (argmax_from best bi (length pre) r).
Proof.
  induction r as [|x r IH]; intros pre best bi Hb Hv Hm Hf; cbn [argmax_from].
  - rewrite app_nil_r. split; [assumption|]. rewrite Hv. split; assumption.
  - assert (A : pre ++ x :: r = (pre ++ [x]) ++ r) by (now rewrite <- app_assoc). rewrite A. assert (L : S (length pre) = length (pre ++ [x])) by (rewrite app_length; cbn; lia). rewrite L.
    destruct (Rlt_dec best x) as [Lt|Ge].
    + apply IH; [rewrite app_length; cbn; lia | rewrite app_nth2, Nat.sub_diag by lia; reflexivity | |].
      * intros j Hj. rewrite <- L in Hj. destruct (Nat.eq_dec j (length pre)) as [->|Nj]; [rewrite app_nth2, Nat.sub_diag by lia; cbn; lra|]. rewrite app_nth1 by lia. specialize (Hm j ltac:(lia)). lra.
      * intros j Hj. rewrite app_nth1 by lia. specialize (Hm j Hj). lra.
    + apply IH; [rewrite app_length; cbn; lia | rewrite app_nth1 by lia; assumption | |].
      * intros j Hj. rewrite <- L in Hj. destruct (Nat.eq_dec j (length pre)) as [->|Nj]; [rewrite app_nth2, Nat.sub_diag by lia; cbn; lra|]. rewrite app_nth1 by lia. apply Hm. lia.
      * intros j Hj. rewrite app_nth1 by lia. now apply Hf.
Qed.
Lemma rargmax_spec l : l <> [] -> first_max l (rargmax l).
Proof.
  destruct l as [|x r]; [congruence|]. intros _. unfold rargmax. apply (argmax_from_spec r [x] x 0); cbn; [lia | reflexivity | |]; intros j Hj; [|lia].
  replace j with 0 by lia. cbn. lra.
Qed.
(** Accuracy counts the rows whose label is the first index of the largest
    prediction. *)
Theorem C30_accuracy : forall (l : list (nat * list R)) labels, (forall c p, In (c, p) l -> 1 < length p) ->
  exists hits, call Accuracy labels (map (fun cp => mkSample [INR (fst cp)] (snd cp) None) l) = INR (length (filter (fun b => b) hits)) /\
    Forall2 (fun cp b => b = true <-> first_max (snd cp) (fst cp)) l hits.
Proof.
  intros l labels H. exists (map (fun cp => fst cp =? rargmax (snd cp)) l). split.
  - unfold call. induction l as [|[c p] l IH]; [reflexivity|]. cbn [map flat_map]. rewrite rsum_app, IH by (intros; eapply H; right; eassumption).
    unfold row_elements at 1. cbn [sa_pred sa_label sa_mask fst snd]. assert (T : (1 <? length p) = true) by (apply Nat.ltb_lt; eapply H; now left). rewrite T. cbv zeta. cbn [filter fst snd].
    unfold width, bget. cbn [length Nat.eqb nth seq map masked]. destruct (Nat.eqb_spec c (rargmax p)) as [E|Ne].
    + subst c. destruct (Req_EM_T (INR (rargmax p)) (INR (rargmax p))) as [_|C]; [|congruence]. cbn [length]. rewrite S_INR. rewrite rsum_cons. change (rsum []) with 0%R. lra.
    + destruct (Req_EM_T (INR (rargmax p)) (INR c)) as [C|_]; [apply INR_eq in C; congruence|]. rewrite rsum_cons. change (rsum []) with 0%R. lra.
  - induction l as [|[c p] l IH]; constructor; [|apply IH; intros; eapply H; right; eassumption]. cbn [fst snd]. assert (Hp : p <> []) by (specialize (H c p (or_introl eq_refl)); destruct p; [cbn in H; lia | discriminate]).
    assert (F := rargmax_spec p Hp). rewrite Nat.eqb_eq. split; [intros ->; assumption|]. intros [G1 [G2 G3]]. destruct F as [F1 [F2 F3]].
    destruct (Nat.lt_trichotomy c (rargmax p)) as [L|[E|L]]; [|assumption|].
    + specialize (F3 c L). specialize (G2 _ F1). lra.
    + specialize (G3 _ L). specialize (F2 _ G1). lra.
Qed.
Print Assumptions C30_accuracy.
Example C30_accuracy_case : first_max [1; 3; 3]%R 1 /\ ~ first_max [1; 3; 3]%R 2.
Proof.
  split.
  - split; [cbn; lia|]. split; intros j Hj; [destruct j as [|[|[|j]]]; cbn in *; try lra; lia | replace j with 0 by lia; cbn; lra].
  - intros [_ [_ H]]. specialize (H 1 ltac:(lia)). cbn in H. lra.
Qed.
(** Hamming: the fraction of label entries (0 or 1) on the same side as the
    prediction. *)
Theorem C30_hamming : forall th k (l : list (list bool * list R)), k <> 1 -> (forall c p, In (c, p) l -> length c = k /\ length p = k) ->
  call (Hamming th) k (map (fun cp => mkSample (map (fun b : bool => if b then 1%R else 0%R) (fst cp)) (snd cp) None) l) =
  (INR (length (filter (fun bp => Bool.eqb (fst bp) (if Rlt_dec (snd bp) th then false else true)) (flat_map (fun cp => combine (fst cp) (snd cp)) l))) / INR k)%R.
Proof.
  intros th k l Hk H. unfold call. f_equal. induction l as [|[c p] l IH]; [reflexivity|]. cbn [map flat_map fst snd]. rewrite rsum_app, IH by (intros; eapply H; right; eassumption).
  rewrite filter_app, app_length, plus_INR. f_equal. destruct (H c p (or_introl eq_refl)) as [Lc Lp]. cbn [row_elements sa_pred sa_label sa_mask masked].
  unfold width. rewrite Lp. replace (k =? 1) with false by (symmetry; now apply Nat.eqb_neq).
  rewrite (map_ext _ (fun i => if xorb (if Rlt_dec (nth i p 0%R) th then true else false) (if Req_EM_T (nth i (map (fun b : bool => if b then 1%R else 0%R) c) 0%R) 0 then false else true) then 1%R else 0%R)).
  2:{ intros i. unfold bget. rewrite map_length, Lc, Lp. replace (k =? 1) with false by (symmetry; now apply Nat.eqb_neq). reflexivity. }
  clear - Lc Lp. revert c p Lc Lp. induction k as [|k IH]; intros c p Lc Lp.
  - destruct c, p; try discriminate. reflexivity.
  - destruct c as [|b c]; [discriminate|]. destruct p as [|x p]; [discriminate|]. cbn [seq map combine filter nth fst snd]. rewrite rsum_cons. rewrite <- seq_shift, map_map. cbn [nth].
    assert (E := IH c p ltac:(cbn in Lc; lia) ltac:(cbn in Lp; lia)). rewrite E. clear E.
    destruct b, (Rlt_dec x th); cbn [Bool.eqb xorb]; try (destruct (Req_EM_T 1 0) as [Z|_]; [lra|]); try (destruct (Req_EM_T 0 0) as [_|Z]; [|congruence]); cbn [xorb length]; rewrite ?S_INR; lra.
Qed.
Print Assumptions C30_hamming.
