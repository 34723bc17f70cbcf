(** Properties of the data iterators: C26 - C29. *)
From Coq Require Import String List Arith ZArith Bool Lia Permutation.
From Verif Require Import PyBase PyFacts IteratorsModel.
Import ListNotations.
Open Scope string_scope.
Open Scope list_scope.
Open Scope nat_scope.

(** * Arithmetic of batches *)
Lemma ceil_div_spec n b : 0 < b -> n <= ceil_div n b * b /\ ceil_div n b * b < n + b.
Proof.
  intros Hb. unfold ceil_div. assert (Q := Nat.div_mod (n + b - 1) b ltac:(lia)). assert (M := Nat.mod_upper_bound (n + b - 1) b ltac:(lia)). nia.
Qed.
(** Sequences of batch [i]. *)
Definition members (n b i : nat) : list nat := seq (i * b) (Nat.min ((i + 1) * b) n - i * b).
Lemma members_concat n b : 0 < b -> forall k, flat_map (members n b) (seq 0 k) = seq 0 (Nat.min (k * b) n).
Proof.
  intros Hb. induction k as [|k IH]; [reflexivity|].
  rewrite seq_S, flat_map_app, IH. cbn [Nat.add flat_map]. rewrite app_nil_r. unfold members.
  destruct (Nat.le_gt_cases n (k * b)) as [L|L].
  - rewrite (Nat.min_r (k * b) n) by lia. rewrite (Nat.min_r ((k + 1) * b) n) by nia. replace (n - k * b) with 0 by lia. cbn [seq]. rewrite app_nil_r.
    rewrite Nat.min_r by nia. reflexivity.
  - rewrite (Nat.min_l (k * b) n) by lia. replace (S k * b) with ((k + 1) * b) by lia.
    replace (Nat.min ((k + 1) * b) n) with (k * b + (Nat.min ((k + 1) * b) n - k * b)) at 2 by nia. rewrite seq_app. reflexivity.
Qed.
Lemma all_equal_spec l x : all_equal l = Some x -> forall y, In y l -> y = x.
Proof.
  destruct l as [|z r]; [discriminate|]. unfold all_equal. destruct (forallb (Nat.eqb z) r) eqn:E; [|discriminate]. intros [= ->] y [<-|Hy]; [reflexivity|].
  rewrite forallb_forall in E. symmetry. now apply Nat.eqb_eq, E.
Qed.
Lemma np_max_spec l m : np_max l = Some m -> In m l /\ forall x, In x l -> x <= m.
Proof.
  destruct l as [|z r]; [discriminate|]. intros [= <-].
  assert (G : forall r z, In (fold_left Nat.max r z) (z :: r) /\ forall x, In x (z :: r) -> x <= fold_left Nat.max r z).
  { clear. induction r as [|y r IH]; intros z; cbn [fold_left].
    - split; [now left|]. intros x [<-|[]]. lia.
    - destruct (IH (Nat.max z y)) as [A B]. split.
      + destruct A as [A|A]; [|right; now right]. rewrite <- A. destruct (Nat.max_spec z y) as [[_ ->]|[_ ->]]; [right; now left | now left].
      + intros x [<-|[<-|Hx]]; [| |apply B; now right]; specialize (B (Nat.max z y) (or_introl eq_refl)); lia. }
  apply G.
Qed.
Lemma np_max_some l : l <> [] -> exists m, np_max l = Some m.
Proof. destruct l; [congruence|]. intros _. eexists. reflexivity. Qed.

Lemma nth_error_py_slice {X} lo hi (l : list X) p : nth_error (py_slice lo hi l) p = if p <? hi - lo then nth_error l (lo + p) else None.
Proof.
  unfold py_slice. destruct (Nat.ltb_spec p (hi - lo)) as [L|L].
  - generalize (hi - lo) L. clear L hi. intros n L. assert (E : forall (l : list X) n p, p < n -> nth_error (firstn n l) p = nth_error l p).
    { clear. induction l as [|x l IH]; intros [|n] [|p] H; try lia; try reflexivity. cbn. apply IH. lia. }
    rewrite E by assumption. clear. revert l. induction lo as [|lo IH]; intros l; [reflexivity|]. destruct l as [|x l]; [destruct p; reflexivity | exact (IH l)].
  - apply nth_error_None. rewrite firstn_length. lia.
Qed.

Lemma nth_map_seq {X} (f : nat -> X) n j d : j < n -> nth j (map f (seq 0 n)) d = f j.
Proof. intros H. rewrite (nth_indep _ d (f 0)) by (now rewrite map_length, seq_length). rewrite map_nth, seq_nth by assumption. reflexivity. Qed.

Section Minibatches.
  Variable A : Type.
  Variable nonzero : A -> bool.
  Notation new_minibatches := (new_minibatches A nonzero).
  Notation batches := (batches A).

  (** What a batch made of the sequences [ids] with [len] time steps has to be:
      the same names, and under every name the entries of these sequences. *)
  Definition is_batch (data : dict (array A)) (ids : list nat) (len : nat) (b : dict (array A)) : Prop :=
    dkeys b = dkeys data /\
    forall k v, In (k, v) data -> exists w, In (k, w) b /\ a_N w = length ids /\ a_T w = len /\
      forall t p j, t < len -> nth_error ids p = Some j -> a_at w t p = a_at v t j.

  Definition max_len (lens : list nat) (ids : list nat) : nat := fold_right Nat.max 0 (map (fun j => nth j lens 0) ids).
  Lemma max_len_spec lens ids : (forall j, In j ids -> nth j lens 0 <= max_len lens ids) /\
    (forall m, (forall j, In j ids -> nth j lens 0 <= m) -> max_len lens ids <= m).
  Proof.
    unfold max_len. induction ids as [|x ids [IH1 IH2]]; cbn [map fold_right].
    - split; [intros j []|]. intros; lia.
    - split.
      + intros j [<-|Hj]; [lia|]. specialize (IH1 j Hj). lia.
      + intros m H. specialize (IH2 m ltac:(intros; apply H; now right)). specialize (H x (or_introl eq_refl)). lia.
  Qed.

  Lemma new_spec bs c data m n t : new_minibatches bs c data = Some m -> data <> [] ->
    (forall k v, In (k, v) data -> a_N v = n /\ a_T v = t) ->
    0 < bs /\ mi_data A m = data /\ mi_batch A m = bs /\ mi_length A m = ceil_div n bs /\ length (mi_lens A m) = n /\
    match c with
    | ByName name => match dget name data with Some mask => mi_lens A m = lengths_from_mask A nonzero mask | None => mi_lens A m = repeat t n end
    | ByNone => mi_lens A m = repeat t n
    | ByLengths l => mi_lens A m = l
    end.
  Proof.
    intros H Hd Hv. unfold IteratorsModel.new_minibatches in H. destruct (check_format A data) as [[n' t']|] eqn:F; [|discriminate].
    assert (E : n' = n /\ t' = t).
    { unfold check_format in F. destruct (all_equal (map (fun kv => a_N (snd kv)) data)) as [x|] eqn:E1; [|discriminate]. destruct (all_equal (map (fun kv => a_T (snd kv)) data)) as [y|] eqn:E2; [|discriminate]. injection F as <- <-.
      destruct data as [|[k v] r]; [congruence|]. destruct (Hv k v (or_introl eq_refl)) as [<- <-].
      split; symmetry; [apply (all_equal_spec _ _ E1) | apply (all_equal_spec _ _ E2)]; now left. }
    destruct E as [-> ->]. destruct (Nat.eqb_spec bs 0); [discriminate|]. split; [lia|].
    destruct c as [name|l|].
    - destruct (dget name data) as [mask|] eqn:G; injection H as <-; cbn [mi_data mi_batch mi_length mi_lens]; repeat (split; [reflexivity|]); (split; [|reflexivity]).
      + unfold lengths_from_mask. rewrite map_length, seq_length. apply dget_In in G. exact (proj1 (Hv _ _ G)).
      + apply repeat_length.
    - destruct (Nat.eqb_spec (length l) n); [|discriminate]. injection H as <-. cbn [mi_data mi_batch mi_length mi_lens]. repeat (split; [reflexivity|]). split; [assumption | reflexivity].
    - injection H as <-. cbn [mi_data mi_batch mi_length mi_lens]. repeat (split; [reflexivity|]). split; [apply repeat_length | reflexivity].
  Qed.

  Lemma members_range n b i : forall j, In j (members n b i) <-> i * b <= j < (i + 1) * b /\ j < n.
  Proof. intros j. unfold members. rewrite in_seq. nia. Qed.

  Lemma batch_spec bs c data m n t i : new_minibatches bs c data = Some m -> data <> [] ->
    (forall k v, In (k, v) data -> a_N v = n /\ a_T v = t) -> i < ceil_div n bs ->
    exists b, batch A m i = Some b /\ is_batch data (members n bs i) (Nat.min (max_len (mi_lens A m) (members n bs i)) t) b.
  Proof.
    intros H Hd Hv Hi. destruct (new_spec _ _ _ _ _ _ H Hd Hv) as [Hb [E1 [E2 [E3 [E4 _]]]]].
    unfold batch. rewrite E1, E2. destruct (ceil_div_spec n bs Hb) as [_ Hc].
    assert (Hlo : i * bs < n) by nia.
    assert (Hne : py_slice (i * bs) ((i + 1) * bs) (mi_lens A m) <> []).
    { intros Z. apply (f_equal (fun l => nth_error l 0)) in Z. rewrite nth_error_py_slice in Z. replace (0 <? (i + 1) * bs - i * bs) with true in Z by (symmetry; apply Nat.ltb_lt; nia).
      cbn [nth_error] in Z. apply nth_error_None in Z. lia. }
    destruct (np_max_some _ Hne) as [tm Ht]. rewrite Ht. eexists. split; [reflexivity|].
    assert (Em : tm = max_len (mi_lens A m) (members n bs i)).
    { apply np_max_spec in Ht. destruct Ht as [Hin Hmax]. destruct (max_len_spec (mi_lens A m) (members n bs i)) as [M1 M2]. apply Nat.le_antisymm.
      - apply In_nth_error in Hin. destruct Hin as [p Hp]. rewrite nth_error_py_slice in Hp. destruct (Nat.ltb_spec p ((i + 1) * bs - i * bs)) as [L|L]; [|discriminate].
        assert (i * bs + p < n) by (rewrite <- E4; apply nth_error_Some; congruence).
        rewrite <- (nth_error_nth _ _ 0 Hp). apply M1. apply members_range. lia.
      - apply M2. intros j Hj. apply members_range in Hj. apply Hmax. apply (nth_error_In _ (j - i * bs)). rewrite nth_error_py_slice.
        replace (j - i * bs <? (i + 1) * bs - i * bs) with true by (symmetry; apply Nat.ltb_lt; lia). replace (i * bs + (j - i * bs)) with j by lia.
        apply nth_error_nth'. lia. }
    rewrite <- Em. split; [unfold dkeys; rewrite map_map; reflexivity|].
    intros k v Hin. exists (cut tm (i * bs) ((i + 1) * bs) v). split; [apply (in_map (fun kv => (fst kv, cut tm (i * bs) ((i + 1) * bs) (snd kv)))) in Hin; exact Hin|].
    destruct (Hv _ _ Hin) as [Hn Htt]. unfold cut. cbn [a_N a_T a_at]. rewrite Hn, Htt. unfold members. rewrite seq_length. split; [lia|]. split; [lia|].
    intros t' p j _ Hp. assert (Hl : p < length (seq (i * bs) (Nat.min ((i + 1) * bs) n - i * bs))) by (apply nth_error_Some; congruence). rewrite seq_length in Hl.
    rewrite nth_error_nth' with (d := 0) in Hp by (now rewrite seq_length). rewrite seq_nth in Hp by assumption. now injection Hp as <-.
  Qed.

  Lemma batches_spec bs c data m n t : new_minibatches bs c data = Some m -> data <> [] ->
    (forall k v, In (k, v) data -> a_N v = n /\ a_T v = t) ->
    forall order, (forall i, In i order -> i < ceil_div n bs) ->
    exists bl, batches m order = Some bl /\
      Forall2 (fun i b => is_batch data (members n bs i) (Nat.min (max_len (mi_lens A m) (members n bs i)) t) b) order bl.
  Proof.
    intros H Hd Hv. induction order as [|i r IH]; intros Ho.
    - exists []. split; [reflexivity | constructor].
    - destruct (batch_spec _ _ _ _ _ _ i H Hd Hv (Ho i (or_introl eq_refl))) as [b [E B]].
      destruct (IH ltac:(intros; apply Ho; now right)) as [bl [E' B']].
      exists (b :: bl). cbn [IteratorsModel.batches]. rewrite E, E'. split; [reflexivity|]. now constructor.
  Qed.

  (** ** C26: one pass, for any order of the batches. *)
  Theorem C26_partition : forall bs c data m n t, new_minibatches bs c data = Some m -> data <> [] ->
    (forall k v, In (k, v) data -> a_N v = n /\ a_T v = t) ->
    forall order, Permutation order (seq 0 (mi_length A m)) ->
    exists bl ids lens, batches m order = Some bl /\
      length bl = mi_length A m /\ n <= length bl * bs < n + bs /\
      length ids = length bl /\ length lens = length bl /\
      (forall i b is len, nth_error bl i = Some b -> nth_error ids i = Some is -> nth_error lens i = Some len -> is_batch data is len b) /\
      Permutation (concat ids) (seq 0 n) /\
      (forall is, In is ids -> 0 < length is <= bs) /\
      (forall i j is js, nth_error ids i = Some is -> nth_error ids j = Some js -> length is < bs -> length js < bs -> i = j).
  Proof.
    intros bs c data m n t H Hd Hv order Ho. destruct (new_spec _ _ _ _ _ _ H Hd Hv) as [Hb [E1 [E2 [E3 [E4 _]]]]].
    assert (Hr : forall i, In i order -> i < ceil_div n bs) by (intros i Hi; apply (Permutation_in _ Ho) in Hi; apply in_seq in Hi; lia).
    destruct (batches_spec _ _ _ _ _ _ H Hd Hv order Hr) as [bl [E B]].
    assert (Lo : length order = mi_length A m) by (rewrite (Permutation_length Ho); apply seq_length).
    assert (Lb : length bl = length order) by (symmetry; clear - B; induction B; cbn; congruence).
    destruct (ceil_div_spec n bs Hb) as [C1 C2].
    exists bl, (map (members n bs) order), (map (fun i => Nat.min (max_len (mi_lens A m) (members n bs i)) t) order).
    rewrite !map_length. split; [assumption|]. split; [congruence|]. split; [rewrite Lb, Lo, E3; lia|]. split; [congruence|]. split; [congruence|]. split; [|split; [|split]].
    - clear - B. induction B as [|x b r bl Hx B IH]; intros i b' is len Q1 Q2 Q3; [destruct i; discriminate|]. destruct i as [|i].
      + injection Q1 as <-. injection Q2 as <-. injection Q3 as <-. assumption.
      + exact (IH i b' is len Q1 Q2 Q3).
    - rewrite <- flat_map_concat_map. eapply Permutation_trans; [apply (Permutation_flat_map _ Ho)|]. rewrite E3, members_concat by assumption. rewrite Nat.min_r by lia. apply Permutation_refl.
    - intros is His. apply in_map_iff in His. destruct His as [i [<- Hi]]. specialize (Hr i Hi). unfold members. rewrite seq_length. nia.
    - intros i j is js Q1 Q2 L1 L2. rewrite nth_error_map in Q1, Q2. destruct (nth_error order i) as [x|] eqn:X; [|discriminate]. destruct (nth_error order j) as [y|] eqn:Y; [|discriminate].
      injection Q1 as <-. injection Q2 as <-. unfold members in L1, L2. rewrite seq_length in L1, L2.
      assert (Hx := Hr x (nth_error_In _ _ X)). assert (Hy := Hr y (nth_error_In _ _ Y)).
      assert (x = y) by nia. subst y. assert (ND : NoDup order) by (apply (Permutation_NoDup (Permutation_sym Ho)), seq_NoDup).
      apply (proj1 (NoDup_nth_error order) ND); [apply nth_error_Some; congruence | congruence].
  Qed.

  (** ** C27 *)
  Lemma argmax_spec l : (exists i, nth_error l i = Some true) -> nth_error l (argmax l) = Some true /\ forall i, i < argmax l -> nth_error l i = Some false.
  Proof.
    induction l as [|b l IH]; intros [i Hi]; [destruct i; discriminate|]. destruct b; cbn [argmax].
    - split; [reflexivity|]. lia.
    - destruct i as [|i]; [discriminate|]. cbn [nth_error] in Hi. replace (existsb (fun b => b) l) with true.
      + destruct (IH (ex_intro _ i Hi)) as [A1 A2]. split; [exact A1|]. intros [|j] Hj; [reflexivity|]. apply A2. lia.
      + symmetry. apply existsb_exists. exists true. split; [eapply nth_error_In; eassumption | reflexivity].
  Qed.

  Lemma length_from_mask (mask : array A) j : j < a_N mask ->
    let L := nth j (lengths_from_mask A nonzero mask) 0 in
    (forall t, t < a_T mask -> nonzero (a_at mask t j) = true -> t < L) /\
    (L <> 0 -> L <= a_T mask /\ nonzero (a_at mask (L - 1) j) = true).
  Proof.
    intros Hj L. unfold L, lengths_from_mask. clear L.
    rewrite nth_map_seq by assumption. set (b := map (fun t => nonzero (a_at mask t j)) (seq 0 (a_T mask))).
    assert (Lb : length b = a_T mask) by (unfold b; now rewrite map_length, seq_length).
    assert (Nb : forall t, t < a_T mask -> nth_error b t = Some (nonzero (a_at mask t j))).
    { intros t Ht. unfold b. rewrite nth_error_map. rewrite nth_error_nth' with (d := 0) by (now rewrite seq_length). rewrite seq_nth by assumption. reflexivity. }
    assert (Rb : forall i, i < a_T mask -> nth_error (rev b) i = nth_error b (a_T mask - S i)).
    { intros i Hi. rewrite nth_error_nth' with (d := false) by (rewrite rev_length; lia). rewrite rev_nth by lia. rewrite Lb. symmetry. apply nth_error_nth'. lia. }
    destruct (existsb (fun x => x) b) eqn:Ex.
    - apply existsb_exists in Ex. destruct Ex as [x [Hx Tx]]. subst x. apply In_nth_error in Hx. destruct Hx as [i Hi].
      assert (Hil : i < a_T mask) by (rewrite <- Lb; apply nth_error_Some; congruence).
      destruct (argmax_spec (rev b)) as [A1 A2].
      { exists (a_T mask - S i). rewrite Rb by lia. replace (a_T mask - S (a_T mask - S i)) with i by lia. assumption. }
      assert (Ha : argmax (rev b) < a_T mask) by (rewrite <- Lb, <- (rev_length b); apply nth_error_Some; congruence).
      split.
      + intros t Ht Hm. destruct (Nat.lt_ge_cases t (a_T mask - argmax (rev b))) as [L|L]; [assumption|].
        specialize (A2 (a_T mask - S t) ltac:(lia)). rewrite Rb in A2 by lia. replace (a_T mask - S (a_T mask - S t)) with t in A2 by lia. rewrite Nb in A2 by assumption. congruence.
      + intros _. split; [lia|]. rewrite Rb in A1 by assumption. rewrite Nb in A1 by lia. replace (a_T mask - argmax (rev b) - 1) with (a_T mask - S (argmax (rev b))) by lia. congruence.
    - split; [|congruence]. intros t Ht Hm. exfalso. assert (existsb (fun x => x) b = true); [|congruence]. apply existsb_exists. exists true. split; [|reflexivity].
      apply (nth_error_In _ t). rewrite Nb by assumption. now rewrite Hm.
  Qed.

  (** When cutting according to a mask: no masked-in step of a sequence of the
      batch is lost, and the batch could not be shorter. *)
  Definition minimal_cut (needed : nat -> nat -> Prop) (ids : list nat) (len : nat) : Prop :=
    (forall j t, In j ids -> needed t j -> t < len) /\
    (forall len', (forall j t, In j ids -> needed t j -> t < len') -> len <= len').

  Theorem C27_mask : forall bs name data m mask n t, new_minibatches bs (ByName name) data = Some m ->
    dget name data = Some mask -> (forall k v, In (k, v) data -> a_N v = n /\ a_T v = t) ->
    forall order, Permutation order (seq 0 (mi_length A m)) ->
    exists bl ids lens, batches m order = Some bl /\ Permutation (concat ids) (seq 0 n) /\
      length ids = length bl /\ length lens = length bl /\
      (forall i b is len, nth_error bl i = Some b -> nth_error ids i = Some is -> nth_error lens i = Some len ->
         is_batch data is len b /\ minimal_cut (fun t' j => t' < t /\ nonzero (a_at mask t' j) = true) is len).
  Proof.
    intros bs name data m mask n t H Hm Hv order Ho.
    assert (Hd : data <> []) by (intros ->; discriminate).
    destruct (new_spec _ _ _ _ _ _ H Hd Hv) as [Hb [E1 [E2 [E3 [E4 E5]]]]]. rewrite Hm in E5.
    assert (Hr : forall i, In i order -> i < ceil_div n bs) by (intros i Hi; apply (Permutation_in _ Ho) in Hi; apply in_seq in Hi; lia).
    destruct (batches_spec _ _ _ _ _ _ H Hd Hv order Hr) as [bl [E B]].
    assert (Lb : length bl = length order) by (symmetry; clear - B; induction B; cbn; congruence).
    destruct (Hv _ _ (dget_In _ _ _ Hm)) as [Mn Mt]. destruct (ceil_div_spec n bs Hb) as [C1 C2].
    exists bl, (map (members n bs) order), (map (fun i => Nat.min (max_len (mi_lens A m) (members n bs i)) t) order).
    rewrite !map_length. split; [assumption|]. split; [|split; [congruence|]; split; [congruence|]].
    - rewrite <- flat_map_concat_map. eapply Permutation_trans; [apply (Permutation_flat_map _ Ho)|]. rewrite E3, members_concat by assumption. rewrite Nat.min_r by lia. apply Permutation_refl.
    - assert (G : forall i, In i order -> minimal_cut (fun t' j => t' < t /\ nonzero (a_at mask t' j) = true) (members n bs i) (Nat.min (max_len (mi_lens A m) (members n bs i)) t)).
      { intros i Hi. destruct (max_len_spec (mi_lens A m) (members n bs i)) as [M1 M2]. split.
        - intros j t' Hj [Ht' Hz]. specialize (M1 j Hj). apply members_range in Hj. rewrite E5 in M1. destruct (length_from_mask mask j ltac:(lia)) as [K _]. specialize (K t' ltac:(lia) Hz). rewrite E5. lia.
        - intros len' Hl. etransitivity; [apply Nat.le_min_l|]. apply M2. intros j Hj. assert (Hj' := Hj). apply members_range in Hj'. rewrite E5. destruct (length_from_mask mask j ltac:(lia)) as [_ K].
          destruct (Nat.eq_dec (nth j (lengths_from_mask A nonzero mask) 0) 0) as [->|Nz]; [lia|]. specialize (K Nz). destruct K as [K1 K2].
          specialize (Hl j (nth j (lengths_from_mask A nonzero mask) 0 - 1) Hj ltac:(split; [lia | assumption])). lia. }
      clear - B G. induction B as [|x b r bl Hx B IH]; intros i b' is len Q1 Q2 Q3; [destruct i; discriminate|]. destruct i as [|i].
      + injection Q1 as <-. injection Q2 as <-. injection Q3 as <-. split; [assumption|]. apply G. now left.
      + apply (IH (fun i Hi => G i (or_intror Hi)) i b' is len Q1 Q2 Q3).
  Qed.

  (** With given sequence lengths the batch has the length of its longest
      sequence; without, all time steps are kept. *)
  Theorem C27_lengths : forall bs c data m n t, new_minibatches bs c data = Some m -> data <> [] ->
    (forall k v, In (k, v) data -> a_N v = n /\ a_T v = t) ->
    match c with ByName name => dget name data = None | _ => True end ->
    forall order, Permutation order (seq 0 (mi_length A m)) ->
    exists bl ids lens, batches m order = Some bl /\ Permutation (concat ids) (seq 0 n) /\
      length ids = length bl /\ length lens = length bl /\
      (forall i b is len, nth_error bl i = Some b -> nth_error ids i = Some is -> nth_error lens i = Some len ->
         is_batch data is len b /\
         minimal_cut (fun t' j => t' < t /\ match c with ByLengths l => t' < nth j l 0 | _ => True end) is len).
  Proof.
    intros bs c data m n t H Hd Hv Hc order Ho.
    destruct (new_spec _ _ _ _ _ _ H Hd Hv) as [Hb [E1 [E2 [E3 [E4 E5]]]]].
    assert (Hr : forall i, In i order -> i < ceil_div n bs) by (intros i Hi; apply (Permutation_in _ Ho) in Hi; apply in_seq in Hi; lia).
    destruct (batches_spec _ _ _ _ _ _ H Hd Hv order Hr) as [bl [E B]].
    assert (Lb : length bl = length order) by (symmetry; clear - B; induction B; cbn; congruence).
    destruct (ceil_div_spec n bs Hb) as [C1 C2].
    exists bl, (map (members n bs) order), (map (fun i => Nat.min (max_len (mi_lens A m) (members n bs i)) t) order).
    rewrite !map_length. split; [assumption|]. split; [|split; [congruence|]; split; [congruence|]].
    - rewrite <- flat_map_concat_map. eapply Permutation_trans; [apply (Permutation_flat_map _ Ho)|]. rewrite E3, members_concat by assumption. rewrite Nat.min_r by lia. apply Permutation_refl.
    - assert (Hlen : forall j, j < n -> forall t', (t' < t /\ match c with ByLengths l => t' < nth j l 0 | _ => True end) <-> t' < Nat.min (nth j (mi_lens A m) 0) t).
      { intros j Hj t'. destruct c as [name|l|]; [rewrite Hc in E5| |]; rewrite E5; try rewrite nth_repeat by assumption; try (assert (Q : nth j (repeat t n) 0 = t) by (rewrite (nth_indep _ 0 t) by (now rewrite repeat_length); apply nth_repeat)); lia. }
      assert (G : forall i, In i order -> minimal_cut (fun t' j => t' < t /\ match c with ByLengths l => t' < nth j l 0 | _ => True end) (members n bs i) (Nat.min (max_len (mi_lens A m) (members n bs i)) t)).
      { intros i Hi. destruct (max_len_spec (mi_lens A m) (members n bs i)) as [M1 M2]. split.
        - intros j t' Hj Hz. specialize (M1 j Hj). apply members_range in Hj. apply Hlen in Hz; [|lia]. lia.
        - intros len' Hl. assert (Q : max_len (mi_lens A m) (members n bs i) <= len' \/ t <= len').
          { destruct (Nat.le_gt_cases t len') as [Z|Z]; [now right|]. left. apply M2. intros j Hj. assert (Hj' := Hj). apply members_range in Hj'.
            destruct (Nat.le_gt_cases (nth j (mi_lens A m) 0) len') as [W|W]; [assumption|]. exfalso. specialize (Hl j len' Hj). assert (len' < len'); [|lia]. apply Hl. apply Hlen; lia. }
          lia. }
      clear - B G. induction B as [|x b r bl Hx B IH]; intros i b' is len Q1 Q2 Q3; [destruct i; discriminate|]. destruct i as [|i].
      + injection Q1 as <-. injection Q2 as <-. injection Q3 as <-. split; [assumption|]. apply G. now left.
      + apply (IH (fun i Hi => G i (or_intror Hi)) i b' is len Q1 Q2 Q3).
  Qed.
End Minibatches.
Print Assumptions C26_partition.
Print Assumptions C27_mask.
Print Assumptions C27_lengths.

(** Cases: five sequences of three steps in batches of two. *)
Definition ex_data : dict (array nat) :=
  [("default", mkArray 3 5 (fun t j => 10 * t + j)); ("mask", mkArray 3 5 (fun t j => if t + j <? 4 then 1 else 0))].
Definition nz (n : nat) : bool := negb (n =? 0).
Example C26_case : exists m bl, new_minibatches nat nz 2 (ByName "mask") ex_data = Some m /\ mi_length nat m = 3 /\
  batches nat m [2; 0; 1] = Some bl /\ map (fun b => map (fun kv => (a_T (snd kv), a_N (snd kv))) b) bl = [[(0, 1); (0, 1)]; [(3, 2); (3, 2)]; [(2, 2); (2, 2)]] /\
  map (fun b => map (fun kv => a_at (snd kv) 0 0) b) bl = [[4; 0]; [0; 1]; [2; 1]].
Proof. eexists. eexists. repeat split; vm_compute; reflexivity. Qed.

(** * C28 *)
Section Reiterate.
  Variables A Rnd : Type.

  (** Whatever overwrites elements does so on a copy made by an earlier wrapper. *)
  Definition copies_first (ws : list (wrapper A Rnd)) : Prop :=
    forall ws1 w ws2, ws = ws1 ++ w :: ws2 -> w_inplace A Rnd w = true ->
      exists w', In w' ws1 /\ w_key A Rnd w' = w_key A Rnd w /\ w_inplace A Rnd w' = false.

  Lemma apply_wrappers_base : forall ws rs lo d base d' base' done,
    (forall k v a, In k done -> dget k d = Some (v, a) -> v = false) ->
    (forall ws1 w ws2, ws = ws1 ++ w :: ws2 -> w_inplace A Rnd w = true ->
       In (w_key A Rnd w) done \/ exists w', In w' ws1 /\ w_key A Rnd w' = w_key A Rnd w /\ w_inplace A Rnd w' = false) ->
    apply_wrappers A Rnd ws rs lo d base = Some (d', base') -> base' = base.
  Proof.
    induction ws as [|w ws IH]; intros rs lo d base d' base' done Hd Hs H.
    - cbn in H. injection H as _ <-. reflexivity.
    - destruct rs as [|r rs]; [discriminate|]. cbn [apply_wrappers] in H. unfold apply_wrapper in H.
      destruct (dget (w_key A Rnd w) d) as [[v a]|] eqn:G; [|discriminate]. destruct (w_fun A Rnd w r a) as [a'|] eqn:F; [|discriminate].
      destruct (w_inplace A Rnd w) eqn:I.
      + destruct (Hs [] w ws eq_refl I) as [D|[w' [[] _]]]. assert (v = false) by (eapply Hd; eassumption). subst v.
        refine (IH _ _ _ _ _ _ done _ _ H).
        * intros k v b Hk Hg. destruct (string_dec k (w_key A Rnd w)) as [->|Ne].
          -- rewrite dget_dset_same in Hg. congruence.
          -- rewrite dget_dset_other in Hg by congruence. eapply Hd; eassumption.
        * intros ws1 w1 ws2 E I1. destruct (Hs (w :: ws1) w1 ws2 ltac:(now rewrite E) I1) as [?|[w' [[<-|W] [K N]]]]; [now left | congruence | right; eauto].
      + refine (IH _ _ _ _ _ _ (w_key A Rnd w :: done) _ _ H).
        * intros k v' b Hk Hg. destruct (string_dec k (w_key A Rnd w)) as [->|Ne].
          -- rewrite dget_dset_same in Hg. congruence.
          -- rewrite dget_dset_other in Hg by congruence. destruct Hk as [Hk|Hk]; [congruence|]. eapply Hd; eassumption.
        * intros ws1 w1 ws2 E I1. destruct (Hs (w :: ws1) w1 ws2 ltac:(now rewrite E) I1) as [?|[w' [[<-|W] [K N]]]]; [left; now right | left; now left | right; eauto].
  Qed.

  (** A pass over (wrapped) minibatches leaves the iterator as it was, so that a
      second pass with the same order and the same draws yields the same data. *)
  Theorem C28_minibatches_partial : forall ws indices rss m ds m', copies_first ws ->
    minibatches_pass A Rnd ws indices rss m = Some (ds, m') -> m' = m /\ minibatches_pass A Rnd ws indices rss m' = Some (ds, m').
  Proof.
    intros ws indices rss m ds m' Hc. enough (G : forall indices rss m ds m', minibatches_pass A Rnd ws indices rss m = Some (ds, m') -> m' = m).
    { intros H. assert (E := G _ _ _ _ _ H). subst m'. split; [reflexivity | assumption]. }
    clear indices rss m ds m'. induction indices as [|i is IH]; intros rss m ds m' H.
    - cbn in H. injection H as _ <-. reflexivity.
    - destruct rss as [|rs rss]; [discriminate|]. cbn [minibatches_pass] in H. destruct (batch A m i) as [b|]; [|discriminate].
      destruct (apply_wrappers A Rnd ws rs (i * mi_batch A m) (views A b) (mi_data A m)) as [[d base]|] eqn:W; [|discriminate].
      assert (base = mi_data A m).
      { eapply (apply_wrappers_base ws rs _ _ _ _ _ []); [intros k v a []| |exact W]. intros ws1 w ws2 E I. right. exact (Hc ws1 w ws2 E I). }
      subst base. match type of H with context [minibatches_pass A Rnd ws is rss ?x] => destruct (minibatches_pass A Rnd ws is rss x) as [[ds' m'']|] eqn:R; [|discriminate] end.
      injection H as _ <-. rewrite (IH _ _ _ _ R). now destruct m.
  Qed.

  (** Undivided without wrappers yields its data again and again. *)
  Theorem C28_undivided_partial : forall rs data, undivided_pass A Rnd [] rs data = Some ([data], data).
  Proof.
    intros rs data. unfold undivided_pass. cbn [apply_wrappers]. assert (E : arrays A (views A data) = data).
    { unfold arrays, views. rewrite map_map. cbn. induction data as [|[k v] r IH]; [reflexivity|]. cbn. now rewrite IH. }
    now rewrite E.
  Qed.
  (** What does overwrite elements directly: afterwards the batch holds the overwritten
      elements, so that the next pass starts from them, and all others are unchanged. *)
  Definition same_array (a b : array A) : Prop :=
    a_T a = a_T b /\ a_N a = a_N b /\ forall t j, t < a_T a -> j < a_N a -> a_at a t j = a_at b t j.
  Definition same_data (d1 d2 : dict (array A)) : Prop :=
    forall k, match dget k d1, dget k d2 with Some a, Some b => same_array a b | None, None => True | _, _ => False end.
  Lemma dget_mapv {X Y} (f : X -> Y) k (d : dict X) : dget k (map (fun kv => (fst kv, f (snd kv))) d) = option_map f (dget k d).
  Proof. induction d as [|[k1 v] d IH]; [reflexivity|]. cbn. now destruct (String.eqb k k1). Qed.
  Theorem C28_inplace_partial : forall w r i m ds m', w_inplace A Rnd w = true ->
    (forall a a', w_fun A Rnd w r a = Some a' -> a_T a' = a_T a /\ a_N a' = a_N a) ->
    minibatches_pass A Rnd [w] [i] [[r]] m = Some (ds, m') ->
    exists d b', ds = [d] /\ batch A m' i = Some b' /\ same_data b' d /\
    forall i2 b2, i2 <> i -> batch A m i2 = Some b2 -> exists b2', batch A m' i2 = Some b2' /\ same_data b2' b2.
  Proof.
    intros w r i m ds m' I Hs H. cbn [minibatches_pass] in H. destruct (batch A m i) as [b|] eqn:B; [|discriminate]. cbn [apply_wrappers] in H. unfold apply_wrapper in H.
    unfold views in H at 1. rewrite (dget_mapv (fun a => (true, a))) in H. destruct (dget (w_key A Rnd w) b) as [a|] eqn:G; [|discriminate]. cbn [option_map] in H.
    destruct (w_fun A Rnd w r a) as [a'|] eqn:F; [|discriminate]. rewrite I in H. injection H as <- <-.
    unfold batch in B. destruct (np_max _) as [tmax|] eqn:X; [|discriminate]. injection B as <-. rewrite (dget_mapv (cut tmax (i * mi_batch A m) ((i + 1) * mi_batch A m))) in G.
    destruct (dget (w_key A Rnd w) (mi_data A m)) as [v|] eqn:V; [|discriminate]. cbn [option_map] in G. injection G as <-. destruct (Hs _ _ F) as [HT HN]. cbn [cut a_T a_N] in HT, HN.
    eexists. eexists. split; [reflexivity|]. unfold batch. cbn [mi_data mi_batch mi_lens]. rewrite X. split; [reflexivity|]. unfold write_back. rewrite V. split.
    - intros k. rewrite dget_mapv. unfold arrays. rewrite (dget_mapv (fun x : bool * array A => snd x)). destruct (string_dec k (w_key A Rnd w)) as [->|N].
      + rewrite !dget_dset_same. cbn [option_map snd]. unfold same_array, cut. cbn [a_T a_N a_at]. rewrite HT, HN. split; [reflexivity|]. split; [reflexivity|]. intros t j Ht Hj.
        rewrite (proj2 (Nat.ltb_lt _ _)) by lia. rewrite (proj2 (Nat.leb_le _ _)) by lia. rewrite (proj2 (Nat.ltb_lt _ _)) by lia. cbn [andb]. f_equal. lia.
      + rewrite !dget_dset_other by assumption. rewrite V || idtac. unfold views. rewrite map_map. cbn [fst snd]. rewrite map_map || idtac.
        rewrite (dget_mapv (fun x => (true, cut tmax (i * mi_batch A m) ((i + 1) * mi_batch A m) x))). destruct (dget k (mi_data A m)); cbn; [|exact Logic.I]. repeat split.
    - intros i2 b2 Hi B2. destruct (np_max (py_slice (i2 * mi_batch A m) ((i2 + 1) * mi_batch A m) (mi_lens A m))) as [t2|]; [|discriminate]. injection B2 as <-. eexists. split; [reflexivity|].
      intros k. rewrite !dget_mapv. destruct (string_dec k (w_key A Rnd w)) as [->|N].
      + rewrite dget_dset_same, V. cbn [option_map]. unfold same_array, cut. cbn [a_T a_N a_at]. split; [reflexivity|]. split; [reflexivity|]. intros t j Ht Hj. rewrite HT, HN.
        match goal with |- (if ?c then _ else _) = _ => destruct c eqn:C end; [|reflexivity]. exfalso. apply andb_true_iff in C as [C C3]. apply andb_true_iff in C as [C1 C2]. apply Nat.ltb_lt in C1, C3. apply Nat.leb_le in C2.
        clear - Hj C2 C3 Hi. destruct (Nat.lt_total i2 i) as [L|[L|L]]; [|contradiction|].
        * assert ((i2 + 1) * mi_batch A m <= i * mi_batch A m) by (apply Nat.mul_le_mono_r; lia). lia.
        * assert ((i + 1) * mi_batch A m <= i2 * mi_batch A m) by (apply Nat.mul_le_mono_r; lia). lia.
      + rewrite dget_dset_other by assumption. destruct (dget k (mi_data A m)); cbn; [|exact Logic.I]. repeat split.
  Qed.
End Reiterate.
Print Assumptions C28_inplace_partial.
Print Assumptions C28_minibatches_partial.
Print Assumptions C28_undivided_partial.

(** Pad as a wrapper of arrays of images, Flip as a wrapper that overwrites. *)
Fixpoint map_grid {X Y} (f : X -> option Y) (l : list X) : option (list Y) :=
  match l with [] => Some [] | x :: r => match f x, map_grid f r with Some y, Some ys => Some (y :: ys) | _, _ => None end end.
Definition pad_wrapper (size : nat) : wrapper (image nat) unit :=
  mkWrapper _ _ "default" false (fun _ v =>
    match map_grid (fun p => pad size 0 (a_at v (fst p) (snd p))) (list_prod (seq 0 (a_T v)) (seq 0 (a_N v))) with
    | None => None
    | Some _ => Some (mkArray (a_T v) (a_N v) (fun t j => match pad size 0 (a_at v t j) with Some i => i | None => a_at v t j end))
    end).
Definition flip_wrapper : wrapper (image nat) unit :=
  mkWrapper _ _ "default" true (fun _ v => Some (mkArray (a_T v) (a_N v) (fun t j => flip (a_at v t j)))).
Definition img12 : image nat := mkImage 1 2 (fun _ j => j).
Definition image_data : dict (array (image nat)) := [("default", mkArray 1 1 (fun _ _ => img12))].
Definition widths (ds : list (dict (array (image nat)))) : list nat := flat_map (fun d => map (fun kv => i_W (a_at (snd kv) 0 0)) d) ds.
Definition firsts (ds : list (dict (array (image nat)))) : list nat := flat_map (fun d => map (fun kv => i_at (a_at (snd kv) 0 0) 0 0) d) ds.

(** Padded twice in the second epoch: [Undivided] hands out its own dictionary. *)
Theorem C28_undivided_refuted : exists ds1 data1 ds2 data2,
  undivided_pass _ _ [pad_wrapper 1] [tt] image_data = Some (ds1, data1) /\ widths ds1 = [4] /\
  undivided_pass _ _ [pad_wrapper 1] [tt] data1 = Some (ds2, data2) /\ widths ds2 = [6].
Proof. eexists. eexists. eexists. eexists. split; [reflexivity|]. split; [reflexivity|]. split; [reflexivity|]. reflexivity. Qed.
(** The image is flipped back in the second epoch: [Flip] overwrites the data. *)
Theorem C28_flip_refuted : exists m ds1 m1 ds2 m2,
  new_minibatches _ (fun _ => true) 1 ByNone image_data = Some m /\
  minibatches_pass _ _ [flip_wrapper] [0] [[tt]] m = Some (ds1, m1) /\ firsts ds1 = [1] /\
  minibatches_pass _ _ [flip_wrapper] [0] [[tt]] m1 = Some (ds2, m2) /\ firsts ds2 = [0].
Proof. eexists. eexists. eexists. eexists. eexists. split; [reflexivity|]. split; [reflexivity|]. split; [reflexivity|]. split; [reflexivity|]. reflexivity. Qed.
Print Assumptions C28_undivided_refuted.
Print Assumptions C28_flip_refuted.
(** Two images in two batches: flipping the second leaves the first. *)
Example C28_inplace_case : exists m ds1 m1,
  new_minibatches _ (fun _ => true) 1 ByNone [("default", mkArray 1 2 (fun _ j => mkImage 1 2 (fun _ c => 10 * j + c)))] = Some m /\
  minibatches_pass _ _ [flip_wrapper] [1] [[tt]] m = Some (ds1, m1) /\ firsts ds1 = [11] /\
  option_map firsts (batches _ m1 [0; 1]) = Some [0; 11].
Proof. eexists. eexists. eexists. split; [reflexivity|]. split; [reflexivity|]. split; reflexivity. Qed.
(** Pad before Flip: the copy is flipped, and both passes agree. *)
Example C28_case : copies_first _ _ [pad_wrapper 1; flip_wrapper] /\ exists m ds1 m1,
  new_minibatches _ (fun _ => true) 1 ByNone image_data = Some m /\
  minibatches_pass _ _ [pad_wrapper 1; flip_wrapper] [0] [[tt; tt]] m = Some (ds1, m1) /\ widths ds1 = [4].
Proof.
  split.
  - intros ws1 w ws2 E I. destruct ws1 as [|w1 [|w2 r]]; cbn in E.
    + injection E as <- _. discriminate I.
    + injection E as <- <- _. exists (pad_wrapper 1). split; [now left|]. split; reflexivity.
    + injection E as _ _ E. destruct r; discriminate E.
  - eexists. eexists. eexists. split; [reflexivity|]. split; reflexivity.
Qed.

(** * C29 *)
(** The class a label stands for: negative labels count from the end. *)
Definition stands_for (vocab_size : nat) (label : Z) (k : nat) : Prop :=
  k < vocab_size /\ (label = Z.of_nat k \/ label = (Z.of_nat k - Z.of_nat vocab_size)%Z).
Lemma eye_index_spec v l k : eye_index v l = Some k <-> stands_for v l k.
Proof.
  unfold eye_index, stands_for.
  destruct (Z.leb_spec 0 l); destruct (Z.ltb_spec l (Z.of_nat v)); cbn [andb];
    try destruct (Z.leb_spec (- Z.of_nat v) l); try destruct (Z.ltb_spec l 0); cbn [andb]; split; intros Q; try discriminate Q; try (injection Q as <-; lia); try (destruct Q as [Q1 [Q2|Q2]]; lia); f_equal; lia.
Qed.
Lemma nth_error_map_seq {X} (f : nat -> X) n j : nth_error (map f (seq 0 n)) j = if j <? n then Some (f j) else None.
Proof.
  destruct (Nat.ltb_spec j n) as [L|L].
  - rewrite nth_error_nth' with (d := f 0) by (now rewrite map_length, seq_length). now rewrite nth_map_seq.
  - apply nth_error_None. now rewrite map_length, seq_length.
Qed.

Theorem C29_one_hot : forall v l,
  (forall r, one_hot v l = Some r <-> length r = v /\ exists k, stands_for v l k /\ forall j, j < v -> nth_error r j = Some (j =? k)) /\
  (one_hot v l = None <-> ~ (- Z.of_nat v <= l < Z.of_nat v)%Z).
Proof.
  intros v l. unfold one_hot. split.
  - intros r. split.
    + destruct (eye_index v l) as [k|] eqn:E; [|discriminate]. intros [= <-]. split; [now rewrite map_length, seq_length|]. exists k. split; [now apply eye_index_spec|].
      intros j Hj. rewrite nth_error_map_seq. now replace (j <? v) with true by (symmetry; now apply Nat.ltb_lt).
    + intros [L [k [Hk Hr]]]. apply eye_index_spec in Hk. rewrite Hk. f_equal. apply nth_error_ext. intros j. rewrite nth_error_map_seq.
      destruct (Nat.ltb_spec j v) as [Hj|Hj]; [now rewrite Hr|]. symmetry. apply nth_error_None. lia.
  - destruct (eye_index v l) as [k|] eqn:E.
    + split; [discriminate|]. intros H. apply eye_index_spec in E. unfold stands_for in E. lia.
    + split; [|reflexivity]. intros _ H. assert (exists k, stands_for v l k) as [k Hk].
      { unfold stands_for. destruct (Z.le_gt_cases 0 l); [exists (Z.to_nat l) | exists (Z.to_nat (l + Z.of_nat v))]; lia. }
      apply eye_index_spec in Hk. congruence.
Qed.
Print Assumptions C29_one_hot.
Example C29_one_hot_case : one_hot 4 2 = Some [false; false; true; false] /\ one_hot 4 (-1) = Some [false; false; false; true] /\ one_hot 4 4 = None.
Proof. repeat split. Qed.

Lemma one_hot_Some v l r : one_hot v l = Some r -> length r = v /\ forall j, nth_error r j = Some true <-> stands_for v l j.
Proof.
  intros H. apply C29_one_hot in H. destruct H as [L [k [Hk Hr]]]. split; [assumption|]. intros j. split.
  - intros E. assert (j < v) by (rewrite <- L; apply nth_error_Some; congruence). rewrite Hr in E by assumption. injection E as E. apply Nat.eqb_eq in E. now subst.
  - intros Hj. rewrite Hr by (apply Hj). do 2 f_equal. apply Nat.eqb_eq. unfold stands_for in *. lia.
Qed.
Lemma multi_hot_cons v l l' ls : multi_hot v (l :: l' :: ls) =
  match one_hot v l, multi_hot v (l' :: ls) with Some a, Some b => Some (map (fun p => fst p || snd p) (combine a b)) | _, _ => None end.
Proof. reflexivity. Qed.
Theorem C29_multi_hot : forall v ls,
  (forall r, multi_hot v ls = Some r -> length r = v /\ forall j, nth_error r j = Some true <-> exists l, In l ls /\ stands_for v l j) /\
  (multi_hot v ls = None <-> ls = [] \/ exists l, In l ls /\ ~ (- Z.of_nat v <= l < Z.of_nat v)%Z).
Proof.
  intros v ls. split.
  - induction ls as [|l ls IH]; intros r H; [discriminate|]. destruct ls as [|l' ls].
    + apply one_hot_Some in H. destruct H as [L H]. split; [assumption|]. intros j. rewrite H. split; [intros; exists l; split; [now left | assumption]|]. intros [x [[<-|[]] Hx]]. assumption.
    + rewrite multi_hot_cons in H. destruct (one_hot v l) as [a|] eqn:Ea; [|discriminate]. destruct (multi_hot v (l' :: ls)) as [b|]; [|discriminate].
      injection H as <-. apply one_hot_Some in Ea. destruct Ea as [La Ha]. destruct (IH b eq_refl) as [Lb Hb]. split; [rewrite map_length, combine_length; lia|].
      intros j. transitivity (nth_error a j = Some true \/ nth_error b j = Some true).
      * clear - La Lb. assert (Lab : length a = length b) by congruence. clear La Lb. revert b j Lab. induction a as [|x a IHa]; intros [|y b] j Lab; try discriminate Lab.
        -- destruct j; cbn; intuition discriminate.
        -- destruct j as [|j]; [|exact (IHa b j ltac:(cbn in Lab; lia))]. cbn. destruct x, y; cbn; intuition congruence.
      * rewrite Ha, Hb. split.
        -- intros [H|[x [Hx H]]]; [exists l; split; [now left | assumption] | exists x; split; [now right | assumption]].
        -- intros [x [[<-|Hx] H]]; [now left | right; exists x; now split].
  - induction ls as [|l ls IH]; [split; [now left | reflexivity]|]. destruct (C29_one_hot v l) as [_ N]. destruct ls as [|l' ls].
    + cbn [multi_hot]. rewrite N. split; [intros H; right; exists l; split; [now left | assumption]|]. intros [?|[x [[<-|[]] H]]]; [discriminate | assumption].
    + rewrite multi_hot_cons. destruct (one_hot v l) as [a|] eqn:Ea; [destruct (multi_hot v (l' :: ls)) as [b|] eqn:Eb|].
      * split; [discriminate|]. intros [?|[x [[<-|Hx] H]]]; [discriminate | apply N in H; discriminate |]. destruct IH as [_ IH]. specialize (IH ltac:(right; exists x; now split)). discriminate IH.
      * split; [|reflexivity]. intros _. destruct IH as [IH _]. destruct (IH eq_refl) as [?|[x [Hx H]]]; [discriminate|]. right. exists x. split; [now right | assumption].
      * split; [|reflexivity]. intros _. right. exists l. split; [now left | now apply N].
Qed.
Print Assumptions C29_multi_hot.
Example C29_multi_hot_case : multi_hot 4 [2; 0; 2; -1]%Z = Some [true; false; true; true] /\ multi_hot 4 [] = None.
Proof. split; reflexivity. Qed.

Theorem C29_pad_partial : forall (P : Type) size (val : P) img, 0 < size ->
  exists r, pad size val img = Some r /\ i_H r = i_H img + 2 * size /\ i_W r = i_W img + 2 * size /\
    (forall i j, i < i_H img -> j < i_W img -> i_at r (size + i) (size + j) = i_at img i j) /\
    (forall i j, i < size \/ size + i_H img <= i \/ j < size \/ size + i_W img <= j -> i_at r i j = val).
Proof.
  intros P size val img Hs. unfold pad, minus_slice, broadcast. replace (size =? 0) with false by (symmetry; apply Nat.eqb_neq; lia).
  rewrite !Nat.min_l by lia. replace (i_H img + 2 * size - size - size) with (i_H img) by lia. replace (i_W img + 2 * size - size - size) with (i_W img) by lia.
  rewrite !Nat.eqb_refl. eexists. split; [reflexivity|]. cbn [i_H i_W i_at]. split; [reflexivity|]. split; [reflexivity|]. split.
  - intros i j Hi Hj. replace (size <=? size + i) with true by (symmetry; apply Nat.leb_le; lia). replace (size <=? size + j) with true by (symmetry; apply Nat.leb_le; lia).
    replace (size + i <? size + i_H img) with true by (symmetry; apply Nat.ltb_lt; lia). replace (size + j <? size + i_W img) with true by (symmetry; apply Nat.ltb_lt; lia).
    cbn [andb]. f_equal; lia.
  - intros i j H. destruct (Nat.leb_spec size i); destruct (Nat.ltb_spec i (size + i_H img)); destruct (Nat.leb_spec size j); destruct (Nat.ltb_spec j (size + i_W img)); cbn [andb]; try reflexivity. lia.
Qed.
Print Assumptions C29_pad_partial.
Example C29_pad_case : exists r, pad 1 7 img12 = Some r /\ map (fun i => map (i_at r i) (seq 0 4)) (seq 0 3) = [[7; 7; 7; 7]; [7; 0; 1; 7]; [7; 7; 7; 7]].
Proof. eexists. split; reflexivity. Qed.
(** Pad by 0 assigns to an empty slice: an error, or for a one-pixel image only
    padding values. *)
Theorem C29_pad_zero_refuted : (forall (P : Type) (val : P) img, 1 < i_H img -> pad 0 val img = None) /\
  exists (img r : image nat), i_H img = 1 /\ i_W img = 1 /\ i_at img 0 0 = 5 /\ pad 0 7 img = Some r /\ i_H r = 1 /\ i_W r = 1 /\ i_at r 0 0 = 7.
Proof.
  split.
  - intros P val img H. unfold pad, minus_slice, broadcast. cbn [Nat.eqb Nat.min Nat.sub].
    destruct (Nat.eqb_spec (i_H img) 0); [lia|]. destruct (Nat.eqb_spec (i_H img) 1); [lia|]. reflexivity.
  - exists (mkImage 1 1 (fun _ _ => 5)). eexists. repeat (split; [reflexivity|]). reflexivity.
Qed.
Print Assumptions C29_pad_zero_refuted.

(** Crop: for every draw allowed by [random_integers] the result is a window
    that lies inside of the image. *)
Theorem C29_crop : forall (P : Type) ch cw row col (img : image P),
  (crop ch cw row col img <> None <-> row + ch <= i_H img /\ col + cw <= i_W img) /\
  forall r, crop ch cw row col img = Some r -> i_H r = ch /\ i_W r = cw /\
    forall i j, i < ch -> j < cw -> exists i' j', i' = i + row /\ j' = j + col /\ i' < i_H img /\ j' < i_W img /\ i_at r i j = i_at img i' j'.
Proof.
  intros P ch cw row col img. unfold crop.
  destruct (Nat.leb_spec ch (i_H img)); destruct (Nat.leb_spec cw (i_W img)); destruct (Nat.leb_spec row (i_H img - ch)); destruct (Nat.leb_spec col (i_W img - cw)); cbn [andb];
    split; try (split; [congruence | intros; exfalso; lia]); try (intros r Q; discriminate Q).
  - split; [lia | congruence].
  - intros r [= <-]. cbn [i_H i_W i_at]. split; [reflexivity|]. split; [reflexivity|]. intros i j Hi Hj. exists (i + row), (j + col). repeat split; lia.
Qed.
Print Assumptions C29_crop.
Example C29_crop_case : exists r, crop 1 2 1 1 (mkImage 3 3 (fun i j => 10 * i + j)) = Some r /\ map (i_at r 0) (seq 0 2) = [11; 12] /\
  crop 2 2 2 0 (mkImage 3 3 (fun i j => 10 * i + j)) = None.
Proof. eexists. repeat split. Qed.

Theorem C29_flip : forall (P : Type) (img : image P), i_H (flip img) = i_H img /\ i_W (flip img) = i_W img /\
  (forall i j j', j + j' + 1 = i_W img -> i_at (flip img) i j = i_at img i j') /\
  (forall i j, j < i_W img -> i_at (flip (flip img)) i j = i_at img i j).
Proof.
  intros P img. unfold flip. cbn [i_H i_W i_at]. split; [reflexivity|]. split; [reflexivity|]. split; intros; f_equal; lia.
Qed.
Print Assumptions C29_flip.
Example C29_flip_case : map (i_at (flip (mkImage 1 3 (fun _ j => j))) 0) (seq 0 3) = [2; 1; 0].
Proof. reflexivity. Qed.
