(** Facts about the base definitions of PyBase.v. *)
From Coq Require Import String Ascii List Arith Bool Lia Permutation Sorting.Sorted.
From Coq Require Import DecimalString DecimalNat Decimal OrderedTypeEx.
From Verif Require Import PyBase.
Import ListNotations.
Open Scope string_scope.
Open Scope list_scope.
Open Scope nat_scope.

Lemma smem_In x l : smem x l = true <-> In x l.
Proof.
  unfold smem. rewrite existsb_exists. split.
  - intros [y [Hy E]]. apply String.eqb_eq in E. subst; assumption.
  - intros H. exists x. split; [assumption | apply String.eqb_refl].
Qed.

Lemma smem_false x l : smem x l = false <-> ~ In x l.
Proof. rewrite <- smem_In. destruct (smem x l); split; congruence. Qed.

Lemma nmem_In x l : nmem x l = true <-> In x l.
Proof.
  unfold nmem. rewrite existsb_exists. split.
  - intros [y [Hy E]]. apply Nat.eqb_eq in E. subst; assumption.
  - intros H. exists x. split; [assumption | apply Nat.eqb_refl].
Qed.

Lemma nmem_false x l : nmem x l = false <-> ~ In x l.
Proof. rewrite <- nmem_In. destruct (nmem x l); split; congruence. Qed.

(** ** Dictionaries *)
Section Dict.
  Context {V : Type}.
  Implicit Types (d : dict V).

  Lemma dget_In k v d : dget k d = Some v -> In (k, v) d.
  Proof.
    induction d as [|[k' v'] d IH]; simpl; [discriminate|].
    destruct (String.eqb_spec k k') as [->|N]; intros H.
    - injection H as ->. now left.
    - right; auto.
  Qed.

  Lemma dget_None k d : dget k d = None <-> ~ In k (dkeys d).
  Proof.
    induction d as [|[k' v'] d IH]; simpl; [tauto|].
    destruct (String.eqb_spec k k') as [->|N]; split; intros H.
    - discriminate.
    - exfalso; apply H; now left.
    - rewrite IH in H. intros [E|I]; [congruence | auto].
    - apply IH. tauto.
  Qed.

  Lemma In_dget k v d : NoDup (dkeys d) -> In (k, v) d -> dget k d = Some v.
  Proof.
    induction d as [|[k' v'] d IH]; simpl; [tauto|].
    intros ND [E|I].
    - injection E as -> ->. now rewrite String.eqb_refl.
    - inversion ND as [|? ? N1 N2]; subst.
      destruct (String.eqb_spec k k') as [->|N]; [|auto].
      exfalso. apply N1. change k' with (fst (k', v)). now apply in_map.
  Qed.

  Lemma dget_dset_same k v d : dget k (dset k v d) = Some v.
  Proof.
    induction d as [|[k' v'] d IH]; simpl.
    - now rewrite String.eqb_refl.
    - destruct (String.eqb_spec k k') as [->|N]; simpl.
      + now rewrite String.eqb_refl.
      + destruct (String.eqb_spec k k'); [contradiction | exact IH].
  Qed.

  Lemma dget_dset_other k k2 v d : k <> k2 -> dget k (dset k2 v d) = dget k d.
  Proof.
    intros N. induction d as [|[k' v'] d IH]; simpl.
    - destruct (String.eqb_spec k k2); [contradiction | reflexivity].
    - destruct (String.eqb_spec k2 k') as [->|N2]; simpl.
      + destruct (String.eqb_spec k k'); [contradiction | reflexivity].
      + destruct (String.eqb_spec k k'); [reflexivity | exact IH].
  Qed.

  Lemma dkeys_dset k v d :
    dkeys (dset k v d) = if smem k (dkeys d) then dkeys d else dkeys d ++ [k].
  Proof.
    induction d as [|[k' v'] d IH]; simpl; [reflexivity|].
    destruct (String.eqb_spec k k') as [->|N]; simpl; [reflexivity|].
    rewrite IH. destruct (smem k (dkeys d)); reflexivity.
  Qed.

  Lemma dset_fresh k v d : ~ In k (dkeys d) -> dset k v d = d ++ [(k, v)].
  Proof.
    induction d as [|[k' v'] d IH]; simpl; [reflexivity|].
    intros H. destruct (String.eqb_spec k k') as [->|N]; [exfalso; tauto|].
    rewrite IH; tauto.
  Qed.

  Lemma NoDup_dset k v d : NoDup (dkeys d) -> NoDup (dkeys (dset k v d)).
  Proof.
    intros H. rewrite dkeys_dset. destruct (smem k (dkeys d)) eqn:E; [exact H|].
    apply smem_false in E. apply NoDup_rev in H.
    rewrite <- (rev_involutive (dkeys d ++ [k])). apply NoDup_rev.
    rewrite rev_app_distr. simpl. constructor; [now rewrite <- in_rev | exact H].
  Qed.

  Lemma dget_Some_key k v d : dget k d = Some v -> In k (dkeys d).
  Proof. intros H. apply dget_In in H. change k with (fst (k, v)). now apply in_map. Qed.

  Lemma key_dget k d : In k (dkeys d) -> exists v, dget k d = Some v.
  Proof.
    intros H. destruct (dget k d) as [v|] eqn:E; [eauto|].
    apply dget_None in E. contradiction.
  Qed.

  Lemma dkeys_length d : length (dkeys d) = length d.
  Proof. apply map_length. Qed.
End Dict.

(** ** Sorting *)
Section Sort.
  Context {A : Type} (leb : A -> A -> bool).

  Lemma insert_perm x l : Permutation (insert leb x l) (x :: l).
  Proof.
    induction l as [|y r IH]; simpl; [reflexivity|].
    destruct (leb x y); [reflexivity|].
    rewrite IH. apply perm_swap.
  Qed.

  Lemma isort_perm l : Permutation (isort leb l) l.
  Proof.
    induction l as [|x r IH]; simpl; [reflexivity|].
    rewrite insert_perm. now constructor.
  Qed.

  Lemma isort_In x l : In x (isort leb l) <-> In x l.
  Proof. split; apply Permutation_in; [|symmetry]; apply isort_perm. Qed.

  Lemma isort_length l : length (isort leb l) = length l.
  Proof. apply Permutation_length, isort_perm. Qed.

  Hypothesis leb_total : forall x y, leb x y = true \/ leb y x = true.
  Hypothesis leb_trans : forall x y z, leb x y = true -> leb y z = true -> leb x z = true.

  Lemma insert_sorted x l :
    StronglySorted (fun a b => leb a b = true) l ->
    StronglySorted (fun a b => leb a b = true) (insert leb x l).
  Proof.
    induction l as [|y r IH]; simpl; intros H.
    - repeat constructor.
    - inversion H as [|? ? H1 H2]; subst.
      destruct (leb x y) eqn:E.
      + constructor; [exact H|]. constructor; [exact E|].
        rewrite Forall_forall in *. eauto.
      + constructor; [auto|].
        rewrite Forall_forall in *. intros z Hz.
        apply (Permutation_in _ (insert_perm x r)) in Hz.
        destruct Hz as [<-|Hz]; [|auto].
        destruct (leb_total x y) as [?|?]; [congruence | assumption].
  Qed.

  Lemma isort_sorted l : StronglySorted (fun a b => leb a b = true) (isort leb l).
  Proof. induction l as [|x r IH]; simpl; [constructor | now apply insert_sorted]. Qed.

  Hypothesis leb_antisym : forall x y, leb x y = true -> leb y x = true -> x = y.

  Lemma sorted_unique l1 l2 :
    StronglySorted (fun a b => leb a b = true) l1 ->
    StronglySorted (fun a b => leb a b = true) l2 ->
    Permutation l1 l2 -> l1 = l2.
  Proof.
    revert l2. induction l1 as [|x r IH]; intros l2 S1 S2 P.
    - apply Permutation_nil in P. now subst.
    - destruct l2 as [|y r2]; [symmetry in P; now apply Permutation_nil in P|].
      inversion S1 as [|? ? S1a S1b]; inversion S2 as [|? ? S2a S2b]; subst.
      rewrite Forall_forall in *.
      assert (x = y).
      { assert (I1 : In x (y :: r2)) by (eapply Permutation_in; [exact P | now left]).
        assert (I2 : In y (x :: r)) by (eapply Permutation_in; [symmetry; exact P | now left]).
        destruct I1 as [|I1]; [congruence|]. destruct I2 as [|I2]; [congruence|].
        apply leb_antisym; auto. }
      subst y. f_equal. apply IH; try assumption.
      eapply Permutation_cons_inv; exact P.
  Qed.

  Lemma isort_permutation_eq l1 l2 : Permutation l1 l2 -> isort leb l1 = isort leb l2.
  Proof.
    intros P. apply sorted_unique; try apply isort_sorted.
    rewrite !isort_perm. exact P.
  Qed.
End Sort.

(** ** Strings *)
Lemma string_ltb_trans x y z :
  String.compare x y = Lt -> String.compare y z = Lt -> String.compare x z = Lt.
Proof.
  revert y z. induction x as [|a x IH]; intros [|b y] [|c z]; simpl; try congruence.
  unfold Ascii.compare.
  destruct (BinNat.N.compare_spec (N_of_ascii a) (N_of_ascii b)) as [E1|L1|G1]; try congruence.
  - destruct (BinNat.N.compare_spec (N_of_ascii b) (N_of_ascii c)) as [E2|L2|G2]; try congruence.
    + rewrite E1, E2, BinNat.N.compare_refl. apply IH.
    + rewrite E1. intros _ _. apply BinNat.N.compare_lt_iff in L2. now rewrite L2.
  - destruct (BinNat.N.compare_spec (N_of_ascii b) (N_of_ascii c)) as [E2|L2|G2]; try congruence.
    + rewrite E2 in L1. intros _ _. apply BinNat.N.compare_lt_iff in L1. now rewrite L1.
    + intros _ _. pose proof (BinNat.N.lt_trans _ _ _ L1 L2) as L.
      apply BinNat.N.compare_lt_iff in L. now rewrite L.
Qed.

Lemma string_leb_trans x y z :
  String.leb x y = true -> String.leb y z = true -> String.leb x z = true.
Proof.
  unfold String.leb.
  destruct (String.compare x y) eqn:E1; try congruence;
  destruct (String.compare y z) eqn:E2; try congruence; intros _ _.
  - apply String.compare_eq_iff in E1. subst. now rewrite E2.
  - apply String.compare_eq_iff in E1. subst. now rewrite E2.
  - apply String.compare_eq_iff in E2. subst. now rewrite E1.
  - now rewrite (string_ltb_trans _ _ _ E1 E2).
Qed.

Lemma string_leb_refl x : String.leb x x = true.
Proof. destruct (String.leb_total x x); assumption. Qed.

(** Characters of a string as a list. *)
Fixpoint chars (s : string) : list ascii :=
  match s with "" => [] | String c r => c :: chars r end.

Lemma chars_app s t : chars (s ++ t)%string = chars s ++ chars t.
Proof. induction s as [|c s IH]; simpl; [reflexivity | now rewrite IH]. Qed.

Lemma chars_inj s t : chars s = chars t -> s = t.
Proof.
  revert t. induction s as [|c s IH]; intros [|d t]; simpl; try congruence.
  intros H. injection H as -> H. f_equal. auto.
Qed.

Lemma string_app_inj_l a b c : (a ++ b)%string = (a ++ c)%string -> b = c.
Proof. induction a as [|x a IH]; simpl; [auto|]. intros H. injection H; auto. Qed.

Lemma string_app_assoc a b c : ((a ++ b) ++ c)%string = (a ++ (b ++ c))%string.
Proof. induction a as [|x a IH]; simpl; congruence. Qed.

Lemma split_last_sep (sep : ascii) s t u v :
  ~ In sep (chars u) -> ~ In sep (chars v) ->
  (s ++ String sep u)%string = (t ++ String sep v)%string -> s = t /\ u = v.
Proof.
  revert t. induction s as [|c s IH]; intros [|d t] Hu Hv H; simpl in H.
  - injection H as ->. auto.
  - injection H as <- H. exfalso. apply Hu. subst u. rewrite chars_app. apply in_or_app.
    right. now left.
  - injection H as -> H. exfalso. apply Hv. subst v. rewrite chars_app. apply in_or_app.
    right. now left.
  - injection H as -> H. destruct (IH t Hu Hv H) as [-> ->]. auto.
Qed.

(** Decimal numerals consist of digits only and determine the number. *)
Definition is_digit (c : ascii) : bool :=
  let n := nat_of_ascii c in (48 <=? n) && (n <=? 57).

Lemma string_of_uint_digits d c :
  In c (chars (NilEmpty.string_of_uint d)) -> is_digit c = true.
Proof.
  induction d as [|d IH|d IH|d IH|d IH|d IH|d IH|d IH|d IH|d IH|d IH]; simpl;
    try (intros [<-|H]; [reflexivity | auto]).
  intros [].
Qed.

Lemma dec_digits n c : In c (chars (dec n)) -> is_digit c = true.
Proof. apply string_of_uint_digits. Qed.

Lemma dec_inj n m : dec n = dec m -> n = m.
Proof.
  unfold dec. intros H.
  assert (E : Some (Nat.to_uint n) = Some (Nat.to_uint m)).
  { rewrite <- (NilEmpty.usu (Nat.to_uint n)), <- (NilEmpty.usu (Nat.to_uint m)).
    now rewrite H. }
  injection E as E. now apply Unsigned.to_uint_inj.
Qed.

Lemma dec_no_sep n c : is_digit c = false -> ~ In c (chars (dec n)).
Proof. intros H I. apply dec_digits in I. congruence. Qed.

Lemma suffixed_inj b1 i1 b2 i2 : suffixed b1 i1 = suffixed b2 i2 -> b1 = b2 /\ i1 = i2.
Proof.
  unfold suffixed. intros H. apply split_last_sep in H; [|now apply dec_no_sep..].
  destruct H as [-> H]. split; [reflexivity | now apply dec_inj].
Qed.

(** ** Lists *)
Lemma nth_error_app_last {A} (l : list A) x : nth_error (l ++ [x]) (length l) = Some x.
Proof. rewrite nth_error_app2 by lia. now rewrite Nat.sub_diag. Qed.

Lemma NoDup_map_inj {A B} (f : A -> B) l :
  (forall x y, In x l -> In y l -> f x = f y -> x = y) -> NoDup l -> NoDup (map f l).
Proof.
  intros Hf ND. induction ND as [|x l Hx ND IH]; simpl; constructor.
  - intros I. apply in_map_iff in I. destruct I as [y [E I]].
    apply Hf in E; [subst; contradiction | now right | now left].
  - apply IH. intros a b Ha Hb. apply Hf; now right.
Qed.

Lemma flat_map_nil {A B} (f : A -> list B) l :
  (forall x, In x l -> f x = []) -> flat_map f l = [].
Proof.
  induction l as [|x l IH]; simpl; intros H; [reflexivity|].
  rewrite H by (now left). simpl. apply IH. intros y Hy. apply H. now right.
Qed.

Lemma nth_error_ext {A} (l1 l2 : list A) :
  (forall n, nth_error l1 n = nth_error l2 n) -> l1 = l2.
Proof.
  revert l2. induction l1 as [|x l1 IH]; intros [|y l2] H.
  - reflexivity.
  - specialize (H 0); discriminate.
  - specialize (H 0); discriminate.
  - f_equal.
    + specialize (H 0). simpl in H. congruence.
    + apply IH. intros n. exact (H (S n)).
Qed.
