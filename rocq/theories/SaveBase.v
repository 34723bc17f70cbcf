(** Lemmas for C36: trees of references, recreated objects. *)
From Coq Require Import String List Arith Bool ZArith QArith Lia.
From Verif Require Import PyBase PyFacts UtilsModel UtilsProofs ViewRefsModel ArchProofs ViewRefsProofs DescribeModel DescribeProps SaveModel.
Import ListNotations.
Open Scope string_scope.
Open Scope list_scope.
Open Scope nat_scope.

(** ** Trees of the same form *)
Inductive trel {A B} (P : A -> B -> Prop) : dtree A -> dtree B -> Prop :=
| tr_leaf a b : P a b -> trel P (DLeaf a) (DLeaf b)
| tr_dict d d' : Forall2 (fun x y => fst x = fst y /\ trel P (snd x) (snd y)) d d' -> trel P (DDict d) (DDict d').

Lemma F2_length {A B} (P : A -> B -> Prop) l l' : Forall2 P l l' -> length l = length l'.
Proof. induction 1; cbn; congruence. Qed.
Lemma Forall2_flat {A B C D} (f : A -> list C) (g : B -> list D) P l l' :
  Forall2 (fun x y => Forall2 P (f x) (g y)) l l' -> Forall2 P (flat_map f l) (flat_map g l').
Proof. induction 1; cbn; [constructor|]. now apply Forall2_app. Qed.

Lemma trel_leaves {A B} (P : A -> B -> Prop) t : forall t', trel P t t' -> Forall2 P (leaves t) (leaves t').
Proof.
  induction t as [a|d IH] using dtree_ind'; intros t' H; inversion H as [? b Hab|? d' F]; subst; cbn [leaves].
  - now repeat constructor.
  - apply Forall2_flat. clear H. induction F as [|x y d d' [_ Hxy] _ IHF]; constructor; inversion IH; subst; auto.
Qed.

Definition number_dict {A} : list (string * dtree A) -> nat -> list (string * dtree (nat * A)) :=
  fix go d n := match d with [] => [] | (k, t) :: r => (k, number t n) :: go r (n + length (leaves t)) end.
Lemma number_DDict {A} (d : list (string * dtree A)) n : number (DDict d) n = DDict (number_dict d n).
Proof. reflexivity. Qed.

Lemma number_trel {A B C} (P : A -> B -> Prop) (f : nat -> C) t : forall t' n, trel P t t' ->
  tmap (fun it => f (fst it)) (number t n) = tmap (fun it => f (fst it)) (number t' n).
Proof.
  induction t as [a|d IH] using dtree_ind'; intros t' n H; inversion H as [? b Hab|? d' F]; subst; [reflexivity|].
  rewrite !number_DDict. cbn [tmap]. f_equal. clear H. revert n.
  induction F as [|[k t] [k' t'] d d' [Hk Ht] F IHF]; intros n; [reflexivity|]. cbn [fst snd] in *. subst k'. inversion IH as [|? ? I1 I2]; subst.
  cbn [number_dict map fst snd]. f_equal; [f_equal; now apply I1|]. rewrite (F2_length _ _ _ (trel_leaves _ _ _ Ht)). now apply IHF.
Qed.
Lemma tmap_ext {A B} (f g : A -> B) t : (forall a, f a = g a) -> tmap f t = tmap g t.
Proof.
  intros E. induction t as [a|d IH] using dtree_ind'; cbn [tmap]; f_equal; [apply E|]. induction IH as [|x d Hx _ IHd]; [reflexivity|]. cbn [map]. f_equal; [f_equal; exact Hx | exact IHd].
Qed.

Lemma seq_app' n a b : seq n a ++ seq (n + a) b = seq n (a + b).
Proof. now rewrite seq_app. Qed.
Lemma combine_app {A B} (a a' : list A) (b b' : list B) : length a = length b -> combine (a ++ a') (b ++ b') = combine a b ++ combine a' b'.
Proof. revert b. induction a as [|x a IH]; intros [|y b] H; try discriminate; [reflexivity|]. cbn. f_equal. apply IH. now injection H. Qed.
Lemma number_leaves {A} (t : dtree A) : forall n, leaves (number t n) = combine (seq n (length (leaves t))) (leaves t).
Proof.
  induction t as [a|d IH] using dtree_ind'; intros n; [reflexivity|]. rewrite number_DDict. cbn [leaves].
  revert n. induction IH as [|[k t] d Ht _ IHd]; intros n; [reflexivity|]. cbn [number_dict flat_map snd] in *. rewrite Ht, IHd.
  rewrite app_length, <- seq_app', combine_app by now rewrite seq_length. reflexivity.
Qed.
Lemma number_snd {A} (t : dtree A) n : map snd (leaves (number t n)) = leaves t.
Proof. rewrite number_leaves. generalize n. induction (leaves t) as [|a l IH]; intros m; [reflexivity|]. cbn. f_equal. apply IH. Qed.
Lemma number_nth {A} (t : dtree A) n k : nth_error (leaves (number t n)) k = option_map (pair (n + k)) (nth_error (leaves t) k).
Proof.
  rewrite number_leaves. revert n k. induction (leaves t) as [|a l IH]; intros n [|k]; cbn [length seq combine nth_error option_map]; try reflexivity; [now rewrite Nat.add_0_r|].
  rewrite IH. destruct (nth_error l k); [|reflexivity]. cbn. do 2 f_equal. lia.
Qed.
Lemma trel_number {A B} (P : A -> B -> Prop) t : forall t' n, trel P t t' -> trel (fun a b => P a (snd b)) t (number t' n).
Proof.
  induction t as [a|d IH] using dtree_ind'; intros t' n H; inversion H as [? b Hab|? d' F]; subst; [now constructor|].
  rewrite number_DDict. constructor. clear H. revert n. induction F as [|[k t] [k' t'] d d' [Hk Ht] F IHF]; intros n; [constructor|].
  inversion IH as [|? ? I1 I2]; subst. cbn [number_dict]. constructor; [|now apply IHF]. cbn [fst snd] in *. split; [assumption | now apply I1].
Qed.
Lemma trel_mono {A B} (P Q : A -> B -> Prop) t : forall t', (forall a b, P a b -> Q a b) -> trel P t t' -> trel Q t t'.
Proof.
  induction t as [a|d IH] using dtree_ind'; intros t' M H; inversion H as [? b Hab|? d' F]; subst; constructor; [auto|].
  clear H. induction F as [|x y d d' [E Hxy] _ IHF]; constructor; inversion IH; subst; auto.
Qed.
Lemma Forall2_nth {A B} (P : A -> B -> Prop) l l' : Forall2 P l l' -> forall k,
  match nth_error l k, nth_error l' k with Some a, Some b => P a b | None, None => True | _, _ => False end.
Proof. induction 1 as [|a b l l' Hab _ IH]; intros [|k]; cbn; try exact I; [assumption | apply IH]. Qed.

(** Labels depend on which leaves are the same only. *)
Lemma label_ext same l l' : length l = length l' ->
  (forall j k a b a' b', j < k -> nth_error l j = Some a -> nth_error l k = Some b -> nth_error l' j = Some a' -> nth_error l' k = Some b' -> same a b = same a' b') ->
  forall k, label same l k = label same l' k.
Proof.
  intros L H k. unfold label.
  assert (E : forall js, (forall j, In j js -> j < k) ->
    find (fun j => match nth_error l j, nth_error l k with Some a, Some b => same a b | _, _ => false end) js =
    find (fun j => match nth_error l' j, nth_error l' k with Some a, Some b => same a b | _, _ => false end) js).
  { induction js as [|j js IH]; intros Hj; [reflexivity|]. cbn [find]. rewrite IH by (intros i Hi; apply Hj; now right).
    assert (Lt : j < k) by (apply Hj; now left).
    assert (N : forall i, nth_error l i = None <-> nth_error l' i = None) by (intros i; rewrite !nth_error_None, L; reflexivity).
    destruct (nth_error l j) as [a|] eqn:E1; destruct (nth_error l' j) as [a'|] eqn:E2;
      [|apply (proj2 (N j)) in E2; congruence | apply (proj1 (N j)) in E1; congruence | reflexivity].
    destruct (nth_error l k) as [b|] eqn:E3; destruct (nth_error l' k) as [b'|] eqn:E4;
      [|apply (proj2 (N k)) in E4; congruence | apply (proj1 (N k)) in E3; congruence | reflexivity].
    now rewrite (H j k a b a' b'). }
  rewrite E; [reflexivity|]. intros j Hj. apply in_seq in Hj. lia.
Qed.

(** ** Objects that survive *)
(** The library without the two classes that need special care. *)
Definition simple_classes : list cls := filter (fun C => negb (String.eqb (c_name C) "Uniform" || String.eqb (c_name C) "ArrayInitializer")) library.
(** Values made of numbers, strings, None, arrays and objects of these classes. *)
Fixpoint simple (v : value) : Prop :=
  match v with
  | VNone => True | VBool _ => True | VInt _ => True | VFloat _ => True | VStr _ => True
  | VList l => every simple l
  | VArr l => every dictless l
  | VObj c m => NoDup (dkeys m) /\ ~ In "@type" (dkeys m) /\ exists C, In C simple_classes /\ c_name C = c /\
      every (fun it => dmem (fst it) (all_undescribed C) = true \/ simple (snd it)) m
  | _ => False
  end.
Definition constantb (v : value) : bool := match v with VNone => true | VBool _ => true | VInt _ => true | VStr _ => true | VFloat _ => true | _ => false end.
Definition class_ok (C : cls) : bool :=
  match find_class library (c_name C) with
  | Some D => String.eqb (c_name D) (c_name C)
  | None => false
  end && negb (dmem "@type" (all_undescribed C)) && negb (dmem "@type" (all_default_values C)) && forallb (fun it => constantb (snd it)) (all_default_values C).
Lemma simple_classes_spec C : In C simple_classes -> find_class library (c_name C) = Some C /\ c_describe C = None /\
  ~ In "@type" (dkeys (all_undescribed C)) /\ ~ In "@type" (dkeys (all_default_values C)) /\
  (forall x d, dget x (all_default_values C) = Some d -> simple d) /\
  ((c_hook C = seedable_hook /\ In "rnd" (dkeys (all_undescribed C)) /\ ~ In "rnd" (dkeys (all_default_values C))) \/ c_hook C = no_hook).
Proof.
  assert (K : forall D, class_ok D = true -> ~ In "@type" (dkeys (all_undescribed D)) /\ ~ In "@type" (dkeys (all_default_values D)) /\ forall x d, dget x (all_default_values D) = Some d -> simple d).
  { intros D H. unfold class_ok in H. rewrite !andb_true_iff, !negb_true_iff in H. destruct H as [[[_ H1] H2] H3].
    split; [now apply smem_false in H1|]. split; [now apply smem_false in H2|]. intros x d Hd. rewrite forallb_forall in H3. apply dget_In in Hd. specialize (H3 _ Hd). cbn [snd] in H3.
    destruct d; try discriminate; exact I. }
  intros H. assert (O : class_ok C = true) by (assert (F : forallb class_ok simple_classes = true) by (vm_compute; reflexivity); rewrite forallb_forall in F; now apply F).
  destruct (K C O) as [K1 [K2 K3]]. unfold simple_classes in H. cbn in H.
  repeat (destruct H as [<-|H]; [split; [reflexivity|]; split; [reflexivity|]; split; [exact K1|]; split; [exact K2|]; split; [exact K3|];
    first [right; reflexivity | left; split; [reflexivity|]; split; [vm_compute; tauto | vm_compute; intuition discriminate]]|]).
  contradiction.
Qed.
Lemma simple_classes_name C : In C simple_classes -> c_name C <> "Uniform" /\ c_name C <> "ArrayInitializer".
Proof. unfold simple_classes. generalize library. intros lib H. apply filter_In in H. destruct H as [_ H]. apply negb_true_iff, orb_false_iff in H. now rewrite !String.eqb_neq in H. Qed.
Lemma simple_classes_in C : In C library -> String.eqb (c_name C) "Uniform" || String.eqb (c_name C) "ArrayInitializer" = false -> In C simple_classes.
Proof. unfold simple_classes. generalize library. intros lib H E. apply filter_In. split; [exact H|]. now rewrite E. Qed.
Lemma find_class_in lib c C : find_class lib c = Some C -> In C lib.
Proof. intros H. exact (proj1 (find_some _ _ H)). Qed.
Global Opaque simple_classes.

Lemma simple_describable v : simple v -> describable library v.
Proof.
  induction v as [| | | | |l IH|l IH|l|d IH|c m IH|] using value_ind'; cbn [simple describable]; try tauto.
  - intros H. apply every_Forall in H. apply every_Forall. rewrite Forall_forall in *. auto.
  - intros [ND [NT [C [HC [<- Hm]]]]]. split; [assumption|]. split; [assumption|]. intros C' E. destruct (simple_classes_spec C HC) as [F [D _]]. rewrite F in E. injection E as <-.
    split; [assumption|]. apply every_Forall in Hm. apply every_Forall. rewrite Forall_forall in *. intros it Hit. destruct (Hm it Hit) as [H|H]; [left; unfold omitted; now rewrite H | right; auto].
Qed.
Lemma describe_members_total C m : Forall (fun it => omitted C (fst it) (snd it) = true \/ exists j, get_description library (snd it) = Some j) m ->
  exists l, describe_members library C m = Some l.
Proof.
  induction 1 as [|[k v] m H _ [l IH]]; cbn [describe_members fst snd] in *; [now exists []|]. destruct (omitted C k v); [now exists l|]. destruct H as [H|[j ->]]; [discriminate|].
  rewrite IH. eexists. reflexivity.
Qed.
Lemma simple_describes v : simple v -> exists j, get_description library v = Some j.
Proof.
  induction v as [| | | | |l IH|l IH|l|d IH|c m IH|] using value_ind'; cbn [simple]; try contradiction; try (intros; eexists; reflexivity).
  - intros H. cbn [get_description]. apply every_Forall in H. destruct (map_opt_exists (get_description library) l) as [js ->]; [|eexists; reflexivity]. rewrite Forall_forall in *. auto.
  - intros [ND [NT [C [HC [<- Hm]]]]]. destruct (simple_classes_spec C HC) as [F [D _]]. rewrite get_description_obj, F, D. apply every_Forall in Hm.
    destruct (describe_members_total C m) as [l ->]; [|eexists; reflexivity]. rewrite Forall_forall in *. intros it Hit. destruct (Hm it Hit) as [H|H]; [left; unfold omitted; now rewrite H | right; auto].
Qed.
Lemma plain_simple j : dictless j -> simple (plain j).
Proof.
  induction j as [| | | | |l IH|d IH] using json_ind'; cbn [dictless plain simple]; try tauto. intros H. apply every_Forall in H. apply every_Forall. apply Forall_forall. intros v Hv. apply in_map_iff in Hv.
  destruct Hv as [j [<- Hj]]. rewrite Forall_forall in *. auto.
Qed.
Lemma hook_spec C m : In C simple_classes -> NoDup (dkeys m) -> exists m', c_hook C m = Some m' /\ NoDup (dkeys m') /\
  (forall x, ~ In x (dkeys (all_undescribed C)) -> dget x m' = dget x m) /\ (c_hook C = seedable_hook -> dget "rnd" m' = Some (VOpaque 0)).
Proof.
  intros HC ND. destruct (simple_classes_spec C HC) as [_ [_ [_ [_ [_ [[-> [R1 R2]]| ->]]]]]].
  - eexists. split; [reflexivity|]. split; [now apply NoDup_dset|]. split; [|intros _; apply dget_dset_same]. intros x Hx. apply dget_dset_other. intros ->. contradiction.
  - exists m. split; [reflexivity|]. split; [assumption|]. split; [reflexivity|]. intros E. exfalso. assert (X : no_hook [] = seedable_hook []) by (now rewrite E). discriminate X.
Qed.
Lemma simple_created v : simple v -> forall j, get_description library v = Some j -> exists v', create_from_description library j = Some v' /\ simple v'.
Proof.
  induction v as [| | | | |l IH|l IH|l|d IH|c m IH|] using value_ind'; cbn [simple]; try contradiction; intros G j D.
  1-5: cbn [get_description] in D; injection D as <-; eexists; split; [reflexivity | exact I].
  - cbn [get_description] in D. destruct (map_opt _ l) as [js|] eqn:E; [|discriminate]. injection D as <-. apply every_Forall in G. apply map_opt_Forall2 in E. cbn [create_from_description].
    assert (X : exists l', Forall2 (fun j v => create_from_description library j = Some v) js l' /\ Forall simple l').
    { induction E as [|a b l js Hab _ IHl]; [exists []; split; constructor|]. inversion IH as [|? ? I1 I2]; inversion G as [|? ? G1 G2]; subst. destruct (IHl I2 G2) as [l' [F S]]. destruct (I1 G1 b Hab) as [v' [E1 E2]]. exists (v' :: l'). split; now constructor. }
    destruct X as [l' [F S]]. apply map_opt_Forall2 in F. rewrite F. eexists. split; [reflexivity|]. now apply every_Forall.
  - cbn [get_description] in D. injection D as <-. rewrite create_plain by exact G. eexists. split; [reflexivity|]. exact (plain_simple (JList l) G).
  - destruct G as [ND [NT [C [HC [<- Hm]]]]]. destruct (simple_classes_spec C HC) as [F [Dn [T1 [T2 [SD _]]]]]. rewrite get_description_obj, F, Dn in D. apply every_Forall in Hm.
    destruct (describe_members library C m) as [l|] eqn:El; [|discriminate]. injection D as <-.
    assert (Nl : ~ In "@type" (dkeys l)) by (intros Q; apply NT; now apply (describe_members_keys library C m l El)). rewrite create_obj by assumption.
    destruct (describe_members_spec library C m l ND El) as [Nd [Hg _]].
    assert (X : forall it, In it l -> exists v', create_from_description library (snd it) = Some v' /\ simple v').
    { assert (EI := describe_members_In library C m l El). rewrite Forall_forall in EI, IH, Hm. intros it Hit. destruct (EI it Hit) as [v [Hin [O Hv]]].
      destruct (Hm _ Hin) as [Q|Gv]; cbn [fst snd] in *; [unfold omitted in O; rewrite Q in O; discriminate|]. apply (IH _ Hin Gv _ Hv). }
    destruct (map_opt_exists (fun it : string * json => option_map (pair (fst it)) (create_from_description library (snd it))) l) as [l' El'].
    { apply Forall_forall. intros it Hit. destruct (X it Hit) as [v' [-> _]]. eexists. reflexivity. }
    rewrite El', F. set (m0 := update (update (update [] (all_undescribed C)) (all_default_values C)) l').
    assert (N0 : NoDup (dkeys m0)) by (unfold m0; do 3 apply update_nodup; constructor).
    destruct (hook_spec C m0 HC N0) as [m' [-> [N' [Hk _]]]]. eexists. split; [reflexivity|]. cbn [simple]. split; [assumption|].
    assert (M0 : forall x, dget x m0 = match dget x l with Some j => create_from_description library j | None => match dget x (all_default_values C) with Some d => Some d | None => dget x (all_undescribed C) end end).
    { intros x. unfold m0. rewrite dget_update by (rewrite (keyed_keys _ _ _ El'); assumption). rewrite (keyed_get _ _ _ El'). rewrite dget_update by apply def_nodup. rewrite dget_update by apply und_nodup.
      destruct (dget x l) as [j|] eqn:Ex; [|destruct (dget x (all_default_values C)); [reflexivity | destruct (dget x (all_undescribed C)); reflexivity]].
      apply dget_In in Ex. destruct (X _ Ex) as [w [Ew _]]. cbn [snd] in Ew. now rewrite Ew. }
    split.
    + apply dget_None. rewrite Hk by assumption. rewrite M0. assert (E1 : dget "@type" l = None) by now apply dget_None. assert (E2 : dget "@type" (all_default_values C) = None) by now apply dget_None.
      rewrite E1, E2. now apply dget_None.
    + exists C. split; [assumption|]. split; [reflexivity|]. apply every_Forall. apply Forall_forall. intros [x w] Hx. cbn [fst snd]. destruct (dmem x (all_undescribed C)) eqn:Du; [now left|]. right.
      assert (Nu : ~ In x (dkeys (all_undescribed C))) by now apply smem_false in Du. apply (In_dget _ _ _ N') in Hx. rewrite Hk in Hx by assumption. rewrite M0 in Hx.
      destruct (dget x l) as [j|] eqn:Ex.
      * apply dget_In in Ex. destruct (X _ Ex) as [w' [Ew Sw]]. cbn [snd] in Ew. congruence.
      * destruct (dget x (all_default_values C)) as [d|] eqn:Ed; [injection Hx as <-; now apply (SD x)|]. apply dget_None in Nu. congruence.
Qed.

(** ** Recreated initializers behave the same *)
Lemma restored_number v v' : restored library v v' -> is_number v = true -> v' = v.
Proof. intros H. destruct H; cbn; congruence. Qed.
Lemma restored_str s v' : restored library (VStr s) v' -> v' = VStr s.
Proof. inversion 1. reflexivity. Qed.
Lemma restored_none v' : restored library VNone v' -> v' = VNone.
Proof. inversion 1. reflexivity. Qed.

Section Members.
  Variables (C : cls) (m m' : dict value).
  Hypothesis HC : In C simple_classes.
  Hypothesis R : restored library (VObj (c_name C) m) (VObj (c_name C) m').
  Hypothesis HM : every (fun it => dmem (fst it) (all_undescribed C) = true \/ simple (snd it)) m.
  Lemma member_described x v : ~ In x (dkeys (all_undescribed C)) -> dget x m = Some v ->
    (forall d, dget x (all_default_values C) = Some d -> pyeq d v = false) -> exists v', dget x m' = Some v' /\ restored library v v' /\ simple v.
  Proof.
    intros Hu Hx Hd. inversion R as [| | | | | | | | |c C' ? m0 ? FC _ H2 _ _ N0 HH]; subst. destruct (simple_classes_spec C HC) as [F _]. rewrite F in FC. injection FC as <-.
    destruct (hook_spec C m0 HC N0) as [m1 [E1 [_ [Hk _]]]]. rewrite HH in E1. injection E1 as <-. rewrite Hk by assumption.
    assert (Hu' : dget x (all_undescribed C) = None) by (apply dget_None; exact Hu).
    destruct (H2 x v Hu' Hx Hd) as [v' [E Q]]. exists v'. split; [assumption|]. split; [assumption|].
    apply every_Forall in HM. rewrite Forall_forall in HM. destruct (HM _ (dget_In _ _ _ Hx)) as [X|X]; [|exact X]. cbn [fst] in X. apply smem_In in X. contradiction.
  Qed.
  Lemma member_default x v d : ~ In x (dkeys (all_undescribed C)) -> dget x m = Some v -> dget x (all_default_values C) = Some d -> pyeq d v = true -> dget x m' = Some d.
  Proof.
    intros Hu Hx Hd He. inversion R as [| | | | | | | | |c C' ? m0 ? FC _ _ H3 _ N0 HH]; subst. destruct (simple_classes_spec C HC) as [F _]. rewrite F in FC. injection FC as <-.
    destruct (hook_spec C m0 HC N0) as [m1 [E1 [_ [Hk _]]]]. rewrite HH in E1. injection E1 as <-. rewrite Hk by assumption. apply (H3 x d); [apply dget_None; exact Hu | assumption|]. right. exists v. split; assumption.
  Qed.
  Lemma member_rnd : c_hook C = seedable_hook -> has_rnd m' = true.
  Proof.
    intros E. inversion R as [| | | | | | | | |c C' ? m0 ? FC _ _ _ _ N0 HH]; subst. destruct (simple_classes_spec C HC) as [F _]. rewrite F in FC. injection FC as <-.
    destruct (hook_spec C m0 HC N0) as [m1 [E1 [_ [_ Hr]]]]. rewrite HH in E1. injection E1 as <-. unfold has_rnd. rewrite (Hr E); reflexivity.
  Qed.
  Lemma member_number x : ~ In x (dkeys (all_undescribed C)) -> (forall d, dget x (all_default_values C) = Some d -> is_number d = true) ->
    has_number x m = true -> has_number x m' = true.
  Proof.
    intros Hu Hd. unfold has_number at 1. destruct (dget x m) as [v|] eqn:Hx; [|discriminate]. intros Hv.
    assert (K : (exists d, dget x (all_default_values C) = Some d /\ pyeq d v = true) \/ (forall d, dget x (all_default_values C) = Some d -> pyeq d v = false)).
    { destruct (dget x (all_default_values C)) as [d|]; [|right; discriminate]. destruct (pyeq d v) eqn:E; [left; exists d; split; [reflexivity | exact E] | right; intros d' [= <-]; exact E]. }
    destruct K as [[d [Ed Ep]]|K].
    - unfold has_number. rewrite (member_default x v d Hu Hx Ed Ep). apply Hd; exact Ed.
    - destruct (member_described x v Hu Hx K) as [v' [E [Q _]]]. unfold has_number. rewrite E. rewrite (restored_number v v' Q Hv); exact Hv.
  Qed.
  Lemma member_exact x v : ~ In x (dkeys (all_undescribed C)) -> dget x (all_default_values C) = None -> dget x m = Some v ->
    exists v', dget x m' = Some v' /\ restored library v v' /\ simple v.
  Proof. intros Hu Hd Hx. apply member_described; try assumption. congruence. Qed.
End Members.

Lemma need_ok a b : need a <> Crash -> (a = true -> b = true) -> need b = need a.
Proof. destruct a; cbn; [intros _ H; now rewrite H | congruence]. Qed.
Lemma check_ok (b : bool) o o' : check b o <> Crash -> (b = true -> o <> Crash -> o' = o) -> check b o' = check b o.
Proof. destruct b; cbn; auto. Qed.
Lemma andthen_ok a b a' b' : andthen a b <> Crash -> (a <> Crash -> a' = a) -> (a = Done -> b <> Crash -> b' = b) -> andthen a' b' = andthen a b.
Proof. intros H H1 H2. destruct a; cbn in *; [|rewrite H1 by discriminate; reflexivity | congruence]. rewrite H1 by discriminate. cbn. now apply H2. Qed.
Lemma pyeq_str s v : pyeq (VStr s) v = true -> v = VStr s.
Proof. unfold pyeq. cbn. destruct v as [| |z|[q| | |]|t| | | | | |]; cbn; try discriminate. intros H. apply String.eqb_eq in H. now subst. Qed.
Lemma pyeq_none v : pyeq VNone v = true -> v = VNone.
Proof. unfold pyeq. cbn. destruct v as [| |z|[q| | |]|t| | | | | |]; cbn; try discriminate. reflexivity. Qed.

Lemma simple_class_of c m : simple (VObj c m) -> forall C0, find_class library c = Some C0 -> In C0 simple_classes /\ c_name C0 = c /\ every (fun it => dmem (fst it) (all_undescribed C0) = true \/ simple (snd it)) m.
Proof.
  intros [_ [_ [C [HC [E H]]]]] C0 F0. destruct (simple_classes_spec C HC) as [F _]. rewrite E in F. rewrite F in F0. injection F0 as <-. auto.
Qed.

Ltac not_und := cbv; intuition discriminate.
Lemma evaluate_restored v : simple v -> forall v', restored library v v' -> forall b sh, evaluate v b sh <> Crash -> evaluate v' b sh = evaluate v b sh.
Proof.
  induction v as [|b0|z0|f0|s0|l IH|l IH|l|d IH|c m IH|n0] using value_ind'; intros S v' R b sh; try (cbn [evaluate]; congruence).
  1-3: (inversion R; subst; reflexivity).
  inversion R as [| | | | | | | | |c0 C0 m1 m0 m' FC _ _ _ _ _ _]; subst.
  destruct (simple_class_of c m S C0 FC) as [HC [Hn HM]].
  cbn [evaluate]. set (sub := map (fun it => (fst it, evaluate (snd it))) m). set (sub' := map (fun it => (fst it, evaluate (snd it))) m').
  destruct (b && negb (has_rnd m)) eqn:Eb; [congruence|]. intros H.
  assert (IHs : forall x v w, dget x m = Some v -> dget x m' = Some w -> restored library v w -> simple v -> forall b sh,
    (match dget x sub with Some f => f b sh | None => Crash end) <> Crash ->
    (match dget x sub' with Some f => f b sh | None => Crash end) = match dget x sub with Some f => f b sh | None => Crash end).
  { intros x v w Hv Hw Q Sv b0 sh0. unfold sub, sub'. rewrite !dget_map_snd. unfold dict in *. rewrite Hv, Hw. rewrite Forall_forall in IH. exact (IH _ (dget_In _ _ _ Hv) Sv w Q b0 sh0). }
  assert (Ex : forall x b sh, (match dget x sub with Some f => f b sh | None => Crash end) <> Crash -> exists v, dget x m = Some v).
  { intros x b0 sh0. unfold sub. rewrite dget_map_snd. unfold dict in *. destruct (dget x m); [eauto | congruence]. }
  clearbody sub sub'. clear Eb IH.
  assert (Rn : c_hook C0 = seedable_hook -> has_rnd m' = true) by (intros E; apply (member_rnd C0 m m' HC); [rewrite Hn; exact R | exact HM | exact E]).
  assert (G : c_hook C0 = seedable_hook -> call c m' sub' sh = call c m sub sh -> (if b && negb (has_rnd m') then Crash else call c m' sub' sh) = call c m sub sh).
  { intros E1 E2. rewrite (Rn E1). cbn [negb]. rewrite andb_false_r. exact E2. }
  assert (Num : forall x, ~ In x (dkeys (all_undescribed C0)) -> (forall d, dget x (all_default_values C0) = Some d -> is_number d = true) -> has_number x m = true -> has_number x m' = true).
  { intros x. apply (member_number C0 m m' HC); [rewrite Hn; exact R | exact HM]. }
  assert (Exa : forall x v, ~ In x (dkeys (all_undescribed C0)) -> dget x (all_default_values C0) = None -> dget x m = Some v -> exists v', dget x m' = Some v' /\ restored library v v' /\ simple v).
  { intros x v. apply (member_exact C0 m m' HC); [rewrite Hn; exact R | exact HM]. }
  assert (Des : forall x v, ~ In x (dkeys (all_undescribed C0)) -> dget x m = Some v -> (forall d, dget x (all_default_values C0) = Some d -> pyeq d v = false) -> exists v', dget x m' = Some v' /\ restored library v v' /\ simple v).
  { intros x v. apply (member_described C0 m m' HC); [rewrite Hn; exact R | exact HM]. }
  assert (Def : forall x v d, ~ In x (dkeys (all_undescribed C0)) -> dget x m = Some v -> dget x (all_default_values C0) = Some d -> pyeq d v = true -> dget x m' = Some d).
  { intros x v d. apply (member_default C0 m m' HC); rewrite Hn; exact R. }
  assert (Sub : forall x, ~ In x (dkeys (all_undescribed C0)) -> dget x (all_default_values C0) = None -> forall b sh, (match dget x sub with Some f => f b sh | None => Crash end) <> Crash ->
    (match dget x sub' with Some f => f b sh | None => Crash end) = match dget x sub with Some f => f b sh | None => Crash end).
  { intros x Hu Hd b0 sh0 Hc. destruct (Ex x b0 sh0 Hc) as [v Hv]. destruct (Exa x v Hu Hd Hv) as [w [Hw [Q Sv]]]. exact (IHs x v w Hv Hw Q Sv b0 sh0 Hc). }
  unfold call in H.
  destruct (String.eqb_spec c "ArrayInitializer") as [Ec|_]; [exfalso; apply (proj2 (simple_classes_name C0 HC)); congruence|].
  destruct (String.eqb c "DenseSqrtFanIn" || String.eqb c "DenseSqrtFanInOut") eqn:Ec.
  { assert (Hc : c = "DenseSqrtFanIn" \/ c = "DenseSqrtFanInOut") by (apply orb_true_iff in Ec; rewrite !String.eqb_eq in Ec; exact Ec).
    assert (Sc : forall l, In "rel" l -> has_scale l "scale" m = true -> has_scale l "scale" m' = true).
    { intros l Hl. unfold has_scale at 1. destruct (dget "scale" m) as [v|] eqn:Ev; [|discriminate]. intros Hv.
      assert (Du : ~ In "scale" (dkeys (all_undescribed C0))) by (destruct Hc as [->| ->]; injection FC as <-; not_und).
      assert (Dd : dget "scale" (all_default_values C0) = Some (VStr "rel")) by (destruct Hc as [->| ->]; injection FC as <-; reflexivity).
      destruct (pyeq (VStr "rel") v) eqn:Ep.
      - unfold has_scale. rewrite (Def "scale" v _ Du Ev Dd Ep). apply smem_In; exact Hl.
      - destruct (Des "scale" v Du Ev) as [w [Ew [Q _]]]; [intros d; rewrite Dd; intros [= <-]; exact Ep|]. unfold has_scale. rewrite Ew. destruct v; try discriminate; inversion Q; subst; exact Hv. }
    apply G; [destruct Hc as [->| ->]; injection FC as <-; reflexivity|]. unfold call. replace (String.eqb c "ArrayInitializer") with false by (destruct Hc as [->| ->]; reflexivity). rewrite Ec.
    apply check_ok; [exact H|]. intros _ H1. apply need_ok; [exact H1|]. rewrite !andb_true_iff. intros [E1 _]. split; [|apply Rn; destruct Hc as [->| ->]; injection FC as <-; reflexivity].
    apply Sc; [cbn; tauto | exact E1]. }
  destruct (String.eqb_spec c "EchoState") as [->|_].
  { injection FC as <-. apply G; [reflexivity|]. cbn [String.eqb Ascii.eqb Bool.eqb orb call] in *. apply check_ok; [exact H|]. intros _ H1. apply check_ok; [exact H1|]. intros _ H2. apply need_ok; [exact H2|].
    rewrite !andb_true_iff. intros [[E1 E2] _]. split; [split; [exact E1|] | apply Rn; reflexivity]. apply Num; [not_und | intros d [= <-]; reflexivity | exact E2]. }
  destruct (String.eqb_spec c "Gaussian") as [->|_].
  { injection FC as <-. apply G; [reflexivity|]. cbn [String.eqb Ascii.eqb Bool.eqb orb call] in *. apply need_ok; [exact H|].
    rewrite !andb_true_iff. intros [[E1 E2] _]. split; [split | apply Rn; reflexivity]; (apply Num; [not_und | intros d Hd; cbv in Hd; try discriminate Hd; injection Hd as <-; reflexivity | assumption]). }
  destruct (String.eqb_spec c "Identity") as [->|_].
  { injection FC as <-. apply G; [reflexivity|]. cbn [String.eqb Ascii.eqb Bool.eqb orb call] in *. apply check_ok; [exact H|]. intros _ H1. 
    destruct (dget "enforce_square" m) as [e|] eqn:Ee; [|congruence]. destruct (Exa "enforce_square" e) as [e' [-> [Q _]]]; [not_und | reflexivity | exact Ee|].
    assert (Te : truthy e' = truthy e) by (destruct Q; cbn [truthy]; try reflexivity; try (rewrite map_length; reflexivity); try (match goal with F : Forall2 _ _ _ |- _ => rewrite (F2_length _ _ _ F); reflexivity end)).
    rewrite Te. apply check_ok; [exact H1|]. intros _ H2. apply need_ok; [exact H2|].
    rewrite !andb_true_iff. intros [[E1 E2] _]. split; [split | apply Rn; reflexivity]; (apply Num; [not_und | intros d Hd; cbv in Hd; try discriminate Hd; injection Hd as <-; reflexivity | assumption]). }
  destruct (String.eqb_spec c "LstmOptInit") as [->|_].
  { injection FC as <-. apply G; [reflexivity|]. cbn [String.eqb Ascii.eqb Bool.eqb orb call] in *. destruct sh as [|n r]; [congruence|]. apply check_ok; [exact H|]. intros _ H1.
    destruct (has_rnd m); [|congruence]. rewrite Rn by reflexivity.
    apply andthen_ok; [exact H1 | apply Sub; [not_und | reflexivity]|]. intros _ H2. apply andthen_ok; [exact H2 | apply Sub; [not_und | reflexivity]|]. intros _ H3. apply andthen_ok; [exact H3 | apply Sub; [not_und | reflexivity]|]. intros _ H4.
    apply Sub; [not_und | reflexivity | exact H4]. }
  destruct (String.eqb_spec c "Orthogonal") as [->|_].
  { injection FC as <-. apply G; [reflexivity|]. cbn [String.eqb Ascii.eqb Bool.eqb orb call] in *. apply check_ok; [exact H|]. intros _ H1. apply need_ok; [exact H1|].
    rewrite !andb_true_iff. intros [E1 _]. split; [|apply Rn; reflexivity]. apply Num; [not_und | intros d Hd; cbv in Hd; discriminate Hd | exact E1]. }
  destruct (String.eqb_spec c "RandomWalk") as [->|_].
  { injection FC as <-. apply G; [reflexivity|]. cbn [String.eqb Ascii.eqb Bool.eqb orb call] in *. apply check_ok; [exact H|]. intros _ H1. apply check_ok; [exact H1|]. intros _ H2.
    assert (Du : ~ In "scale" (dkeys (all_undescribed (initializer_class "RandomWalk" [("scale", VNone)])))) by not_und.
    destruct (dget "scale" m) as [v|] eqn:Ev; [|congruence]. destruct (pyeq VNone v) eqn:Ep.
    - rewrite (Def "scale" v VNone Du Ev eq_refl Ep). apply pyeq_none in Ep. subst v. apply need_ok; [exact H2|]. rewrite !andb_true_iff. intros [E1 _]. split; [|apply Rn; reflexivity].
      destruct (dget "act_func" m) as [a|] eqn:Ea; [|discriminate]. destruct (Exa "act_func" a) as [a' [-> [Q _]]]; [not_und | reflexivity | exact Ea|]. destruct a; try discriminate. apply restored_str in Q. subst a'; exact E1.
    - destruct (Des "scale" v Du Ev) as [w [Ew [Q _]]]; [intros d [= <-]; exact Ep|]. rewrite Ew. destruct v; try discriminate Ep; try (exfalso; apply H2; reflexivity); inversion Q; subst; (apply need_ok; [exact H2|]; cbn [is_number andb]; intros _; apply Rn; reflexivity). }
  destruct (String.eqb_spec c "SparseInputs") as [->|_].
  { injection FC as <-. apply G; [reflexivity|]. cbn [String.eqb Ascii.eqb Bool.eqb orb call] in *. apply check_ok; [exact H|]. intros _ H1.
    destruct (dget "connections" m) as [v|] eqn:Ev; [|congruence]. destruct (Exa "connections" v) as [w [-> [Q _]]]; [not_und | reflexivity | exact Ev|]. destruct v; try congruence. inversion Q; subst.
    apply check_ok; [exact H1|]. intros _ H2. apply andthen_ok; [exact H2 | apply Sub; [not_und | reflexivity]|]. intros _ H3. apply need_ok; [exact H3|]. intros _. apply Rn; reflexivity. }
  destruct (String.eqb_spec c "SparseOutputs") as [->|_].
  { injection FC as <-. apply G; [reflexivity|]. cbn [String.eqb Ascii.eqb Bool.eqb orb call] in *. apply check_ok; [exact H|]. intros _ H1.
    destruct (dget "connections" m) as [v|] eqn:Ev; [|congruence]. destruct (Exa "connections" v) as [w [-> [Q _]]]; [not_und | reflexivity | exact Ev|]. destruct v; try congruence. inversion Q; subst.
    apply check_ok; [exact H1|]. intros _ H2. apply andthen_ok; [exact H2 | apply Sub; [not_und | reflexivity]|]. intros _ H3. apply need_ok; [exact H3|]. intros _. apply Rn; reflexivity. }
  destruct (String.eqb_spec c "Uniform") as [Ec2|_]; [exfalso; apply (proj1 (simple_classes_name C0 HC)); congruence|].
  congruence.
Qed.
