(** Lemmas for C36: recreated initializers and modifiers. *)
From Coq Require Import String Ascii List Arith Bool ZArith QArith Lia.
From Verif Require Import PyBase PyFacts UtilsModel UtilsProofs ViewRefsModel ArchProofs ViewRefsProofs DescribeModel DescribeProps SaveModel SaveBase.
Import ListNotations.
Open Scope string_scope.
Open Scope list_scope.
Open Scope nat_scope.

(** Described and recreated. *)
Definition recreated (v v' : value) : Prop := exists j, get_description library v = Some j /\ create_from_description library j = Some v'.

(** ** Leaves *)
(** A usable leaf of the arguments of initialize: a number, a list or array, an
    ArrayInitializer, or an initializer made of simple parts. *)
Definition clean_leaf (v : value) : Prop :=
  match v with
  | VBool _ => True | VInt _ => True | VFloat _ => True
  | VList l => simple v
  | VArr l => simple v
  | VObj c m => simple v \/ (c = "ArrayInitializer" /\ has_rnd m = true /\ exists l, dget "array" m = Some (VArr l) /\ every dictless l)
  | _ => False
  end.
Lemma recreated_restored v v' : simple v -> recreated v v' -> restored library v v'.
Proof. intros S [j [D E]]. apply (C35_restored library v j v'); [now apply simple_describable | exact D | exact E]. Qed.
Lemma vshape_plain j : vshape (plain j) = jshape j.
Proof. induction j as [| | | | |l IH|d IH] using json_ind'; try reflexivity. cbn [plain vshape jshape]. rewrite map_length. f_equal. destruct IH as [|a l Ha _]; [reflexivity | exact Ha]. Qed.
Lemma vshape_restored v : simple v -> forall v', restored library v v' -> vshape v' = vshape v.
Proof.
  induction v as [| | | | |l IH|l IH|l|d IH|c m IH|] using value_ind'; intros S v' R; inversion R; subst; try reflexivity; try contradiction.
  - cbn [vshape]. match goal with X : Forall2 _ l ?l' |- _ => rename X into F2 end. rewrite <- (F2_length _ _ _ F2). f_equal. cbn [simple] in S. apply every_Forall in S.
    destruct F2 as [|a b l l' Hab _]; [reflexivity|]. inversion IH; inversion S; subst. auto.
  - cbn [vshape]. rewrite map_length. f_equal. destruct l as [|a l]; [reflexivity|]. apply vshape_plain.
Qed.
Definition compound (v : value) : Prop := match v with VList _ => True | VArr _ => True | VObj _ _ => True | _ => False end.
Lemma compound_pyeq a b : compound a \/ compound b -> pyeq a b = false.
Proof. unfold pyeq. destruct a as [| |z|[q| | |]|t| | | | | |]; destruct b as [| |z'|[q'| | |]|t'| | | | | |]; cbn; intros [[]|[]]; reflexivity. Qed.
Lemma clean_array_describe m l : dget "array" m = Some (VArr l) -> get_description library (VObj "ArrayInitializer" m) = Some (JList l).
Proof. intros E. rewrite get_description_obj. change (match dget "array" m with Some (VArr l) => Some (JList l) | _ => None end = Some (JList l)). now rewrite E. Qed.
Lemma clean_recreated v : clean_leaf v -> exists j v', get_description library v = Some j /\ create_from_description library j = Some v' /\ simple v' /\ create_refs j = Some (DLeaf v').
Proof.
  intros H. assert (K : simple v -> exists j v', get_description library v = Some j /\ create_from_description library j = Some v' /\ simple v').
  { intros S. destruct (simple_describes v S) as [j D]. destruct (simple_created v S j D) as [v' [E S']]. now exists j, v'. }
  destruct v as [| | | | |l| |l| |c m|]; try contradiction.
  1-3: (eexists; eexists; split; [reflexivity|]; split; [reflexivity|]; split; [exact I | reflexivity]).
  - destruct (K H) as [j [v' [D [E S]]]]. exists j, v'. repeat (split; [assumption|]). cbn [get_description] in D. destruct (map_opt _ l); [|discriminate]. injection D as <-. cbn [create_refs]. now rewrite E.
  - destruct (K H) as [j [v' [D [E S]]]]. exists j, v'. repeat (split; [assumption|]). cbn [get_description] in D. injection D as <-. cbn [create_refs]. now rewrite E.
  - destruct H as [S|[-> [_ [l [E Dl]]]]].
    + destruct (K S) as [j [v' [D [E S']]]]. exists j, v'. repeat (split; [assumption|]). rewrite get_description_obj in D. destruct S as [_ [_ [C [HC [<- _]]]]]. destruct (simple_classes_spec C HC) as [F [Dn _]]. rewrite F, Dn in D.
      destruct (describe_members library C m) as [l|]; [|discriminate]. injection D as <-. cbn [create_refs]. unfold dmem.
      assert (Q : smem "@type" (dkeys (dset "@type" (JStr (c_name C)) l)) = true) by (apply smem_In; apply (dget_Some_key "@type" (JStr (c_name C))); apply dget_dset_same). rewrite Q. now rewrite E.
    + exists (JList l), (VList (map plain l)). split; [now apply clean_array_describe|]. assert (Q := create_plain library (JList l) Dl). split; [exact Q|]. split; [exact (plain_simple (JList l) Dl)|].
      cbn [create_refs]. rewrite Q. reflexivity.
Qed.
Lemma recreated_fun v a b : recreated v a -> recreated v b -> a = b.
Proof. intros [j [D E]] [j' [D' E']]. congruence. Qed.
(** A leaf and its copy are the same number, or both compound. *)
Lemma clean_kind v v' : clean_leaf v -> recreated v v' -> (is_number v = true /\ v' = v) \/ (compound v /\ compound v').
Proof.
  intros H R. destruct v as [| | | | |l| |l| |c m|]; try contradiction.
  1-3: (left; split; [reflexivity|]; destruct R as [j [D E]]; cbn [get_description] in D; injection D as <-; cbn in E; injection E as <-; reflexivity).
  1-2: (right; split; [exact I|]; apply (recreated_restored _ _ H) in R; inversion R; exact I).
  right. split; [exact I|]. destruct H as [S|[-> [_ [l [E Dl]]]]].
  - apply (recreated_restored _ _ S) in R. inversion R. exact I.
  - destruct R as [j [D E']]. rewrite (clean_array_describe m l E) in D. injection D as <-. rewrite (create_plain library (JList l) Dl) in E'. injection E' as <-. exact I.
Qed.
Lemma clean_evaluate v v' : clean_leaf v -> recreated v v' -> forall sh, evaluate (replace_lists v) true sh <> Crash -> evaluate (replace_lists v') true sh = evaluate (replace_lists v) true sh.
Proof.
  intros H R sh N. destruct v as [| | | | |l| |l| |c m|]; try contradiction.
  1-3: (destruct (clean_kind _ _ H R) as [[_ ->]|[[] _]]; reflexivity).
  - assert (Q := recreated_restored _ _ H R). assert (V := vshape_restored _ H _ Q). inversion Q; subst. cbn [replace_lists evaluate]. change (check (shape_eqb (vshape (VList l')) sh) Done = check (shape_eqb (vshape (VList l)) sh) Done). now rewrite V.
  - assert (Q := recreated_restored _ _ H R). assert (V := vshape_restored _ H _ Q). inversion Q; subst. cbn [replace_lists evaluate]. change (check (shape_eqb (vshape (VList (map plain l))) sh) Done = check (shape_eqb (vshape (VArr l)) sh) Done). now rewrite V.
  - destruct H as [S|[-> [Hr [l [E Dl]]]]].
    + assert (Q := recreated_restored _ _ S R). assert (V := evaluate_restored _ S _ Q true sh N). inversion Q; subst. exact V.
    + destruct R as [j [D E']]. rewrite (clean_array_describe m l E) in D. injection D as <-. rewrite (create_plain library (JList l) Dl) in E'. injection E' as <-.
      cbn [replace_lists evaluate]. rewrite Hr. change (check (shape_eqb (vshape (VList (map plain l))) sh) Done = call "ArrayInitializer" m (map (fun it => (fst it, evaluate (snd it))) m) sh).
      unfold call. cbn [String.eqb Ascii.eqb Bool.eqb]. rewrite E. change (VList (map plain l)) with (plain (JList l)). rewrite vshape_plain. reflexivity.
Qed.

Lemma different i v k w : (i =? k) = false -> pyeq v w = false -> same_initializer (i, v) (k, w) = false.
Proof. intros E P. unfold same_initializer. cbn [fst snd]. destruct v; try reflexivity; destruct w; try reflexivity; now rewrite E, P. Qed.

(** ** Trees of initializers *)
Fixpoint clean_tree (t : irefs) : Prop :=
  match t with
  | DLeaf it => clean_leaf (snd it)
  | DDict d => ~ In "@type" (dkeys d) /\ every (fun it => clean_tree (snd it)) d
  end.
(** No initializer object is used at two places (numbers may be). *)
Definition unshared (t : irefs) : Prop := forall j k a b, j < k -> nth_error (leaves t) j = Some a -> nth_error (leaves t) k = Some b ->
  same_initializer a b = true -> pyeq (snd a) (snd b) = true.
Lemma clean_leaves t : clean_tree t -> Forall (fun it => clean_leaf (snd it)) (leaves t).
Proof.
  induction t as [a|d IH] using dtree_ind'; cbn [clean_tree leaves]; [intros H; now repeat constructor|]. intros [_ H]. apply every_Forall in H.
  apply Forall_flat_map. rewrite Forall_forall in *. auto.
Qed.
Lemma keyed_total {A B} (f : A -> option B) (d : list (string * A)) : Forall (fun it => exists b, f (snd it) = Some b) d ->
  exists d', map_opt (fun it => option_map (pair (fst it)) (f (snd it))) d = Some d' /\ Forall2 (fun x y => fst x = fst y /\ f (snd x) = Some (snd y)) d d'.
Proof.
  induction 1 as [|[k a] d [b Hb] _ [d' [IH F]]]; [exists []; split; constructor|]. cbn [fst snd] in Hb. exists ((k, b) :: d'). split; [|constructor; [split; [reflexivity | exact Hb] | exact F]].
  change (match option_map (pair k) (f a), map_opt (fun it => option_map (pair (fst it)) (f (snd it))) d with Some b, Some bs => Some (b :: bs) | _, _ => None end = Some ((k, b) :: d')). now rewrite Hb, IH.
Qed.
Lemma F2_keys {A B} (P : A -> B -> Prop) (d : list (string * A)) (d' : list (string * B)) : Forall2 (fun x y => fst x = fst y /\ P (snd x) (snd y)) d d' -> dkeys d' = dkeys d.
Proof. induction 1 as [|x y d d' [E _] _ IH]; [reflexivity|]. cbn [dkeys map]. rewrite E. f_equal. exact IH. Qed.
Lemma recreate_refs t : clean_tree t -> exists j t', describe_refs t = Some j /\ create_refs j = Some t' /\ trel (fun a b => recreated (snd a) b) t t' /\
  (match t with DDict _ => True | DLeaf _ => False end -> exists d, j = JDict d /\ ~ In "@type" (dkeys d)).
Proof.
  induction t as [a|d IH] using dtree_ind'; cbn [clean_tree].
  - intros H. destruct (clean_recreated _ H) as [j [v' [D [E [S Cr]]]]]. exists j, (DLeaf v'). split; [exact D|]. split; [exact Cr|]. split; [|contradiction]. constructor. exists j. now split.
  - intros [NT H]. apply every_Forall in H.
    destruct (keyed_total describe_refs d) as [js [Ej Fj]].
    { rewrite Forall_forall in *. intros it Hit. destruct (IH it Hit (H it Hit)) as [j [_ [D _]]]. now exists j. }
    assert (Kj : dkeys js = dkeys d) by exact (F2_keys (fun a b => describe_refs a = Some b) d js Fj).
    assert (X : Forall2 (fun x y => exists t', create_refs (snd y) = Some t' /\ trel (fun a b => recreated (snd a) b) (snd x) t') d js).
    { clear - IH H Fj. induction Fj as [|x y d js [_ Hxy] _ IHF]; [constructor|]. inversion IH as [|? ? I1 I2]; subst. inversion H as [|? ? J1 J2]; subst. constructor; [|auto].
      destruct (I1 J1) as [j [t' [D [E [T _]]]]]. assert (Q := eq_trans (eq_sym D) Hxy). injection Q as ->. exists t'. split; [exact E | exact T]. }
    destruct (keyed_total create_refs js) as [ts [Et Ft]].
    { clear - X. induction X as [|x y d js [t' [E _]] _ IHF]; constructor; auto. now exists t'. }
    exists (JDict js), (DDict ts). split; [cbn [describe_refs]; now rewrite Ej|]. split; [|split].
    + cbn [create_refs]. unfold dmem. assert (Q : smem "@type" (dkeys js) = false) by (apply smem_false; now rewrite Kj). rewrite Q, Et. reflexivity.
    + constructor. clear - Fj X Ft. revert ts Ft. induction X as [|x y d js [t' [E T]] _ IHX]; intros ts Ft; inversion Ft as [|? z ? ts' [K Z] Ft']; subst; [constructor|]. inversion Fj as [|? ? ? ? [K' _] Fj']; subst. constructor.
      * split; [exact (eq_trans K' K)|]. rewrite E in Z. injection Z as ->. exact T.
      * auto.
    + intros _. exists js. split; [reflexivity|]. now rewrite Kj.
Qed.
Lemma describe_total t : (forall it, In it (leaves t) -> simple (snd it)) -> exists j, describe_refs t = Some j.
Proof.
  induction t as [a|d IH] using dtree_ind'; intros H.
  - apply simple_describes. apply H. now left.
  - cbn [describe_refs]. destruct (keyed_total describe_refs d) as [js [-> _]]; [|eexists; reflexivity]. rewrite Forall_forall in *. intros it Hit. apply (IH it Hit). intros x Hx. apply H. cbn [leaves]. apply in_flat_map. now exists it.
Qed.

Section Recreated.
  Variables (t : irefs) (t' : dtree value).
  Hypothesis HT : trel (fun a b => recreated (snd a) b) t t'.
  Hypothesis HC : clean_tree t.
  Lemma leaf_pair k : match nth_error (leaves t) k, nth_error (leaves (number t' 0)) k with
    | Some a, Some b => clean_leaf (snd a) /\ recreated (snd a) (snd b) /\ fst b = k | None, None => True | _, _ => False end.
  Proof.
    assert (F := trel_leaves _ _ _ HT). assert (Q := Forall2_nth _ _ _ F k). rewrite number_nth. assert (L := clean_leaves t HC). rewrite Forall_forall in L.
    destruct (nth_error (leaves t) k) as [a|] eqn:E1; destruct (nth_error (leaves t') k) as [b|]; cbn [option_map]; try exact Q. split; [apply L; now apply (nth_error_In _ k)|]. now split.
  Qed.
  Lemma recreated_simple_leaf it : In it (leaves (number t' 0)) -> simple (snd it).
  Proof.
    intros H. apply In_nth_error in H. destruct H as [k Hk]. assert (P := leaf_pair k). rewrite Hk in P. destruct (nth_error (leaves t) k) as [a|]; [|contradiction]. destruct P as [Cl [R _]].
    destruct (clean_recreated _ Cl) as [j [v' [D [E [S _]]]]]. assert (R' : recreated (snd a) v') by now exists j. now rewrite (recreated_fun _ _ _ R R').
  Qed.
  Lemma recreated_labels : unshared t -> labelled same_initializer t = labelled same_initializer (number t' 0).
  Proof.
    intros U. unfold labelled.
    assert (T2 : trel (fun a b => recreated (snd a) (snd b)) t (number t' 0)) by exact (trel_number _ t t' 0 HT).
    rewrite (number_trel _ (fun k => [label same_initializer (leaves t) k]) t (number t' 0) 0 T2). apply tmap_ext. intros it. f_equal. apply label_ext.
    - exact (F2_length _ _ _ (trel_leaves _ _ _ T2)).
    - intros j k a b a' b' L Ea Eb Ea' Eb'. assert (Pj := leaf_pair j). assert (Pk := leaf_pair k). rewrite Ea, Ea' in Pj. rewrite Eb, Eb' in Pk.
      destruct Pj as [Cj [Rj Fj]]. destruct Pk as [Ck [Rk Fk]]. assert (Uab := U j k a b L Ea Eb).
      assert (Ne : (fst a' =? fst b') = false) by (apply Nat.eqb_neq; lia). destruct a as [i v], b as [i2 w], a' as [i3 v'], b' as [i4 w']. cbn [fst snd] in *.
      destruct (clean_kind _ _ Cj Rj) as [[Nv ->]|[Cv Cv']]; destruct (clean_kind _ _ Ck Rk) as [[Nw ->]|[Cw Cw']].
      + unfold same_initializer in *. cbn [fst snd] in *. rewrite Ne. destruct v; try discriminate; destruct w; try discriminate; cbn [orb]; destruct (i =? i2); cbn [orb] in *; try reflexivity; symmetry; apply Uab; reflexivity.
      + assert (E1 : same_initializer (i, v) (i2, w) = false) by (destruct (same_initializer (i, v) (i2, w)); [|reflexivity]; rewrite <- Uab by reflexivity; apply compound_pyeq; now right).
        rewrite E1. symmetry. apply different; [exact Ne|]. apply compound_pyeq. now right.
      + assert (E1 : same_initializer (i, v) (i2, w) = false) by (destruct (same_initializer (i, v) (i2, w)); [|reflexivity]; rewrite <- Uab by reflexivity; apply compound_pyeq; now left).
        rewrite E1. symmetry. apply different; [exact Ne|]. apply compound_pyeq. now left.
      + assert (E1 : same_initializer (i, v) (i2, w) = false) by (destruct (same_initializer (i, v) (i2, w)); [|reflexivity]; rewrite <- Uab by reflexivity; apply compound_pyeq; now left).
        rewrite E1. symmetry. apply different; [exact Ne|]. apply compound_pyeq. now left.
  Qed.
  Lemma recreated_evaluate k sh : evaluate (replace_lists (leaf_value t k)) true sh <> Crash ->
    evaluate (replace_lists (leaf_value (number t' 0) k)) true sh = evaluate (replace_lists (leaf_value t k)) true sh.
  Proof.
    assert (P := leaf_pair k). unfold leaf_value. destruct (nth_error (leaves t) k) as [a|]; destruct (nth_error (leaves (number t' 0)) k) as [b|]; try contradiction.
    destruct P as [Cl [R _]]. now apply clean_evaluate.
  Qed.
  Lemma recreated_initialize s : unshared t -> initialize s t = true -> initialize s (number t' 0) = true.
  Proof.
    intros U. unfold initialize. rewrite <- (recreated_labels U). destruct (resolve_references (view_tree s) (labelled same_initializer t)) as [[r fb]|]; [|discriminate].
    rewrite !forallb_forall. intros H layer Hl. specialize (H layer Hl). rewrite forallb_forall in *. intros view Hv. specialize (H view Hv).
    destruct (get_by_parts r [fst layer; fst view]) as [[[|i [|i2 l]]|]|]; try discriminate. destruct (get_by_parts fb [fst layer; fst view]) as [[[|f [|f2 l]]|]|]; try discriminate.
    - unfold evaluate_initializer in *. assert (Q := recreated_evaluate i (snd view)). destruct (evaluate (replace_lists (leaf_value t i)) true (snd view)); try discriminate. now rewrite Q.
    - unfold evaluate_initializer in *. assert (Q := recreated_evaluate i (snd view)). assert (Q2 := recreated_evaluate f (snd view)). destruct (evaluate (replace_lists (leaf_value t i)) true (snd view)); try discriminate.
      + now rewrite Q.
      + rewrite Q by discriminate. destruct (evaluate (replace_lists (leaf_value t f)) true (snd view)); try discriminate. now rewrite Q2.
  Qed.
End Recreated.

(** ** Names *)
Definition plain_name (x : string) : Prop := identifier x /\ ordinary x.
Lemma expands_plain ref : (forall c, In c (chars ref) -> c <> "*"%char) -> forall key, expands ref key <-> ref = key.
Proof.
  induction ref as [|c r IH]; intros H key; split.
  - inversion 1; reflexivity.
  - intros <-. constructor.
  - assert (Hc : c <> "*"%char) by (apply H; now left). assert (Hr : forall d, In d (chars r) -> d <> "*"%char) by (intros d Hd; apply H; now right).
    inversion 1 as [|? ? k _ E|]; subst; [|congruence]. apply (IH Hr) in E. now subst.
  - intros <-. constructor; [apply H; now left|]. apply IH; [intros d Hd; apply H; now right | reflexivity].
Qed.
Lemma glob_plain ref key : identifier ref -> identifier key -> (glob ref key <-> ref = key).
Proof.
  intros Hr Hk. rewrite glob_identifier by now apply identifier_all_chars. apply expands_plain. intros c Hc E. subst c.
  apply (identifier_all_chars ref Hr) in Hc. apply existsb_ascii in Hc. discriminate.
Qed.
Lemma plain_valid x : plain_name x -> valid_reference x = true.
Proof. intros [I [O1 O2]]. unfold valid_reference. apply orb_true_iff. left. apply valid_layer_name_spec. split; [exact O1|]. split; [exact O2|]. exists x. split; [exact I | now left]. Qed.
Lemma plain_not_type x : plain_name x -> x <> "@type".
Proof. intros [I _] ->. destruct I as [c [r [E [H _]]]]. injection E as <- _. apply existsb_ascii in H. discriminate. Qed.

(** ** Trees of the same form *)
Definition alike {A B} : dtree A -> dtree B -> Prop := trel (fun _ _ => True).
Lemma trel_trans {A B C} (P : A -> B -> Prop) (Q : B -> C -> Prop) (W : A -> C -> Prop) t1 : (forall a b c, P a b -> Q b c -> W a c) -> forall t2 t3, trel P t1 t2 -> trel Q t2 t3 -> trel W t1 t3.
Proof.
  intros M. induction t1 as [n|d IH] using dtree_ind'; intros t2 t3 H1 H2; inversion H1 as [? b Hb|? d2 F1]; subst; inversion H2 as [? c Hc|? d3 F2]; subst.
  - constructor. eauto.
  - constructor. clear H1 H2. revert d2 d3 F1 F2. induction IH as [|x d Hx F IHd]; intros d2 d3 F1 F2; inversion F1 as [|? y ? l [A1 B1] F1']; subst; inversion F2 as [|? z ? l2 [C1 D1] F2']; subst; constructor.
    + split; [congruence | eapply Hx; eauto].
    + eauto.
Qed.
Lemma alike_trans {A B C} (t1 : dtree A) (t2 : dtree B) (t3 : dtree C) : alike t1 t2 -> alike t2 t3 -> alike t1 t3.
Proof. apply trel_trans. auto. Qed.
Lemma alike_refl {A} (t : dtree A) : alike t t.
Proof. induction t as [n|d IH] using dtree_ind'; constructor; [exact I|]. induction IH; constructor; auto. Qed.
Lemma alike_empty {V} (t : dtree V) : alike t (empty_dict_from t).
Proof. induction t as [n|d IH] using dtree_ind'; constructor; [exact I|]. induction IH; cbn [map]; constructor; auto. Qed.
Lemma alike_fallbacks t : alike t (get_fallbacks t).
Proof. induction t as [n|d IH] using dtree_ind'; constructor; [exact I|]. induction IH; cbn [map]; constructor; auto. Qed.
Lemma alike_evaluate t : forall t', evaluate_defaults t = Ok t' -> alike t t'.
Proof.
  induction t as [n|d IH] using dtree_ind'; intros t' H; cbn [evaluate_defaults] in H.
  - destruct (content n); [destruct (_ <=? 1); [|discriminate]|]; injection H as <-; constructor; exact I.
  - match type of H with context[map_res ?F d] => set (g := F) in H end. destruct (map_res g d) as [items'|] eqn:E; [|discriminate]. injection H as <-. constructor.
    eapply map_res_Forall2; [|exact E]. rewrite Forall_forall in IH. intros [k t] b Ia. unfold g. cbn [fst snd]. destruct (evaluate_defaults t) eqn:Et; [|discriminate]. intros [= <-]. cbn [fst snd]. split; [reflexivity|]. now apply (IH (k, t)).
Qed.
Lemma alike_append t : forall c d f t', append_to_all_leaves t c d f = Ok t' -> alike t t'.
Proof.
  induction t as [n|items IH] using dtree_ind'; intros c d f t' H; cbn [append_to_all_leaves] in H.
  - destruct (update_node n c d f); [|discriminate]. injection H as <-. constructor; exact I.
  - match type of H with context[map_res ?F items] => set (g := F) in H end. destruct (map_res g items) as [items'|] eqn:E; [|discriminate]. injection H as <-. constructor.
    eapply map_res_Forall2; [|exact E]. rewrite Forall_forall in IH. intros [k t] b Ia. unfold g. cbn [fst snd]. destruct (append_to_all_leaves t c d f) eqn:Et; [|discriminate]. intros [= <-]. cbn [fst snd]. split; [reflexivity|]. exact (IH (k, t) Ia _ _ _ _ Et).
Qed.
Lemma alike_apply R : forall t pd pf t', apply_refs R t pd pf = Ok t' -> alike t t'.
Proof.
  induction R as [l|d IH] using dtree_ind'; intros t pd pf t' H.
  - cbn [apply_refs] in H. exact (alike_append _ _ _ _ _ H).
  - destruct t as [n|items]; [cbn [apply_refs] in H; exact (alike_append _ _ _ _ _ H)|]. rewrite apply_refs_dict in H.
    destruct (check_references (dkeys items) (dkeys d)); [discriminate|].
    destruct (map_res (apply_key d (current "default" d pd) (current "fallback" d pf)) items) as [items'|] eqn:E; [|discriminate]. injection H as <-. constructor.
    eapply map_res_Forall2; [|exact E]. intros [k t] b Ia Hb. unfold apply_key, refs in Hb. cbn [fst snd] in Hb. rewrite Forall_forall in IH.
    assert (G : forall rs cd cf d0 acc t', incl d0 d -> go_refs rs cd cf d0 acc = Ok t' -> alike acc t').
    { intros rs cd cf. induction d0 as [|[ref R] d0 IHd]; intros acc t' Inc; simpl; [intros [= <-]; apply alike_refl|].
      destruct (smem ref rs); [|apply IHd; intros x Hx; apply Inc; now right]. destruct (apply_refs R acc cd cf) as [acc'|] eqn:Ea; [|discriminate].
      intros Hg. apply (alike_trans _ acc'); [exact (IH (ref, R) (Inc _ (or_introl eq_refl)) _ _ _ _ Ea)|]. apply (IHd acc' t'); [intros x Hx; apply Inc; now right | exact Hg]. }
    destruct (references_of (dkeys d) k) as [|r0 rs0].
    + destruct (append_to_all_leaves t (DLeaf []) _ _) eqn:Et; [|discriminate]. injection Hb as <-. cbn [fst snd]. split; [reflexivity | exact (alike_append _ _ _ _ _ Et)].
    + match type of Hb with context[go_refs ?a ?b ?c ?d ?e] => destruct (go_refs a b c d e) eqn:Et end; [|discriminate]. injection Hb as <-. cbn [fst snd]. split; [reflexivity|]. exact (G _ _ _ _ _ _ (incl_refl _) Et).
Qed.
Lemma alike_resolve {V} (s : dtree V) R r fb : resolve_references s R = Ok (r, fb) -> alike s r /\ alike s fb.
Proof.
  unfold resolve_references. destruct (apply_refs R (empty_dict_from s) None None) as [t|] eqn:E; [|discriminate]. destruct (evaluate_defaults t) as [r0|] eqn:Ev; [|discriminate]. intros [= <- <-].
  assert (Q : alike s t) by (apply (alike_trans _ (empty_dict_from s)); [apply alike_empty | exact (alike_apply _ _ _ _ _ E)]).
  split; [exact (alike_trans _ _ _ Q (alike_evaluate _ _ Ev)) | exact (alike_trans _ _ _ Q (alike_fallbacks t))].
Qed.

(** ** Dictionaries *)
Lemma F2_dget {A B} (P : string -> A -> B -> Prop) (d : list (string * A)) (d' : list (string * B)) : Forall2 (fun x y => fst x = fst y /\ P (fst x) (snd x) (snd y)) d d' ->
  forall k, match dget k d, dget k d' with Some a, Some b => P k a b | None, None => True | _, _ => False end.
Proof.
  induction 1 as [|[k a] [k' b] d d' [E H] _ IH]; intros x; cbn [dget fst snd] in *; [exact I|]. subst k'. destruct (String.eqb_spec x k) as [->|]; [exact H | apply IH].
Qed.
Lemma keyed_total2 {A B} (f : string * A -> option B) (d : list (string * A)) : (forall it, In it d -> exists b, f it = Some b) ->
  exists d', map_opt (fun it => option_map (pair (fst it)) (f it)) d = Some d' /\ Forall2 (fun x y => fst x = fst y /\ f (fst x, snd x) = Some (snd y)) d d'.
Proof.
  induction d as [|[k a] d IH]; intros H; [exists []; split; constructor|]. destruct (H (k, a) (or_introl eq_refl)) as [b Hb]. destruct IH as [d' [E F]]; [intros it Hi; apply H; now right|].
  exists ((k, b) :: d'). split; [|constructor; [split; [reflexivity | exact Hb] | exact F]].
  change (match option_map (pair k) (f (k, a)), map_opt (fun it => option_map (pair (fst it)) (f it)) d with Some b, Some bs => Some (b :: bs) | _, _ => None end = Some ((k, b) :: d')). now rewrite Hb, E.
Qed.
Lemma map_opt_F2 {A B} (f : A -> option B) l l' : map_opt f l = Some l' <-> Forall2 (fun a b => f a = Some b) l l'.
Proof.
  split.
  - revert l'. induction l as [|a l IH]; intros l' H; cbn in H; [injection H as <-; constructor|]. destruct (f a) eqn:E; [|discriminate]. fold (map_opt f) in H. destruct (map_opt f l) as [bs|]; [|discriminate]. injection H as <-. constructor; [exact E | now apply IH].
  - induction 1 as [|a b l l' E _ IH]; [reflexivity|]. cbn. fold (map_opt f). now rewrite E, IH.
Qed.
Lemma F2_In_r {A B} (P : A -> B -> Prop) l l' b : Forall2 P l l' -> In b l' -> exists a, In a l /\ P a b.
Proof. induction 1 as [|x y l l' H _ IH]; [contradiction|]. intros [<-|Hb]; [exists x; split; [now left | exact H]|]. destruct (IH Hb) as [a [Ha Pa]]. exists a. split; [now right | exact Pa]. Qed.

(** ** Good views and modifiers *)
(** The names of layers and views are unique and ordinary identifiers. *)
Definition good_views (s : views) : Prop :=
  NoDup (dkeys s) /\ forall layer vs, In (layer, vs) s -> plain_name layer /\ NoDup (dkeys vs) /\ forall view sh, In (view, sh) vs -> plain_name view.
Definition modifier_classes : list string := ["ConstrainL2Norm"; "ClipValues"; "MaskValues"; "FreezeValues"; "L1Decay"; "L2Decay"].
(** A modifier with attributes that can be described. *)
Definition modifier (v : value) : Prop := simple v /\ match v with VObj c _ => In c modifier_classes | _ => False end.
Definition good_mods (s : views) (mods : modifiers) : Prop :=
  NoDup (dkeys mods) /\ forall layer ms, In (layer, ms) mods -> NoDup (dkeys ms) /\
    exists vs, dget layer s = Some vs /\ forall view l, In (view, l) ms -> In view (dkeys vs) /\ Forall modifier l.

(** The described tree of modifiers. *)
Definition mod_tree (mods : modifiers) : irefs :=
  DDict (map (fun layer => (fst layer, DDict (map (fun view => (fst view, DLeaf (0, VList (snd view)))) (snd layer)))) mods).
Lemma map_opt_map {A B C} (g : A -> B) (f : B -> option C) l : map_opt f (map g l) = map_opt (fun a => f (g a)) l.
Proof. induction l as [|a l IH]; [reflexivity|]. cbn. fold (map_opt f). fold (map_opt (fun a => f (g a))). now rewrite IH. Qed.
Lemma map_opt_ext {A B} (f g : A -> option B) l : (forall a, f a = g a) -> map_opt f l = map_opt g l.
Proof. intros E. induction l as [|a l IH]; [reflexivity|]. cbn. fold (map_opt f). fold (map_opt g). now rewrite IH, E. Qed.
Lemma describe_modifiers_tree mods : describe_modifiers mods = describe_refs (mod_tree mods).
Proof.
  unfold describe_modifiers, mod_tree. cbn [get_description describe_refs]. f_equal. rewrite !map_opt_map. apply map_opt_ext. intros layer. cbn [fst snd]. f_equal.
  cbn [get_description describe_refs]. f_equal. rewrite !map_opt_map. apply map_opt_ext. intros view. reflexivity.
Qed.
Lemma mod_tree_clean s mods : good_views s -> good_mods s mods -> clean_tree (mod_tree mods).
Proof.
  intros [_ GV] [_ GM]. unfold mod_tree. cbn [clean_tree]. assert (K : forall A B (f : A -> B) (d : list (string * A)), dkeys (map (fun x => (fst x, f (snd x))) d) = dkeys d) by (intros; unfold dkeys; now rewrite map_map).
  split.
  - rewrite (K _ _ (fun x => DDict (map (fun view => (fst view, DLeaf (0, VList (snd view)))) x))). intros H. apply key_dget in H. destruct H as [ms H]. apply dget_In in H. destruct (GM _ _ H) as [_ [vs [E _]]]. apply dget_In in E. destruct (GV _ _ E) as [P _]. now apply plain_not_type in P.
  - apply every_Forall. rewrite Forall_map. apply Forall_forall. intros [layer ms] H. cbn [fst snd]. destruct (GM _ _ H) as [_ [vs [E HM]]]. apply dget_In in E. destruct (GV _ _ E) as [_ [_ PV]]. cbn [clean_tree]. split.
    + rewrite (K _ _ (fun x => DLeaf (0, VList x))). intros H'. apply key_dget in H'. destruct H' as [l H']. apply dget_In in H'. destruct (HM _ _ H') as [Hv _]. apply key_dget in Hv. destruct Hv as [sh Hv]. apply dget_In in Hv. apply PV in Hv. now apply plain_not_type in Hv.
    + apply every_Forall. rewrite Forall_map. apply Forall_forall. intros [view l] H'. cbn [fst snd clean_tree clean_leaf simple]. apply every_Forall. destruct (HM _ _ H') as [_ F]. apply Forall_forall. intros v Hv. rewrite Forall_forall in F. apply (F v Hv).
Qed.

(** ** The numbers of new objects *)
Lemma label_new (t' : dtree value) k : label same_modifier (leaves (number t' 0)) k = k.
Proof.
  unfold label. destruct (find _ _) as [j|] eqn:E; [|reflexivity]. apply find_some in E. destruct E as [Hj E]. apply in_seq in Hj. rewrite !number_nth in E.
  destruct (nth_error (leaves t') j); [|discriminate]. destruct (nth_error (leaves t') k); [|discriminate]. cbn in E. apply Nat.eqb_eq in E. lia.
Qed.
Lemma labelled_new (t' : dtree value) : labelled same_modifier (number t' 0) = tmap (fun it => [fst it]) (number t' 0).
Proof.
  unfold labelled. rewrite (tmap_ext _ (fun it => [fst it])) by (intros it; now rewrite label_new).
  symmetry. apply (number_trel (fun _ _ => True) (fun k => [k])). exact (trel_number _ t' t' 0 (alike_refl t')).
Qed.
Lemma numbered {A B} (P : A -> B -> Prop) t : forall t' whole pre post, trel P t t' -> whole = pre ++ leaves t' ++ post ->
  trel (fun a l => exists k b, l = [k] /\ nth_error whole k = Some b /\ P a b) t (tmap (fun it => [fst it]) (number t' (length pre))).
Proof.
  induction t as [a|d IH] using dtree_ind'; intros t' whole pre post H E; inversion H as [? b Hab|? d' F]; subst.
  - constructor. exists (length pre), b. split; [reflexivity|]. split; [|exact Hab]. rewrite nth_error_app2, Nat.sub_diag by lia. reflexivity.
  - rewrite number_DDict. cbn [tmap]. constructor. set (whole := pre ++ leaves (DDict d') ++ post). assert (W : whole = pre ++ flat_map (fun it => leaves (snd it)) d' ++ post) by reflexivity. clearbody whole. clear H. revert pre W.
    induction F as [|[k t] [k' t'] d d' [Hk Ht] F IHF]; intros pre W; [constructor|]. apply Forall_cons_iff in IH. destruct IH as [I1 I2]. cbn [number_dict map]. cbn [fst snd] in *. cbn [flat_map snd] in W. rewrite <- app_assoc in W. constructor.
    + cbn [fst snd]. split; [exact Hk|]. apply (I1 t' _ pre (flat_map (fun it => leaves (snd it)) d' ++ post)); [exact Ht | exact W].
    + rewrite <- (app_length pre (leaves t')). apply IHF; [exact I2|]. rewrite W. now rewrite <- app_assoc.
Qed.

(** ** Resolving modifiers by name *)
Lemma prune_In r l vs v x : In (l, vs) (prune_view_references r) -> In (v, x) vs -> x <> [] /\ exists vs0, In (l, vs0) r /\ In (v, x) vs0.
Proof.
  unfold prune_view_references. intros H Hv. apply filter_In in H. destruct H as [H _]. apply in_map_iff in H. destruct H as [[l0 vs0] [E H]]. cbn [fst snd] in E. injection E as -> <-.
  apply filter_In in Hv. destruct Hv as [Hv Hx]. cbn [snd] in Hx. split; [now destruct x|]. now exists vs0.
Qed.
Lemma prune_empty r : (forall l vs v x, In (l, vs) r -> In (v, x) vs -> x = []) -> prune_view_references r = [].
Proof.
  intros H. destruct (prune_view_references r) as [|[l vs] p] eqn:E; [reflexivity|]. exfalso.
  assert (Hl : In (l, vs) (prune_view_references r)) by (rewrite E; now left). destruct vs as [|[v x] vs].
  - unfold prune_view_references in Hl. apply filter_In in Hl. destruct Hl as [_ Hl]. discriminate.
  - destruct (prune_In _ _ _ v x Hl (or_introl eq_refl)) as [N [vs0 [H1 H2]]]. apply N. eauto.
Qed.
Lemma two_levels_get r l v x : get_by_parts r [l; v] = Some (DLeaf x) -> lookup2 l v (two_levels r) = Some x.
Proof.
  destruct r as [n|d]; cbn [get_by_parts]; [discriminate|]. unfold lookup2, two_levels.
  rewrite (dget_map_snd (fun t : dtree (list nat) => match t with DLeaf _ => [] | DDict vs => map (fun v => (fst v, match snd v with DLeaf l => l | DDict _ => [] end)) vs end)).
  destruct (dget l d) as [[n|vs]|]; try discriminate. rewrite (dget_map_snd (fun t : dtree (list nat) => match t with DLeaf l => l | DDict _ => [] end)).
  destruct (dget v vs) as [t|]; [|discriminate]. now intros [= ->].
Qed.
Lemma two_levels_keys (s : views) r : alike (view_tree s) r -> dkeys (two_levels r) = dkeys s /\ Forall2 (fun a b => fst a = fst b /\ dkeys (snd b) = dkeys (snd a)) s (two_levels r).
Proof.
  intros H. inversion H as [|? d F]; subst. cbn [two_levels].
  assert (Q : Forall2 (fun a b => fst a = fst b /\ dkeys (snd b) = dkeys (snd a)) s (map (fun it => (fst it, match snd it with DLeaf _ => [] | DDict vs => map (fun v => (fst v, match snd v with DLeaf l => l | DDict _ => [] end)) vs end)) d)).
  { clear H. revert d F. induction s as [|[l vs] s IH]; intros d F; cbn [map] in F; inversion F as [|? y ? d' [E T] F']; subst; cbn [map]; constructor; [|now apply IH].
    cbn [fst snd] in *. split; [exact E|]. inversion T as [|? e T' E1 E2]; subst. clear - T'. revert e T'. induction vs as [|[v x] vs IH]; intros e T'; cbn [map] in T'; inversion T' as [|? z ? e' [E _] T'']; subst; [reflexivity|].
    cbn [map dkeys fst snd] in *. rewrite E. f_equal. now apply IH. }
  split; [|exact Q]. clear - Q. revert Q. generalize (map (fun it => (fst it, match snd it with DLeaf _ => [] | DDict vs => map (fun v => (fst v, match snd v with DLeaf l => l | DDict _ => [] end)) vs end)) d). intros m Q.
  induction Q as [|a b s m [E _] _ IH]; [reflexivity|]. change (fst b :: dkeys m = fst a :: dkeys s). f_equal; [symmetry; exact E | exact IH].
Qed.
Lemma view_tree_get s layer vs view sh : dget layer s = Some vs -> dget view vs = Some sh -> get_by_parts (view_tree s) [layer; view] = Some (DLeaf sh).
Proof.
  intros E1 E2. unfold view_tree. cbn [get_by_parts]. rewrite (dget_map_snd (fun vs : list (string * list nat) => DDict (map (fun v => (fst v, DLeaf (snd v))) vs))). unfold dict in *. rewrite E1.
  rewrite (dget_map_snd (fun sh : list nat => DLeaf sh)). now rewrite E2.
Qed.
Lemma view_tree_nodup s : good_views s -> nodup_tree (view_tree s).
Proof.
  intros [ND G]. unfold view_tree. constructor.
  - unfold dkeys in *. now rewrite map_map.
  - intros k t H. apply in_map_iff in H. destruct H as [[l vs] [[= <- <-] H]]. destruct (G _ _ H) as [_ [NV _]]. constructor.
    + unfold dkeys in *. now rewrite map_map.
    + intros k t H'. apply in_map_iff in H'. destruct H' as [[v sh] [[= <- <-] _]]. constructor.
Qed.
(** Entries of the resolved tree. *)
Lemma resolved_entry s R r fb : good_views s -> resolve_references (view_tree s) R = Ok (r, fb) -> forall l vs v x, In (l, vs) (two_levels r) -> In (v, x) vs ->
  exists ws sh, dget l s = Some ws /\ dget v ws = Some sh /\ get_by_parts r [l; v] = Some (DLeaf x).
Proof.
  intros G E l vs v x Hl Hv. destruct (alike_resolve _ _ _ _ E) as [AR _]. destruct (two_levels_keys s r AR) as [K Q]. destruct (F2_In_r _ _ _ _ Q Hl) as [[l' ws] [Hs [El Ek]]]. cbn [fst snd] in *. subst l'.
  destruct G as [ND GV]. destruct (GV _ _ Hs) as [_ [NV _]]. assert (Dl := In_dget _ _ _ ND Hs). assert (Kv : In v (dkeys ws)) by (rewrite <- Ek; exact (In_dkeys _ _ _ Hv)). destruct (key_dget _ _ Kv) as [sh Dv].
  exists ws, sh. split; [exact Dl|]. split; [exact Dv|]. destruct (resolve_spec _ _ _ _ _ _ E (view_tree_get _ _ _ _ _ Dl Dv)) as [x' [lf [Gx _]]]. rewrite Gx. do 2 f_equal.
  assert (L := two_levels_get _ _ _ _ Gx). unfold lookup2 in L. assert (N1 : NoDup (dkeys (two_levels r))) by now rewrite K. assert (D1 := In_dget _ _ _ N1 Hl). unfold dict in *. rewrite D1 in L.
  assert (N2 : NoDup (dkeys vs)) by now rewrite Ek. assert (D2 := In_dget _ _ _ N2 Hv). unfold dict in *. congruence.
Qed.
Lemma fallback_entry s R r fb : good_views s -> resolve_references (view_tree s) R = Ok (r, fb) -> forall l vs v x, In (l, vs) (two_levels fb) -> In (v, x) vs ->
  forall k, In k x -> inherits "fallback" R None [l; v] k.
Proof.
  intros G E l vs v x Hl Hv. destruct (alike_resolve _ _ _ _ E) as [_ AR]. destruct (two_levels_keys s fb AR) as [K Q]. destruct (F2_In_r _ _ _ _ Q Hl) as [[l' ws] [Hs [El Ek]]]. cbn [fst snd] in *. subst l'.
  destruct G as [ND GV]. destruct (GV _ _ Hs) as [_ [NV _]]. assert (Dl := In_dget _ _ _ ND Hs). assert (Kv : In v (dkeys ws)) by (rewrite <- Ek; exact (In_dkeys _ _ _ Hv)). destruct (key_dget _ _ Kv) as [sh Dv].
  destruct (resolve_spec _ _ _ _ _ _ E (view_tree_get _ _ _ _ _ Dl Dv)) as [x' [lf [_ [Gf [Hf _]]]]].
  assert (L := two_levels_get _ _ _ _ Gf). unfold lookup2 in L. assert (N1 : NoDup (dkeys (two_levels fb))) by now rewrite K. assert (D1 := In_dget _ _ _ N1 Hl). unfold dict in *. rewrite D1 in L.
  assert (N2 : NoDup (dkeys vs)) by now rewrite Ek. assert (D2 := In_dget _ _ _ N2 Hv). unfold dict in *. rewrite D2 in L. injection L as <-. intros k. apply Hf.
Qed.
Fixpoint lacks {V} (key : string) (t : dtree V) : Prop :=
  match t with DLeaf _ => True | DDict d => ~ In key (dkeys d) /\ every (fun it => lacks key (snd it)) d end.
Lemma lacks_trel {A B} (P : A -> B -> Prop) key t : forall t', trel P t t' -> lacks key t -> lacks key t'.
Proof.
  induction t as [a|d IH] using dtree_ind'; intros t' H; inversion H as [|? d' F]; subst; [auto|]. cbn [lacks]. intros [N L]. split.
  - assert (K : dkeys d' = dkeys d) by exact (F2_keys (trel P) d d' F). now rewrite K.
  - apply every_Forall in L. apply every_Forall. clear N H. induction F as [|x y d d' [_ T] F IHF]; [constructor|]. apply Forall_cons_iff in IH, L. destruct IH as [I1 I2], L as [L1 L2]. constructor; [now apply I1 | now apply IHF].
Qed.
Lemma lacks_inherits key R : forall p v, lacks key R -> ~ inherits key R None p v.
Proof.
  induction R as [l|d IH] using dtree_ind'; intros p v L H; inversion H as [|? ? ? ? ? ? _ _ C _|? ref R ? ? ? ? Hr _ _ HR|? R ? ? ? ? Hr _ HR]; subst; cbn [lacks] in L; destruct L as [N L]; apply every_Forall in L; rewrite Forall_forall in IH, L.
  - unfold current, refs in C. destruct (dget key d) as [x|] eqn:E; [|discriminate]. apply N. exact (dget_Some_key _ _ _ E).
  - assert (E : current key d None = None) by (unfold current, refs; destruct (dget key d) as [x|] eqn:E; [exfalso; apply N; exact (dget_Some_key _ _ _ E) | reflexivity]). rewrite E in HR. exact (IH (ref, R) Hr p0 v (L _ Hr) HR).
  - assert (E : current key d None = None) by (unfold current, refs; destruct (dget key d) as [x|] eqn:E; [exfalso; apply N; exact (dget_Some_key _ _ _ E) | reflexivity]). rewrite E in HR. exact (IH ("default", R) Hr p0 v (L _ Hr) HR).
Qed.
Lemma F2_map_l {A B C} (P : B -> C -> Prop) (g : A -> B) l l' : Forall2 P (map g l) l' -> Forall2 (fun a c => P (g a) c) l l'.
Proof. revert l'. induction l as [|a l IH]; intros l' H; cbn [map] in H; inversion H; subst; constructor; auto. Qed.
Lemma keyed_inv {A B} (f : string * A -> option B) (d : list (string * A)) : forall d', map_opt (fun it => option_map (pair (fst it)) (f it)) d = Some d' -> Forall2 (fun x y => fst x = fst y /\ f (fst x, snd x) = Some (snd y)) d d'.
Proof.
  intros d' H. apply map_opt_F2 in H. induction H as [|[k a] y d d' E _ IH]; constructor; [|exact IH]. cbn [fst snd] in *. destruct (f (k, a)) as [b|]; [|discriminate]. injection E as <-. now split.
Qed.
Lemma order_lookup t P m : order_and_copy t P = Some m -> dkeys m = dkeys P /\
  (forall layer view, lookup2 layer view m = match lookup2 layer view P with Some x => map_opt (fun v => copy_modifier_for v layer view) (flat_map (fun i => modifiers_of (leaf_value t i)) x) | None => None end) /\
  (forall layer ms, In (layer, ms) m -> exists vs, In (layer, vs) P /\ dkeys ms = dkeys vs /\ forall view l, In (view, l) ms -> exists x, In (view, x) vs /\ map_opt (fun v => copy_modifier_for v layer view) (flat_map (fun i => modifiers_of (leaf_value t i)) x) = Some l).
Proof.
  unfold order_and_copy. set (f := fun layer : string * list (string * list nat) => map_opt (fun view => option_map (pair (fst view)) (map_opt (fun v => copy_modifier_for v (fst layer) (fst view)) (flat_map (fun i => modifiers_of (leaf_value t i)) (snd view)))) (snd layer)).
  intros H. apply (keyed_inv f) in H. split; [|split].
  - clear - H. induction H as [|x y P m [E _] _ IH]; [reflexivity|]. change (fst y :: dkeys m = fst x :: dkeys P). f_equal; [symmetry; exact E | exact IH].
  - intros layer view. assert (Q := F2_dget (fun k a b => f (k, a) = Some b) P m H layer). unfold lookup2. unfold dict in *. destruct (dget layer P) as [vs|]; destruct (dget layer m) as [ms|]; try contradiction; [|reflexivity].
    unfold f in Q. cbn [fst snd] in Q. set (g := fun view : string * list nat => map_opt (fun v => copy_modifier_for v layer (fst view)) (flat_map (fun i => modifiers_of (leaf_value t i)) (snd view))) in Q. apply (keyed_inv g) in Q.
    assert (W := F2_dget (fun k a b => g (k, a) = Some b) vs ms Q view). unfold dict in *. destruct (dget view vs) as [x|]; destruct (dget view ms) as [l|]; try contradiction; [symmetry; exact W | reflexivity].
  - intros layer ms Hm. destruct (F2_In_r _ _ _ _ H Hm) as [[l vs] [Hp [E Q]]]. cbn [fst snd] in *. subst l. exists vs. split; [exact Hp|].
    unfold f in Q. cbn [fst snd] in Q. set (g := fun view : string * list nat => map_opt (fun v => copy_modifier_for v layer (fst view)) (flat_map (fun i => modifiers_of (leaf_value t i)) (snd view))) in Q. apply (keyed_inv g) in Q. split.
    + clear - Q. induction Q as [|x y vs ms [E _] _ IH]; [reflexivity|]. change (fst y :: dkeys ms = fst x :: dkeys vs). f_equal; [symmetry; exact E | exact IH].
    + intros view l Hl. destruct (F2_In_r _ _ _ _ Q Hl) as [[v x] [Hv [E W]]]. cbn [fst snd] in *. subst v. exists x. split; [exact Hv | exact W].
Qed.
Lemma filter_map_keys {A B} (f : A -> B) (p : string * B -> bool) (d : list (string * A)) : NoDup (dkeys d) -> NoDup (dkeys (filter p (map (fun it => (fst it, f (snd it))) d))).
Proof.
  intros ND. unfold dkeys. induction d as [|[k a] d IH]; [constructor|]. cbn [dkeys map fst] in ND. inversion ND as [|? ? N1 N2]; subst. cbn [map fst snd filter]. assert (X : NoDup (map fst (filter p (map (fun it => (fst it, f (snd it))) d)))) by now apply IH.
  destruct (p (k, f a)); [|exact X]. cbn [map fst]. constructor; [|exact X]. intros H. apply N1. apply in_map_iff in H. destruct H as [[k' b] [<- H]]. apply filter_In in H. destruct H as [H _]. apply in_map_iff in H. destruct H as [[k2 a2] [[= <- <-] H]]. exact (In_dkeys _ _ _ H).
Qed.
Lemma filter_keys {B} (p : string * B -> bool) (d : list (string * B)) : NoDup (dkeys d) -> NoDup (dkeys (filter p d)).
Proof.
  intros ND. unfold dkeys in *. induction d as [|[k a] d IH]; [constructor|]. cbn [map fst] in ND. inversion ND as [|? ? N1 N2]; subst. cbn [filter]. specialize (IH N2).
  destruct (p (k, a)); [|exact IH]. cbn [map fst]. constructor; [|exact IH]. intros H. apply N1. apply in_map_iff in H. destruct H as [[k' b] [<- H]]. apply filter_In in H. destruct H as [H _]. exact (in_map fst _ _ H).
Qed.
Lemma two_levels_nodup s r : good_views s -> alike (view_tree s) r -> NoDup (dkeys (two_levels r)) /\ forall l vs, In (l, vs) (two_levels r) -> NoDup (dkeys vs).
Proof.
  intros [ND G] A. destruct (two_levels_keys s r A) as [K Q]. split; [now rewrite K|]. intros l vs H. destruct (F2_In_r _ _ _ _ Q H) as [[l' ws] [Hs [_ Ek]]]. cbn [fst snd] in *. rewrite Ek. apply (G _ _ Hs).
Qed.

(** What set_modifiers installs is good. *)
Lemma copied_modifier v layer view v' : modifier v -> copy_modifier_for v layer view = Some v' -> modifier v'.
Proof.
  intros [S HC]. destruct v as [| | | | | | | | |c m|]; try contradiction. cbn [copy_modifier_for]. intros [= <-]. split; [|exact HC]. cbn [simple] in *. destruct S as [ND [NT [C [InC [EC HM]]]]].
  assert (K : forall x k (w : value) d, In x (dkeys (dset k w d)) -> x = k \/ In x (dkeys d)).
  { intros x k w d Hx. rewrite dkeys_dset in Hx. destruct (smem k (dkeys d)); [now right|]. apply in_app_or in Hx. destruct Hx as [Hx|[Hx|[]]]; [now right | now left]. }
  split; [now do 2 apply NoDup_dset|]. split.
  - intros H. apply K in H. destruct H as [H|H]; [discriminate|]. apply K in H. destruct H as [H|H]; [discriminate | exact (NT H)].
  - exists C. split; [exact InC|]. split; [exact EC|]. apply every_Forall in HM. apply every_Forall.
    assert (Z : forall k s d, Forall (fun it : string * value => dmem (fst it) (all_undescribed C) = true \/ simple (snd it)) d -> Forall (fun it => dmem (fst it) (all_undescribed C) = true \/ simple (snd it)) (dset k (VStr s) d)).
    { intros k s d. induction 1 as [|[k' w] d Hw Fd IH]; cbn [dset]; [constructor; [right; exact I | constructor]|]. destruct (String.eqb k k'); constructor; [right; exact I | exact Fd | exact Hw | exact IH]. }
    apply Z. apply Z. exact HM.
Qed.
Lemma set_modifiers_good s t mods : good_views s -> Forall (fun it => Forall modifier (modifiers_of (snd it))) (leaves t) -> set_modifiers s t = Some mods -> good_mods s mods.
Proof.
  intros G L. unfold set_modifiers. destruct (resolve_references (view_tree s) (labelled same_modifier t)) as [[r fb]|] eqn:E; [|discriminate]. destruct (prune_view_references (two_levels fb)); [|discriminate]. intros O.
  destruct (order_lookup _ _ _ O) as [K [_ HI]]. destruct (alike_resolve _ _ _ _ E) as [AR _]. destruct (two_levels_nodup s r G AR) as [N1 N2]. split.
  - rewrite K. unfold prune_view_references. now apply filter_map_keys.
  - intros layer ms Hm. destruct (HI _ _ Hm) as [vs [Hp [Kv HV]]]. split.
    + rewrite Kv. unfold prune_view_references in Hp. apply filter_In in Hp. destruct Hp as [Hp _]. apply in_map_iff in Hp. destruct Hp as [[l0 vs0] [[= <- <-] Hp]]. cbn [fst snd]. apply filter_keys. exact (N2 _ _ Hp).
    + assert (X : forall view x, In (view, x) vs -> exists ws, dget layer s = Some ws /\ In view (dkeys ws)).
      { intros view x Hx. destruct (prune_In _ _ _ _ _ Hp Hx) as [_ [vs0 [H0 H1]]]. destruct (resolved_entry s _ r fb G E _ _ _ _ H0 H1) as [ws [sh [D1 [D2 _]]]]. exists ws. split; [exact D1 | exact (dget_Some_key _ _ _ D2)]. }
      assert (Y : exists vw x, In (vw, x) vs).
      { unfold prune_view_references in Hp. apply filter_In in Hp. destruct Hp as [_ Hp]. cbn [snd] in Hp. destruct vs as [|[vw x] vs]; [discriminate|]. exists vw, x. now left. }
      destruct Y as [vw [x Hx]]. destruct (X _ _ Hx) as [ws [D1 _]]. exists ws. split; [exact D1|]. intros view l Hl. destruct (HV _ _ Hl) as [y [Hy O2]]. split.
      * destruct (X _ _ Hy) as [ws' [D2 H2]]. unfold dict in *. rewrite D1 in D2. injection D2 as <-. exact H2.
      * apply map_opt_F2 in O2. apply Forall_forall. intros v' Hv'. destruct (F2_In_r _ _ _ _ O2 Hv') as [v [Hv Cv]]. apply (copied_modifier v layer view); [|exact Cv]. apply in_flat_map in Hv. destruct Hv as [i [_ Hv]].
        unfold leaf_value in Hv. destruct (nth_error (leaves t) i) as [it|] eqn:Ei; [|destruct Hv as [<-|[]]; discriminate]. apply nth_error_In in Ei. rewrite Forall_forall in L. specialize (L _ Ei). rewrite Forall_forall in L. now apply L.
Qed.

(** ** Loading modifiers *)
(** A loaded modifier: the class, the place and the described attributes. *)
Definition kept_modifier (layer view : string) (v v' : value) : Prop :=
  exists c m m', v = VObj c m /\ v' = VObj c m' /\ has_rnd m' = true /\
    dget "layer_name" m' = Some (VStr layer) /\ dget "view_name" m' = Some (VStr view) /\
    forall x a, dget x m = Some a -> ~ In x ["rnd"; "layer_name"; "view_name"; "device_mask"; "weights"; "device_weights"] ->
      exists a', dget x m' = Some a' /\ restored library a a'.
Lemma copy_kept v layer view v0 v' : modifier v -> restored library v v0 -> copy_modifier_for v0 layer view = Some v' -> kept_modifier layer view v v'.
Proof.
  intros [S HC] R CP. destruct v as [| | | | | | | | |c m|]; try contradiction. inversion R as [| | | | | | | | |c0 C m1 m0 m' FC H1 H2 H3 H4 N0 HH]; subst. cbn [copy_modifier_for] in CP. injection CP as <-.
  exists c, m, (dset "view_name" (VStr view) (dset "layer_name" (VStr layer) m')). split; [reflexivity|]. split; [reflexivity|].
  assert (Q : c_hook C = seedable_hook /\ all_default_values C = [] /\ forall x, ~ In x ["rnd"; "layer_name"; "view_name"; "device_mask"; "weights"; "device_weights"] -> dget x (all_undescribed C) = None).
  { clear - FC HC. unfold modifier_classes in HC. repeat (destruct HC as [<-|HC]; [injection FC as <-; split; [reflexivity|]; split; [reflexivity|]; intros x Hx; apply dget_None; intros Hi; apply Hx; revert Hi; vm_compute; tauto|]). contradiction. }
  destruct Q as [Q1 [Q2 Q3]]. rewrite Q1 in HH. injection HH as <-. split; [|split; [|split]].
  - unfold has_rnd. rewrite !dget_dset_other by discriminate. now rewrite dget_dset_same.
  - rewrite dget_dset_other by discriminate. apply dget_dset_same.
  - apply dget_dset_same.
  - intros x a Hx Nx. assert (D : forall k, In k ["rnd"; "layer_name"; "view_name"; "device_mask"; "weights"; "device_weights"] -> x <> k) by (intros k Hk ->; contradiction).
    rewrite !dget_dset_other by (apply D; cbn; tauto). apply (H2 x a); [now apply Q3 | exact Hx|]. rewrite Q2. discriminate.
Qed.
Definition same_modifiers (mods mods' : modifiers) : Prop := forall layer view,
  match lookup2 layer view mods, lookup2 layer view mods' with
  | Some l, Some l' => Forall2 (kept_modifier layer view) l l'
  | None, None => True
  | _, _ => False
  end.

Section LoadModifiers.
  Variables (s : views) (mods : modifiers) (t' : dtree value).
  Hypothesis GV : good_views s.
  Hypothesis GM : good_mods s mods.
  Hypothesis HT : trel (fun a b => recreated (snd a) b) (mod_tree mods) t'.
  Let R := labelled same_modifier (number t' 0).
  Definition entry (l : list value) (x : refs) : Prop := exists k b, x = DLeaf [k] /\ nth_error (leaves t') k = Some b /\ recreated (VList l) b.
  Definition entries (ms : list (string * list value)) (x : refs) : Prop :=
    exists dv, x = DDict dv /\ Forall2 (fun a b => fst a = fst b /\ entry (snd a) (snd b)) ms dv.
  Lemma R_tree : trel (fun a l => exists k b, l = [k] /\ nth_error (leaves t') k = Some b /\ recreated (snd a) b) (mod_tree mods) R.
  Proof. unfold R. rewrite labelled_new. apply (numbered (fun a b => recreated (snd a) b) (mod_tree mods) t' (leaves t') [] [] HT). now rewrite app_nil_r. Qed.
  Lemma R_entries : exists d, R = DDict d /\ Forall2 (fun a b => fst a = fst b /\ entries (snd a) (snd b)) mods d.
  Proof.
    assert (T := R_tree). unfold mod_tree in T. inversion T as [|? d F E1 E2]. exists d. split; [reflexivity|]. apply F2_map_l in F. clear - F.
    induction F as [|[k ms] y l d [E H] _ IH]; constructor; [|exact IH]. cbn [fst snd] in *. split; [exact E|]. inversion H as [|d0 dv Fv E1 E2]. subst d0. exists dv. split; [symmetry; exact E2|]. apply F2_map_l in Fv. clear - Fv.
    induction Fv as [|[k w] y l d [E H] _ IH]; constructor; [|exact IH]. cbn [fst snd] in *. split; [exact E|]. inversion H as [? b Hb E1 E2|]. destruct Hb as [i [c [-> [N Q]]]]. exists i, c. split; [symmetry; exact E2|]. split; [exact N | exact Q].
  Qed.
  Lemma mods_plain layer ms : In (layer, ms) mods -> plain_name layer /\ forall view l, In (view, l) ms -> plain_name view.
  Proof.
    intros H. destruct GM as [_ G]. destruct (G _ _ H) as [_ [vs [D HV]]]. apply dget_In in D. destruct GV as [_ G2]. destruct (G2 _ _ D) as [P [_ PV]]. split; [exact P|]. intros view l Hl. destruct (HV _ _ Hl) as [K _]. apply key_dget in K. destruct K as [sh K]. apply dget_In in K. exact (PV _ _ K).
  Qed.
  Lemma R_lacks key : key = "default" \/ key = "fallback" -> lacks key R.
  Proof.
    intros Hk. apply (lacks_trel _ key _ _ R_tree). unfold mod_tree. cbn [lacks].
    assert (NP : ~ plain_name key) by (intros [_ [N1 N2]]; destruct Hk; contradiction).
    assert (K : forall A B (f : A -> B) (d : list (string * A)), dkeys (map (fun x => (fst x, f (snd x))) d) = dkeys d) by (intros; unfold dkeys; now rewrite map_map).
    split.
    - rewrite (K _ _ (fun x => DDict (map (fun view => (fst view, DLeaf (0, VList (snd view)))) x))). intros H. apply key_dget in H. destruct H as [ms H]. apply dget_In in H. apply NP. apply (mods_plain _ _ H).
    - apply every_Forall. rewrite Forall_map. apply Forall_forall. intros [layer ms] H. cbn [fst snd lacks]. split.
      + rewrite (K _ _ (fun x => DLeaf (0, VList x))). intros H'. apply key_dget in H'. destruct H' as [l H']. apply dget_In in H'. apply NP. destruct (mods_plain _ _ H) as [_ PV]. exact (PV _ _ H').
      + apply every_Forall. rewrite Forall_map. apply Forall_forall. intros [view l] _. exact I.
  Qed.
  Lemma R_fits : fits R (empty_dict_from (view_tree s)).
  Proof.
    destruct R_entries as [d [ER F]]. assert (LD := R_lacks "default" (or_introl eq_refl)). assert (LF := R_lacks "fallback" (or_intror eq_refl)). rewrite ER in *.
    assert (KD : dkeys d = dkeys mods) by exact (F2_keys entries mods d F).
    assert (KE : forall A B (f : A -> B) (d : list (string * A)), dkeys (map (fun x => (fst x, f (snd x))) d) = dkeys d) by (intros; unfold dkeys; now rewrite map_map).
    assert (KS : dkeys (map (fun it => (fst it, empty_dict_from (snd it))) (map (fun it => (fst it, DDict (map (fun v => (fst v, DLeaf (snd v))) (snd it)))) s)) = dkeys s).
    { rewrite (KE _ _ empty_dict_from). apply (KE _ _ (fun x => DDict (map (fun v => (fst v, DLeaf (snd v))) x))). }
    unfold view_tree. cbn [empty_dict_from]. constructor.
    - apply check_references_None. intros ref Hr _. rewrite KS. unfold refs in *. rewrite KD in Hr. apply key_dget in Hr. destruct Hr as [ms Hr]. apply dget_In in Hr. destruct (mods_plain _ _ Hr) as [P _]. split; [now apply plain_valid|]. exists ref. split; [|apply glob_plain; [apply P | apply P | reflexivity]].
      destruct GM as [_ G]. destruct (G _ _ Hr) as [_ [vs [D _]]]. exact (dget_Some_key _ _ _ D).
    - intros x Hx. exfalso. apply (proj1 LD). exact (dget_Some_key _ _ _ Hx).
    - intros x Hx. exfalso. apply (proj1 LF). exact (dget_Some_key _ _ _ Hx).
    - intros ref R' k t Hr Hk [->|[_ Gl]]; [exfalso; apply (proj1 LD); exact (In_dkeys _ _ _ Hr)|].
      destruct (F2_In_r _ _ _ _ F Hr) as [[ref' ms] [Hm [E EN]]]. cbn [fst snd] in *. subst ref'. apply in_map_iff in Hk. destruct Hk as [[k' t0] [[= <- <-] Hk]]. apply in_map_iff in Hk. destruct Hk as [[k vs] [[= -> <-] Hk]]. cbn [fst snd] in *.
      destruct (mods_plain _ _ Hm) as [P PV]. destruct GV as [NS G2]. destruct (G2 _ _ Hk) as [P2 [_ PV2]]. apply glob_plain in Gl; [|apply P | apply P2]. subst k'.
      destruct GM as [_ G]. destruct (G _ _ Hm) as [_ [vs' [D HV]]]. apply dget_In in D. assert (vs' = vs) by exact (In_unique _ _ _ _ NS D Hk). subst vs'.
      destruct EN as [dv [-> FV]]. cbn [empty_dict_from]. assert (LD2 : lacks "default" (DDict dv)) by (destruct LD as [_ LD]; apply every_Forall in LD; rewrite Forall_forall in LD; exact (LD _ Hr)). assert (LF2 : lacks "fallback" (DDict dv)) by (destruct LF as [_ LF]; apply every_Forall in LF; rewrite Forall_forall in LF; exact (LF _ Hr)).
      assert (KV : dkeys dv = dkeys ms) by exact (F2_keys entry ms dv FV).
      constructor.
      + apply check_references_None. intros r2 Hr2 _. unfold refs in *. rewrite KV in Hr2. rewrite (KE _ _ empty_dict_from), (KE _ _ (fun x : list nat => DLeaf x)). apply key_dget in Hr2. destruct Hr2 as [l Hr2]. apply dget_In in Hr2. assert (P3 := PV _ _ Hr2). split; [now apply plain_valid|]. exists r2. split; [exact (proj1 (HV _ _ Hr2))|]. apply glob_plain; [apply P3 | apply P3 | reflexivity].
      + intros x Hx. exfalso. apply (proj1 LD2). exact (dget_Some_key _ _ _ Hx).
      + intros x Hx. exfalso. apply (proj1 LF2). exact (dget_Some_key _ _ _ Hx).
      + intros r2 R2 k2 t2 Hr2 _ _. destruct (F2_In_r _ _ _ _ FV Hr2) as [[v l] [_ [_ EN]]]. cbn [fst snd] in EN. destruct EN as [i [b [-> _]]]. constructor.
  Qed.
  Lemma R_selects layer view : plain_name layer -> plain_name view -> match lookup2 layer view mods with
    | Some l => exists k b, nth_error (leaves t') k = Some b /\ recreated (VList l) b /\ forall v, selects R [layer; view] v <-> v = k
    | None => forall v, ~ selects R [layer; view] v end.
  Proof.
    intros P PV. destruct R_entries as [d [ER F]]. assert (LD := R_lacks "default" (or_introl eq_refl)). rewrite ER in *. assert (KD : dkeys d = dkeys mods) by exact (F2_keys entries mods d F).
    destruct GM as [NM G]. assert (ND : NoDup (dkeys d)) by now rewrite KD.
    assert (S1 : forall v, selects (DDict d) [layer; view] v <-> exists x, dget layer d = Some x /\ selects x [view] v).
    { intros v. split.
      - inversion 1 as [|? ref x ? ? ? H1 H2 H3 H4|? x ? ? ? H1 H2 H3]; subst; [|exfalso; apply (proj1 LD); exact (In_dkeys _ _ _ H1)].
        destruct (F2_In_r _ _ _ _ F H1) as [[ref' ms] [Hm [E _]]]. cbn [fst snd] in E. subst ref'. destruct (mods_plain _ _ Hm) as [P2 _]. apply glob_plain in H3; [|apply P2 | apply P]. subst ref. exists x. split; [exact (In_dget _ _ _ ND H1) | exact H4].
      - intros [x [Hx Sx]]. apply (sel_ref d layer x); [exact (dget_In _ _ _ Hx) | apply P | apply glob_plain; [apply P | apply P | reflexivity] | exact Sx]. }
    assert (Q := F2_dget (fun _ => entries) mods d F layer). unfold lookup2. unfold dict, refs in *. destruct (dget layer mods) as [ms|] eqn:Em; destruct (dget layer d) as [x|] eqn:Ed; try contradiction.
    2: { intros v Sv. apply S1 in Sv. destruct Sv as [x [Hx _]]. discriminate Hx. }
    destruct Q as [dv [-> FV]]. assert (KV : dkeys dv = dkeys ms) by exact (F2_keys entry ms dv FV). assert (Hm := dget_In _ _ _ Em). destruct (G _ _ Hm) as [NV _]. assert (ND2 : NoDup (dkeys dv)) by now rewrite KV.
    assert (LD2 : lacks "default" (DDict dv)) by (destruct LD as [_ LD]; apply every_Forall in LD; rewrite Forall_forall in LD; exact (LD _ (dget_In _ _ _ Ed))).
    destruct (mods_plain _ _ Hm) as [_ PM].
    assert (S2 : forall v, selects (DDict dv) [view] v <-> exists x, dget view dv = Some x /\ selects x [] v).
    { intros v. split.
      - inversion 1 as [|? ref x ? ? ? H1 H2 H3 H4|? x ? ? ? H1 H2 H3]; subst; [|exfalso; apply (proj1 LD2); exact (In_dkeys _ _ _ H1)].
        destruct (F2_In_r _ _ _ _ FV H1) as [[ref' l] [Hl [E _]]]. cbn [fst snd] in E. subst ref'. assert (P2 := PM _ _ Hl). apply glob_plain in H3; [|apply P2 | apply PV]. subst ref. exists x. split; [exact (In_dget _ _ _ ND2 H1) | exact H4].
      - intros [x [Hx Sx]]. apply (sel_ref dv view x); [exact (dget_In _ _ _ Hx) | apply PV | apply glob_plain; [apply PV | apply PV | reflexivity] | exact Sx]. }
    assert (Q := F2_dget (fun _ => entry) ms dv FV view). unfold dict, refs in *. destruct (dget view ms) as [l|] eqn:El; destruct (dget view dv) as [x|] eqn:Ex; try contradiction.
    - destruct Q as [k [b [-> [N Rb]]]]. exists k, b. split; [exact N|]. split; [exact Rb|]. intros v. rewrite S1. split.
      + intros [x [[= <-] Sx]]. apply S2 in Sx. destruct Sx as [y [[= <-] Sy]]. inversion Sy as [? ? ? Hv| |]; subst. destruct Hv as [->|[]]. reflexivity.
      + intros ->. exists (DDict dv). split; [reflexivity|]. apply S2. exists (DLeaf [k]). split; [reflexivity|]. constructor. now left.
    - intros v Sv. apply S1 in Sv. destruct Sv as [x [[= <-] Sx]]. apply S2 in Sx. destruct Sx as [y [Hy _]]. discriminate Hy.
  Qed.
  Lemma load_modifiers : exists mods', set_modifiers s (number t' 0) = Some mods' /\ same_modifiers mods mods'.
  Proof.
    unfold set_modifiers. fold R.
    destruct (resolve_total (view_tree s) R (view_tree_nodup s GV) R_fits) as [[r [fb E]]|[_ [p [x [v1 [v2 [_ [_ [H _]]]]]]]]].
    2: { exfalso. exact (lacks_inherits "default" R p v1 (R_lacks "default" (or_introl eq_refl)) H). }
    rewrite E. rewrite (prune_empty (two_levels fb)).
    2: { intros l vs v x Hl Hv. destruct x as [|k x]; [reflexivity|]. exfalso. exact (lacks_inherits "fallback" R _ k (R_lacks "fallback" (or_intror eq_refl)) (fallback_entry s R r fb GV E l vs v (k :: x) Hl Hv k (or_introl eq_refl))). }
    assert (NM : forall layer view ws sh, dget layer s = Some ws -> dget view ws = Some sh -> plain_name layer /\ plain_name view).
    { intros layer view ws sh D1 D2. destruct GV as [_ G]. apply dget_In in D1. apply dget_In in D2. destruct (G _ _ D1) as [P [_ PV]]. split; [exact P | exact (PV _ _ D2)]. }
    (* the resolved value of a view *)
    assert (RV : forall layer view ws sh, dget layer s = Some ws -> dget view ws = Some sh -> exists x, get_by_parts r [layer; view] = Some (DLeaf x) /\
      match lookup2 layer view mods with Some l => exists k b, nth_error (leaves t') k = Some b /\ recreated (VList l) b /\ x = [k] | None => x = [] end).
    { intros layer view ws sh D1 D2. destruct (NM _ _ _ _ D1 D2) as [P PV]. assert (GT := view_tree_get _ _ _ _ _ D1 D2). destruct (resolve_spec _ _ _ _ _ _ E GT) as [x [lf [Gx [_ [_ [HS HN]]]]]]. exists x. split; [exact Gx|].
      assert (Q := R_selects layer view P PV). destruct (lookup2 layer view mods) as [l|].
      - destruct Q as [k [b [N [Rb S]]]]. exists k, b. split; [exact N|]. split; [exact Rb|]. assert (NX := resolve_nodup _ _ _ _ _ _ _ E GT Gx).
        assert (HX : forall v, In v x <-> v = k) by (intros v; rewrite <- S; apply HS; exists k; now apply S).
        destruct x as [|a [|a2 x]]; [exfalso; apply (HX k); reflexivity | f_equal; apply HX; now left|]. exfalso. assert (a = k) by (apply HX; now left). assert (a2 = k) by (apply HX; right; now left). inversion NX as [|? ? N1 _]. apply N1. left. congruence.
      - destruct (HN Q) as [HI _]. destruct x as [|a x]; [reflexivity|]. exfalso. exact (lacks_inherits "default" R _ a (R_lacks "default" (or_introl eq_refl)) (proj1 (HI a) (or_introl eq_refl))). }
    destruct (alike_resolve _ _ _ _ E) as [AR _]. destruct (two_levels_nodup s r GV AR) as [N1 N2].
    (* the copies *)
    assert (CP : forall layer view l k b, plain_name layer -> lookup2 layer view mods = Some l -> nth_error (leaves t') k = Some b -> recreated (VList l) b ->
      exists l', map_opt (fun v => copy_modifier_for v layer view) (flat_map (fun i => modifiers_of (leaf_value (number t' 0) i)) [k]) = Some l' /\ Forall2 (kept_modifier layer view) l l').
    { intros layer view l k b _ L N Rb. assert (FM : Forall modifier l).
      { unfold lookup2 in L. destruct (dget layer mods) as [ms|] eqn:Em; [|discriminate]. destruct GM as [_ G]. destruct (G _ _ (dget_In _ _ _ Em)) as [_ [vs [_ HV]]]. exact (proj2 (HV _ _ (dget_In _ _ _ L))). }
      assert (Sl : simple (VList l)) by (cbn [simple]; apply every_Forall; rewrite Forall_forall in *; intros v Hv; apply (FM v Hv)).
      assert (Q := recreated_restored _ _ Sl Rb). inversion Q as [| | | | |? l0 F| | | |]; subst. cbn [flat_map]. rewrite app_nil_r. unfold leaf_value. rewrite number_nth, N. cbn [option_map snd modifiers_of].
      clear - FM F. induction F as [|v v0 l l0 Hv _ IH]; [exists []; split; constructor|]. apply Forall_cons_iff in FM. destruct FM as [M1 M2]. destruct (IH M2) as [l' [E F']].
      assert (X : exists v', copy_modifier_for v0 layer view = Some v'). { destruct M1 as [_ M1]. destruct v; try contradiction. inversion Hv; subst. eexists. reflexivity. }
      destruct X as [v' X]. exists (v' :: l'). split; [|constructor; [exact (copy_kept _ _ _ _ _ M1 Hv X) | exact F']]. apply map_opt_F2. constructor; [exact X | now apply map_opt_F2]. }
    destruct (keyed_total2 (fun layer : string * list (string * list nat) => map_opt (fun view => option_map (pair (fst view)) (map_opt (fun v => copy_modifier_for v (fst layer) (fst view)) (flat_map (fun i => modifiers_of (leaf_value (number t' 0) i)) (snd view)))) (snd layer)) (prune_view_references (two_levels r))) as [m [Em _]].
    { intros [layer vs] Hl. cbn [fst snd]. destruct (keyed_total2 (fun view : string * list nat => map_opt (fun v => copy_modifier_for v layer (fst view)) (flat_map (fun i => modifiers_of (leaf_value (number t' 0) i)) (snd view))) vs) as [m [Em _]]; [|exists m; exact Em].
      intros [view x] Hv. cbn [fst snd]. destruct (prune_In _ _ _ _ _ Hl Hv) as [NE [vs0 [H0 H1]]]. destruct (resolved_entry s R r fb GV E _ _ _ _ H0 H1) as [ws [sh [D1 [D2 Gx]]]]. destruct (RV _ _ _ _ D1 D2) as [x' [Gx' Q]]. rewrite Gx in Gx'. injection Gx' as <-.
      destruct (lookup2 layer view mods) as [l|] eqn:L; [|contradiction]. destruct Q as [k [b [N [Rb ->]]]]. destruct (NM _ _ _ _ D1 D2) as [P _]. destruct (CP layer view l k b P L N Rb) as [l' [El _]]. exists l'. exact El. }
    exists m. assert (O : order_and_copy (number t' 0) (prune_view_references (two_levels r)) = Some m) by exact Em. split; [exact O|].
    destruct (order_lookup _ _ _ O) as [_ [HL _]]. intros layer view. rewrite HL. rewrite prune_spec by assumption.
    destruct (lookup2 layer view mods) as [l|] eqn:L.
    - assert (X : exists ws sh, dget layer s = Some ws /\ dget view ws = Some sh).
      { unfold lookup2 in L. destruct (dget layer mods) as [ms|] eqn:Ed; [|discriminate]. destruct GM as [_ G]. destruct (G _ _ (dget_In _ _ _ Ed)) as [_ [vs [D HV]]]. destruct (HV _ _ (dget_In _ _ _ L)) as [Kv _]. destruct (key_dget _ _ Kv) as [sh D2]. exists vs, sh. split; [exact D | exact D2]. }
      destruct X as [ws [sh [D1 D2]]]. destruct (RV _ _ _ _ D1 D2) as [x [Gx Q]]. rewrite L in Q. destruct Q as [k [b [N [Rb ->]]]]. rewrite (two_levels_get _ _ _ _ Gx). destruct (NM _ _ _ _ D1 D2) as [P _]. destruct (CP layer view l k b P L N Rb) as [l' [El F]]. rewrite El. exact F.
    - destruct (lookup2 layer view (two_levels r)) as [x|] eqn:Lx; [|exact I]. unfold lookup2 in Lx. destruct (dget layer (two_levels r)) as [vs|] eqn:Ev; [|discriminate]. apply dget_In in Ev. apply dget_In in Lx.
      destruct (resolved_entry s R r fb GV E _ _ _ _ Ev Lx) as [ws [sh [D1 [D2 Gx]]]]. destruct (RV _ _ _ _ D1 D2) as [x' [Gx' Q]]. rewrite Gx in Gx'. injection Gx' as <-. rewrite L in Q. subst x. exact I.
  Qed.
End LoadModifiers.
