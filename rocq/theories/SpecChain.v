(** Lemmas for C71: architectures of programs and chains of layers. *)
From Coq Require Import String Ascii List ZArith QArith Bool Lia Arith Permutation Relations.
From Verif Require Import PyBase PyFacts UtilsModel UtilsProofs NamesModel NamesProofs NamesProps ArchModel ArchProofs ShapesModel SetupModel SetupProofs InstanceProofs InstanceProps NetLayoutProps NetMemoryModel NetMemoryProofs SpecModel SpecProofs.
Import ListNotations.
Open Scope string_scope.
Open Scope list_scope.
Open Scope nat_scope.

(** ** Names of layers are valid *)
Lemma ident_tail_app s t : ident_tail t = true -> forallb ident_char (chars s) = true -> ident_tail (s ++ t) = true.
Proof. induction s as [|c s IH]; cbn; intros Ht H; [exact Ht|]. apply andb_prop in H. destruct H as [-> H]. now apply IH. Qed.
Definition plain_name (s : string) : Prop := match s with "" => False | String c r => ident_start c = true /\ forallb ident_char (chars r) = true end.
Lemma digits_tail i : ident_tail (dec i) = true.
Proof.
  assert (H : forallb ident_char (chars (dec i)) = true).
  { apply forallb_forall. intros c Hc. assert (D := dec_digits i c Hc). revert D. clear. intros D. destruct c as [[] [] [] [] [] [] [] []]; try reflexivity; cbn in D; try discriminate; try contradiction; tauto. }
  replace (dec i) with (dec i ++ "")%string. - now apply ident_tail_app. - clear. induction (dec i); cbn; [reflexivity|now rewrite IHs].
Qed.
Lemma suffixed_valid b i : plain_name b -> is_valid_layer_name (suffixed b i) = true.
Proof.
  intros H. unfold is_valid_layer_name, suffixed.
  assert (S : smem (b ++ String "_" (dec i)) name_blacklist = false).
  { destruct (smem (b ++ String "_" (dec i)) name_blacklist) eqn:E; [|reflexivity]. exfalso. apply PyFacts.smem_In in E.
    assert (U : In "_"%char (chars (b ++ String "_" (dec i)))) by (rewrite chars_app; apply in_or_app; right; now left).
    destruct E as [E|[E|[]]]; rewrite <- E in U; cbn in U; intuition discriminate. }
  rewrite S. destruct b as [|c r]; [contradiction|]. destruct H as [Hc Hr]. cbn [append python_identifier]. rewrite Hc. cbn [andb]. apply ident_tail_app; [|exact Hr]. cbn [ident_tail]. change (ident_char "_") with true. apply digits_tail.
Qed.
Lemma name_form ops w a n : run ops empty_world = Some w -> layer_name w a = Some n ->
  exists b, nth_error (created ops) a = Some b /\ (n = b \/ exists i, n = suffixed b i).
Proof.
  intros R. assert (I := run_inv _ _ R). unfold layer_name. destruct (nth_error (w_layers w) a) as [la|] eqn:Ea; [|discriminate].
  destruct (nth_error (w_scopes w) (l_scope la)) as [d|]; [|discriminate].
  destruct (dget (l_base la) d) as [l|]; [|discriminate]. intros H. exists (l_base la). split.
  - rewrite <- (inv_base _ _ I). now apply map_nth_error.
  - destruct (length l =? 1).
    + injection H as <-. now left.
    + right. revert H. generalize 1. induction l as [|u l IH]; intros i; simpl; [discriminate|].
      destruct (match dget _ d with Some _ => _ | None => _ end) as [j|]; [|discriminate].
      destruct (u =? a); [intros [= <-]; now exists j|apply IH].
Qed.

(** ** The architecture of a program whose layers are all connected *)
Definition con_with (nm : nat -> string) (x : nat * string * string * nat) : connection :=
  match x with (a, o, i, b) => mkCon (nm a) o (nm b) (default_input i) end.
Lemma perm_some {A} (l1 l2 : list A) : Permutation (map Some l1) (map Some l2) -> Permutation l1 l2.
Proof.
  intros P. destruct l1 as [|d l1].
  - apply Permutation_nil in P. destruct l2; [constructor|discriminate].
  - apply (Permutation_map (fun o => match o with Some x => x | None => d end)) in P. rewrite !map_map, !map_id in P. exact P.
Qed.
Lemma with_kwargs_raw kws order ar : length order = length ar -> collect_unsorted (raw_of (with_kwargs kws order ar)) = Some (all_connections ar).
Proof.
  revert order. induction ar as [|[n [t o]] ar IH]; intros [|x order] L; try discriminate; [reflexivity|]. cbn in L. injection L as L.
  unfold with_kwargs, raw_of. cbn [combine map fst snd collect_unsorted collect_all_outgoing_connections r_out]. unfold with_kwargs, raw_of in IH. rewrite (IH _ L). reflexivity.
Qed.
Lemma with_kwargs_keys kws order ar : length order = length ar -> map fst (with_kwargs kws order ar) = map fst ar.
Proof.
  revert order. induction ar as [|[n [t o]] ar IH]; intros [|x order] L; try discriminate; [reflexivity|]. cbn in L. injection L as L. unfold with_kwargs in *. cbn. f_equal. now apply IH.
Qed.
Lemma with_kwargs_entry kws order ar i x n t o : nth_error order i = Some x -> nth_error ar i = Some (n, (t, o)) ->
  In (n, (mkRaw (TypeString t) (OutDict o), nth x kws [])) (with_kwargs kws order ar).
Proof.
  intros H1 H2. unfold with_kwargs. apply in_map_iff. exists (x, (n, (t, o))). split; [reflexivity|]. apply (nth_error_In _ i).
  revert ar i H1 H2. induction order as [|y order IH]; intros [|e ar] [|i] H1 H2; try discriminate; cbn in *; [congruence|now apply IH].
Qed.
Lemma collect_all_Permutation a u : collect_unsorted a = Some u -> exists cns, collect_all_connections a = Some cns /\ Permutation cns u.
Proof. intros E. unfold collect_all_connections. rewrite E. eexists. split; [reflexivity|apply isort_perm]. Qed.

Record program_arch (ops : list op) (kws : list kwargs) (nm : nat -> string) (ar : karch) (cns : list connection) : Prop := {
  pa_inj : forall x y, x < length (created ops) -> y < length (created ops) -> nm x = nm y -> x = y;
  pa_base : forall x b, nth_error (created ops) x = Some b -> (forall y, nth_error (created ops) y = Some b -> y = x) -> nm x = b;
  pa_keys : Permutation (map fst ar) (map nm (seq 0 (length (created ops))));
  pa_nodup : NoDup (map fst ar);
  pa_valid : forall n, In n (map fst ar) -> is_valid_layer_name n = true;
  pa_entry : forall x ty, nth_error (created_types ops) x = Some ty -> exists d, dget (nm x) ar = Some (mkRaw (TypeString ty) (OutDict d), nth x kws []);
  pa_all : forall n e, In (n, e) ar -> exists x ty d, x < length (created ops) /\ n = nm x /\ nth_error (created_types ops) x = Some ty /\ e = (mkRaw (TypeString ty) (OutDict d), nth x kws []);
  pa_cns : collect_all_connections (raw_of ar) = Some cns;
  pa_perm : Permutation cns (map (con_with nm) (wirings ops))
}.
Lemma created_types_length ops : length (created_types ops) = length (created ops).
Proof. induction ops as [|[t [n|]|a o i b] ops IH]; [reflexivity|cbn; f_equal; exact IH|cbn; f_equal; exact IH|exact IH]. Qed.
Lemma program_architecture ops kws w order : run ops empty_world = Some w -> 0 < length (created ops) -> (forall x, x < length (created ops) -> connected ops 0 x) ->
  Permutation order (seq 0 (length (created ops))) -> Forall plain_name (created ops) ->
  exists nm ar cns, architecture_in (mkProg ops kws) order = Some ar /\ program_arch ops kws nm ar cns /\ (forall x, x < length (created ops) -> layer_name w x = Some (nm x)).
Proof.
  intros R N0 CN PO PL. set (N := length (created ops)) in *. assert (I := run_inv _ _ R).
  set (nm := fun x => match layer_name w x with Some n => n | None => "" end).
  assert (NM : forall x, x < N -> layer_name w x = Some (nm x)). { intros x Hx. unfold nm. destruct (C01_names_total ops w x R Hx) as [n ->]. reflexivity. }
  assert (LN : nlayers w = N). { unfold nlayers, N. rewrite <- (inv_base _ _ I). now rewrite map_length. }
  destruct (C02_collect_connected ops w 0 R N0) as [l [Hl [NDl Ml]]].
  assert (Pl : Permutation order l).
  { rewrite PO. apply NoDup_Permutation; [apply seq_NoDup|exact NDl|]. intros x. rewrite in_seq, Ml. split.
    - intros H. apply CN. lia.
    - intros H. split; [lia|]. cbn [Nat.add]. destruct (Nat.eq_dec 0 x) as [<-|Ne]; [exact N0|]. destruct (connected_bound ops w 0 x I H Ne) as [_ Hb]. lia. }
  destruct (C02_generate_architecture_lossless ops w 0 l order R N0 Hl Pl) as [ar [G [E [ND P]]]].
  assert (Lo : length order = length ar). { apply (f_equal (@length _)) in E. rewrite !map_length in E. now symmetry. }
  assert (NDo : NoDup order) by (rewrite PO; apply seq_NoDup).
  assert (Io : forall x, In x order <-> x < N). { intros x. split; intros H. - apply (Permutation_in _ PO), in_seq in H. lia. - apply (Permutation_in _ (Permutation_sym PO)), in_seq. lia. }
  assert (K : map fst ar = map nm order).
  { clear P ND G. assert (Hn : forall x, In x order -> layer_name w x = Some (nm x)) by (intros x Hx; apply NM, Io, Hx). clear - E Hn. revert order E Hn. induction ar as [|[n [t o]] ar IH]; intros [|x order] E Hn; try discriminate; [reflexivity|].
    cbn in E |- *. injection E as E1 _ E2. rewrite (Hn x (or_introl eq_refl)) in E1. injection E1 as ->. f_equal. apply IH; [exact E2|]. intros y Hy. apply Hn. now right. }
  assert (INJ : forall x y, x < N -> y < N -> nm x = nm y -> x = y).
  { intros x y Hx Hy En. destruct (Nat.eq_dec x y) as [|Ne]; [assumption|]. exfalso.
    destruct (C01_names_unique ops w x y R) as [na [nb [Ha [Hb Nab]]]]; [eapply rst_trans; [apply rst_sym, CN, Hx|apply CN, Hy]|exact Ne|]. rewrite NM in Ha, Hb by assumption. congruence. }
  assert (Ent : forall i x, nth_error order i = Some x -> exists ty d, nth_error (created_types ops) x = Some ty /\ nth_error ar i = Some (nm x, (ty, d))).
  { intros i x Hi. destruct (nth_error ar i) as [[n [t o]]|] eqn:Ea; [|apply nth_error_None in Ea; assert (i < length order) by (apply nth_error_Some; congruence); lia].
    assert (E' := f_equal (fun l => nth_error l i) E). cbn beta in E'. rewrite (map_nth_error _ _ _ Ea), (map_nth_error _ _ _ Hi) in E'. cbn [fst snd] in E'. injection E' as E1 E2.
    rewrite NM in E1 by (apply Io; eapply nth_error_In; eauto). injection E1 as ->. exists t, o. split; [now symmetry|reflexivity]. }
  destruct (collect_all_Permutation _ _ (with_kwargs_raw kws order ar Lo)) as [cns [Hc Pc]].
  exists nm, (with_kwargs kws order ar), cns. split; [|split; [|exact NM]].
  { unfold architecture_in. cbn [pg_ops pg_kwargs]. rewrite R, G. reflexivity. }
  assert (NDa : NoDup (map fst (with_kwargs kws order ar))) by (rewrite with_kwargs_keys by exact Lo; exact ND).
  constructor.
  - exact INJ.
  - intros x b Hb U. assert (Hx : x < N) by (apply nth_error_Some; congruence). assert (H := C01_unshared_base_name ops w x b R Hb (fun y _ Hy => U y Hy)). rewrite NM in H by exact Hx. congruence.
  - rewrite with_kwargs_keys by exact Lo. rewrite K. now apply Permutation_map.
  - exact NDa.
  - intros n Hn. rewrite with_kwargs_keys in Hn by exact Lo. rewrite K in Hn. apply in_map_iff in Hn. destruct Hn as [x [<- Hx]]. apply Io in Hx.
    destruct (name_form ops w x (nm x) R (NM x Hx)) as [b [Hb H]]. assert (Ib := nth_error_In _ _ Hb). destruct H as [->|[i ->]].
    + now apply (inv_valid _ _ I).
    + apply suffixed_valid. rewrite Forall_forall in PL. now apply PL.
  - intros x ty Hty. assert (Hx : x < N). { unfold N. rewrite <- created_types_length. apply nth_error_Some. congruence. }
    destruct (In_nth_error order x (proj2 (Io x) Hx)) as [i Hi]. destruct (Ent i x Hi) as [ty' [d [H1 H2]]]. assert (ty' = ty) by congruence. subst ty'. exists d. apply In_dget; [exact NDa|]. eapply with_kwargs_entry; eassumption.
  - intros n e He. unfold with_kwargs in He. apply in_map_iff in He. destruct He as [[x [n' [t o]]] [[= <- <-] He]]. cbn [fst snd].
    apply In_nth_error in He. destruct He as [i He]. assert (H1 : nth_error order i = Some x /\ nth_error ar i = Some (n', (t, o))).
    { clear - He. revert ar i He. induction order as [|y order IH]; intros [|e ar] [|i] He; try discriminate; cbn in *; [now inversion He|now apply IH]. }
    destruct H1 as [H1 H2]. destruct (Ent i x H1) as [ty [d [H3 H4]]]. rewrite H4 in H2. injection H2 as <- <- <-. exists x, ty, d. split; [apply Io; eapply nth_error_In; eauto|]. split; [reflexivity|]. split; [exact H3|reflexivity].
  - exact Hc.
  - rewrite Pc. apply perm_some. rewrite P. rewrite map_map.
    assert (F : filter (fun x : nat * string * string * nat => match x with (s, _, _, _) => nmem s order end) (wirings ops) = wirings ops).
    { assert (B : forall a o i b, In (a, o, i, b) (wirings ops) -> nmem a order = true). { intros a o i b H. destruct (inv_wire_lt _ _ I a o i b H) as [Ha _]. apply existsb_exists. exists a. split; [apply Io; lia|apply Nat.eqb_refl]. }
      revert B. generalize (wirings ops). induction l0 as [|[[[a o] i] b] r IH]; intros B; [reflexivity|]. cbn [filter]. rewrite (B a o i b (or_introl eq_refl)). f_equal. apply IH. intros a' o' i' b' H. apply (B a' o' i' b'). now right. }
    rewrite F. apply Permutation_refl'. apply map_ext_in. intros [[[a o] i] b] H. destruct (inv_wire_lt _ _ I a o i b H) as [Ha Hb]. unfold con_of, con_with. rewrite !NM by lia. reflexivity.
Qed.

(** ** The canonical order of a chain *)
Section Chain.
  Variables (a : raw_arch) (cns : list connection) (names : list string).
  Hypothesis C : collect_all_connections a = Some cns.
  Hypothesis K : Permutation (dkeys a) names.
  Hypothesis ND : NoDup names.
  Hypothesis H1 : forall k, In k cns -> exists i j, i < j /\ nth_error names i = Some (c_start k) /\ nth_error names j = Some (c_end k).
  Hypothesis H2 : forall i x y, nth_error names i = Some x -> nth_error names (S i) = Some y -> exists k, In k cns /\ c_start k = x /\ c_end k = y.

  Lemma nth_NoDup i j x : nth_error names i = Some x -> nth_error names j = Some x -> i = j.
  Proof. intros Hi Hj. apply (proj1 (NoDup_nth_error names) ND); [apply nth_error_Some; congruence|congruence]. Qed.
  Lemma filter_one (f : string -> bool) l x : NoDup l -> In x l -> (forall y, In y l -> f y = true <-> y = x) -> filter f l = [x].
  Proof.
    induction l as [|y l IH]; intros N I F; [contradiction|]. inversion_clear N. cbn [filter]. destruct (f y) eqn:E.
    - assert (y = x) by (apply F; [now left|exact E]). subst y. f_equal. assert (G : forall z, In z l -> f z = false).
      { intros z Hz. destruct (f z) eqn:Ez; [|reflexivity]. assert (z = x) by (apply F; [now right|exact Ez]). subst. contradiction. }
      revert G. clear. induction l as [|z l IH]; intros G; [reflexivity|]. cbn. rewrite (G z (or_introl eq_refl)). apply IH. intros u Hu. apply G. now right.
    - destruct I as [->|I]; [exfalso; rewrite (proj2 (F x (or_introl eq_refl)) eq_refl) in E; discriminate|]. apply IH; [assumption|exact I|]. intros z Hz. apply F. now right.
  Qed.
  Lemma round_one todo x done : names = todo ++ x :: done -> round_layers (dkeys a) cns (rev done) = [x].
  Proof.
    intros E. assert (Nx : nth_error names (length todo) = Some x) by (rewrite E, nth_error_app2, Nat.sub_diag by lia; reflexivity).
    assert (D : forall y j, nth_error names j = Some y -> (In y (rev done) <-> length todo < j)).
    { intros y j Hj. rewrite <- in_rev. split.
      - intros I. apply In_nth_error in I. destruct I as [m Hm]. assert (Hm' : nth_error names (length todo + S m) = Some y) by (rewrite E, nth_error_app2 by lia; replace (length todo + S m - length todo) with (S m) by lia; exact Hm).
        assert (j = length todo + S m) by (eapply nth_NoDup; eassumption). lia.
      - intros L. rewrite E, nth_error_app2 in Hj by lia. destruct (j - length todo) eqn:Ej; [lia|]. cbn in Hj. eapply nth_error_In; eauto. }
    unfold round_layers. apply filter_one.
    - eapply Permutation_NoDup; [symmetry; exact K|exact ND].
    - apply (Permutation_in _ (Permutation_sym K)). rewrite E. apply in_elt.
    - intros y Hy. apply (Permutation_in _ K) in Hy. apply In_nth_error in Hy. destruct Hy as [i Hi]. rewrite andb_true_iff, negb_true_iff, forallb_forall. split.
      + intros [A B]. assert (NL : ~ length todo < i). { intros L. apply (D y i Hi) in L. apply PyFacts.smem_In in L. congruence. }
        destruct (Nat.eq_dec i (length todo)) as [->|Ne]; [congruence|]. exfalso.
        destruct (nth_error names (S i)) as [z|] eqn:Ez; [|apply nth_error_None in Ez; rewrite E, app_length in Ez; cbn in Ez; lia].
        destruct (H2 i y z Hi Ez) as [k [Ik [Sk Ek]]]. specialize (B k Ik). rewrite Sk, String.eqb_refl, Ek in B. apply PyFacts.smem_In in B. apply (D z _ Ez) in B. lia.
      + intros ->. assert (i = length todo) by (eapply nth_NoDup; eassumption). subst i. split.
        * destruct (smem x (rev done)) eqn:Es; [|reflexivity]. apply PyFacts.smem_In, (D x _ Hi) in Es. lia.
        * intros k Ik. destruct (String.eqb_spec (c_start k) x) as [Ex|]; [|reflexivity]. destruct (H1 k Ik) as [p [q [L [Hp Hq]]]]. rewrite Ex in Hp.
          assert (p = length todo) by (eapply nth_NoDup; eassumption). subst p. apply PyFacts.smem_In. now apply (D _ q Hq).
  Qed.
  Lemma round_none : round_layers (dkeys a) cns (rev names) = [].
  Proof.
    unfold round_layers. assert (G : forall y, In y (dkeys a) -> smem y (rev names) = true) by (intros y Hy; apply PyFacts.smem_In, in_rev; rewrite rev_involutive; eapply Permutation_in; eassumption).
    revert G. generalize (dkeys a). intros ks. induction ks as [|y l IH]; intros G; [reflexivity|]. cbn [filter]. rewrite (G y (or_introl eq_refl)). cbn [negb andb]. apply IH. intros z Hz. apply G. now right.
  Qed.
  Lemma loop_chain todo : forall done fuel, names = todo ++ done -> length todo < fuel -> order_loop fuel (dkeys a) cns (rev done) = Some (rev names).
  Proof.
    induction todo as [|x todo IH] using rev_ind; intros done fuel E F; (destruct fuel as [|fuel]; [lia|]); cbn [order_loop].
    - cbn in E. subst done. now rewrite round_none.
    - rewrite <- app_assoc in E. cbn [app] in E. rewrite (round_one _ _ _ E). change (sorted_desc [x]) with [x]. change (rev done ++ [x]) with (rev (x :: done)). apply IH; [exact E|]. rewrite app_length in F. cbn in F. lia.
  Qed.
  Lemma chain_order : get_canonical_layer_order a = OrderOk names.
  Proof.
    unfold get_canonical_layer_order. rewrite C. assert (L := Permutation_length K). unfold dkeys in L. rewrite map_length in L.
    assert (O := loop_chain names [] (S (length a)) ltac:(now rewrite app_nil_r) ltac:(lia)). change (rev (@nil string)) with (@nil string) in O. rewrite O.
    assert (F : filter (fun l => negb (smem l (rev names))) (dkeys a) = []).
    { assert (G : forall y, In y (dkeys a) -> smem y (rev names) = true) by (intros y Hy; apply PyFacts.smem_In, in_rev; rewrite rev_involutive; eapply Permutation_in; eassumption).
      revert G. generalize (dkeys a). intros ks. induction ks as [|y l IH]; intros G; [reflexivity|]. cbn [filter]. rewrite (G y (or_introl eq_refl)). cbn [negb]. apply IH. intros z Hz. apply G. now right. }
    rewrite F, rev_involutive. reflexivity.
  Qed.
End Chain.

(** ** Instantiating a chain *)
Lemma dkeys_raw ar : dkeys (raw_of ar) = map fst ar.
Proof. unfold dkeys, raw_of. rewrite map_map. reflexivity. Qed.
Lemma program_validated ops kws nm ar cns x : program_arch ops kws nm ar cns -> nm x = "Input" -> nth_error (created_types ops) x = Some "Input" -> x < length (created ops) ->
  (forall a o i b, In (a, o, i, b) (wirings ops) -> b < length (created ops) /\ b <> x) -> validate_architecture (raw_of ar) = Accepted.
Proof.
  intros PA En Et Hx W. apply validate_spec; [rewrite dkeys_raw; apply (pa_nodup _ _ _ _ _ PA)|]. split; [|split].
  - intros n l H. unfold raw_of in H. apply in_map_iff in H. destruct H as [[n' e] [[= <- <-] H]]. destruct (pa_all _ _ _ _ _ PA _ _ H) as [y [ty [d [Hy [-> [_ ->]]]]]]. cbn [fst r_type r_out].
    split; [now exists ty|]. split; [right; now exists d|]. apply (pa_valid _ _ _ _ _ PA). change (nm y) with (fst (nm y, (mkRaw (TypeString ty) (OutDict d), nth y kws []))). now apply in_map.
  - exists cns. split; [exact (pa_cns _ _ _ _ _ PA)|]. intros c Hc. apply (Permutation_in _ (pa_perm _ _ _ _ _ PA)), in_map_iff in Hc. destruct Hc as [[[[a o] i] b] [<- Hw]]. cbn [con_with c_end].
    destruct (W _ _ _ _ Hw) as [Hb Nb]. split.
    + rewrite dkeys_raw. apply (Permutation_in _ (Permutation_sym (pa_keys _ _ _ _ _ PA))). apply in_map, in_seq. lia.
    + rewrite <- En. intros E. apply Nb. now apply (pa_inj _ _ _ _ _ PA).
  - destruct (pa_entry _ _ _ _ _ PA x _ Et) as [d Hd]. rewrite En in Hd. apply dget_In in Hd. exists (mkRaw (TypeString "Input") (OutDict d)). split; [|reflexivity].
    unfold raw_of. change ("Input", mkRaw (TypeString "Input") (OutDict d)) with ((fun e : string * (raw_layer * kwargs) => (fst e, fst (snd e))) ("Input", (mkRaw (TypeString "Input") (OutDict d), nth x kws []))). now apply in_map.
Qed.
Lemma con_set_In p cns k : In k (con_set p cns) <-> In k cns /\ p k = true.
Proof. unfold con_set. rewrite nodup_In, filter_In. reflexivity. Qed.
Lemma con_none p cns : (forall k, In k cns -> p k = false) -> con_set p cns = [].
Proof.
  intros H. destruct (con_set p cns) as [|k r] eqn:E; [reflexivity|]. assert (I : In k (con_set p cns)) by (rewrite E; now left). apply con_set_In in I. destruct I as [I P]. rewrite (H k I) in P. discriminate.
Qed.
Lemma con_one p cns k0 : (forall k, In k cns /\ p k = true <-> k = k0) -> con_set p cns = [k0].
Proof.
  intros H. assert (P : Permutation (con_set p cns) [k0]).
  { apply NoDup_Permutation; [apply NoDup_nodup|repeat constructor; intros []|]. intros k. rewrite con_set_In, H. cbn. intuition congruence. }
  apply Permutation_sym in P. apply Permutation_length_1_inv in P. exact P.
Qed.
Lemma con_two p cns k1 k2 : k1 <> k2 -> (forall k, In k cns /\ p k = true <-> k = k1 \/ k = k2) -> Permutation (con_set p cns) [k1; k2].
Proof.
  intros N H. apply NoDup_Permutation; [apply NoDup_nodup|repeat constructor; cbn; intuition|]. intros k. rewrite con_set_In, H. cbn. intuition congruence.
Qed.

Section Run.
  Variables (ar : karch) (cns : list connection) (N : nat -> string) (tot : nat).
  Hypothesis INJ : forall p q, p < tot -> q < tot -> N p = N q -> p = q.
  Definition numbered (layers : list linst) : Prop := map li_name layers = map N (seq 0 (length layers)) /\ length layers <= tot.
  Lemma find_at layers p l : numbered layers -> nth_error layers p = Some l -> find (fun l => String.eqb (li_name l) (N p)) layers = Some l.
  Proof.
    intros [E T] H. assert (Lp : p < length layers) by (apply nth_error_Some; congruence).
    assert (NM : forall q l', nth_error layers q = Some l' -> li_name l' = N q).
    { intros q l' Hq. assert (q < length layers) by (apply nth_error_Some; congruence). assert (E' := f_equal (fun x => nth_error x q) E). cbn beta in E'. rewrite (map_nth_error _ _ _ Hq) in E'. rewrite (map_nth_error N q (seq 0 (length layers)) (d := q)) in E'; [now injection E'|]. rewrite (nth_error_nth' _ 0) by (rewrite seq_length; lia). now rewrite seq_nth by lia. }
    assert (G : forall ls k, (forall q l', nth_error ls q = Some l' -> nth_error layers (k + q) = Some l') -> forall m, nth_error ls m = Some l -> k + m = p -> find (fun l => String.eqb (li_name l) (N p)) ls = Some l).
    { induction ls as [|x ls IH]; intros k Sk m Hm Ek; [destruct m; discriminate|]. cbn [find]. assert (Hx := Sk 0 x eq_refl). rewrite Nat.add_0_r in Hx. rewrite (NM k x Hx). destruct (String.eqb_spec (N k) (N p)) as [En|].
      - assert (k < length layers) by (apply nth_error_Some; congruence). assert (k = p) by (apply INJ; [lia|lia|exact En]). subst k. congruence.
      - destruct m as [|m]; [cbn in Hm; exfalso; apply n; f_equal; lia|]. apply (IH (S k)) with (m := m); [|exact Hm|lia]. intros q l' Hq. replace (S k + q) with (k + S q) by lia. now apply Sk. }
    apply (G layers 0) with (m := p); [auto|exact H|lia].
  Qed.
  Lemma source_at layers p l out e i b : numbered layers -> nth_error layers p = Some l -> component out -> dget out (li_out l) = Some b -> source_shape layers (mkCon (N p) out e i) = SOk b.
  Proof.
    intros F H C D. unfold source_shape. cbn [c_start c_out]. rewrite (find_at _ _ _ F H). rewrite path2 by (exact C || (apply component_b_ok; reflexivity)). unfold get_shape. rewrite partition_component by (cbn; intuition discriminate).
    change (String.eqb "outputs" "parameters") with false. change (String.eqb "outputs" "inputs") with false. change (String.eqb "outputs" "outputs") with true. cbn iota. rewrite split_dot_nodot by apply C. now rewrite D.
  Qed.
  Lemma grow layers l p : numbered layers -> length layers = p -> p < tot -> li_name l = N p -> numbered (layers ++ [l]).
  Proof.
    intros [E T] L Hp En. split.
    - rewrite map_app, app_length. cbn [map length]. rewrite Nat.add_1_r, seq_S, map_app, E, En. cbn. now rewrite L.
    - rewrite app_length. cbn. lia.
  Qed.
  (** A layer with one input *)
  Lemma step_one layers p ty c d kw k f ctx l' : dget (N p) ar = Some (mkRaw (TypeString ty) d, kw) -> get_layer_class ty = SOk c ->
    con_set (fun k => String.eqb (c_end k) (N p)) cns = [k] -> c_in k = "default" -> source_shape layers k = SOk (tb f ctx false) -> f <> [] ->
    make_layer c (N p) [("default", tb f 0 false)] [k] (con_set (fun k => String.eqb (c_start k) (N p)) cns) kw = SOk l' ->
    instantiate_one ar cns layers (N p) = SOk (layers ++ [l']).
  Proof.
    intros D G I Ck S Nf M. unfold instantiate_one. rewrite D. cbn [r_type]. rewrite G. cbn [sbind]. rewrite I.
    assert (E : input_structures layers [k] = SOk [("default", tb f 0 false)]).
    { unfold input_structures. cbn [map]. rewrite Ck. change (nodup string_dec ["default"]) with ["default"]. cbn [smap]. unfold input_structure. cbn [filter]. rewrite Ck, String.eqb_refl. cbn [smap]. rewrite S. cbn [sbind]. rewrite combine_one by exact Nf. reflexivity. }
    rewrite E. cbn [sbind]. rewrite M. reflexivity.
  Qed.
  (** A layer with two inputs *)
  Lemma step_two layers p ty c d kw k1 k2 f1 f2 ctx1 ctx2 : dget (N p) ar = Some (mkRaw (TypeString ty) d, kw) -> get_layer_class ty = SOk c ->
    Permutation (con_set (fun k => String.eqb (c_end k) (N p)) cns) [k1; k2] -> c_in k1 <> c_in k2 -> source_shape layers k1 = SOk (tb f1 ctx1 false) -> source_shape layers k2 = SOk (tb f2 ctx2 false) -> f1 <> [] -> f2 <> [] ->
    exists ins, Permutation ins [(c_in k1, tb f1 0 false); (c_in k2, tb f2 0 false)] /\
    forall l', make_layer c (N p) ins (con_set (fun k => String.eqb (c_end k) (N p)) cns) (con_set (fun k => String.eqb (c_start k) (N p)) cns) kw = SOk l' ->
      instantiate_one ar cns layers (N p) = SOk (layers ++ [l']).
  Proof.
    intros D G P Nk S1 S2 N1 N2. unfold instantiate_one. rewrite D. cbn [r_type]. rewrite G. cbn [sbind].
    assert (T : forall x y fx fy cx cy, c_in x <> c_in y -> source_shape layers x = SOk (tb fx cx false) -> source_shape layers y = SOk (tb fy cy false) -> fx <> [] -> fy <> [] ->
      input_structures layers [x; y] = SOk [(c_in x, tb fx 0 false); (c_in y, tb fy 0 false)]).
    { clear. intros x y fx fy cx cy Nk S1 S2 N1 N2. unfold input_structures. cbn [map nodup]. destruct (in_dec string_dec (c_in x) [c_in y]) as [[E|[]]|_]; [congruence|]. destruct (in_dec string_dec (c_in y) []) as [[]|_].
      cbn [smap]. unfold input_structure. cbn [filter]. rewrite !String.eqb_refl. assert (E1 : String.eqb (c_in y) (c_in x) = false) by (apply String.eqb_neq; congruence). assert (E2 : String.eqb (c_in x) (c_in y) = false) by (apply String.eqb_neq; congruence).
      rewrite E1, E2. cbn [smap]. rewrite S1, S2. cbn [sbind]. rewrite !combine_one by assumption. reflexivity. }
    destruct (Permutation_length_2_inv (Permutation_sym P)) as [E|E]; rewrite E.
    - rewrite (T k1 k2 f1 f2 ctx1 ctx2) by assumption. eexists. split; [reflexivity|]. intros l' M. cbn [sbind]. rewrite M. reflexivity.
    - rewrite (T k2 k1 f2 f1 ctx2 ctx1) by (assumption || congruence). eexists. split; [apply perm_swap|]. intros l' M. cbn [sbind]. rewrite M. reflexivity.
  Qed.
  Lemma step_input layers p d kw l' : dget (N p) ar = Some (mkRaw (TypeString "Input") d, kw) -> con_set (fun k => String.eqb (c_end k) (N p)) cns = [] ->
    make_layer CInput (N p) [] [] (con_set (fun k => String.eqb (c_start k) (N p)) cns) kw = SOk l' -> instantiate_one ar cns layers (N p) = SOk (layers ++ [l']).
  Proof.
    intros D I M. unfold instantiate_one. rewrite D. cbn [r_type]. change (get_layer_class "Input") with (SOk CInput). cbn [sbind]. rewrite I. cbn [input_structures map nodup smap sbind]. unfold input_structures. cbn [map nodup smap sbind]. rewrite M. reflexivity.
  Qed.
  Lemma loop_app names1 names2 layers mid : instantiate_loop ar cns names1 layers = SOk mid -> instantiate_loop ar cns (names1 ++ names2) layers = instantiate_loop ar cns names2 mid.
  Proof.
    revert layers. induction names1 as [|n r IH]; intros layers H; cbn in *; [now injection H as ->|]. destruct (instantiate_one ar cns layers n); cbn in *; [now apply IH|discriminate].
  Qed.
End Run.
