(** Proofs about numpy's reshape (C64). *)
From Coq Require Import String List Arith Bool Lia.
From Verif Require Import PyBase PyFacts HubModel LayoutModel BuffersModel BuffersProofs FlattenModel.
Import ListNotations.
Open Scope list_scope.
Open Scope nat_scope.

Lemma prod_app l l' : prod (l ++ l') = prod l * prod l'.
Proof. unfold prod. induction l as [|n r IH]; cbn [app fold_right]; [lia|]. rewrite IH. lia. Qed.
Lemma prod_cons n r : prod (n :: r) = n * prod r.
Proof. reflexivity. Qed.
Lemma prod_pos l : Forall (fun n => 1 <= n) l -> 1 <= prod l.
Proof. unfold prod. induction 1 as [|n r Hn _ IH]; cbn [fold_right]; nia. Qed.
Definition shape_of (d : list (nat * nat)) : list nat := map fst d.
Lemma shape_app d e : shape_of (d ++ e) = shape_of d ++ shape_of e.
Proof. apply map_app. Qed.
Definition big (d : list (nat * nat)) : Prop := Forall (fun n => 2 <= n) (shape_of d).
Lemma big_pos d : big d -> Forall (fun n => 1 <= n) (shape_of d).
Proof. unfold big. apply Forall_impl. intros; lia. Qed.
Lemma prod_big l : Forall (fun n => 2 <= n) l -> l <> [] -> 2 <= prod l.
Proof.
  intros H N. destruct H as [|n r Hn Hr]; [contradiction|]. rewrite prod_cons.
  assert (1 <= prod r) by (apply prod_pos; eapply Forall_impl; [|exact Hr]; cbn; intros; lia). nia.
Qed.

(** ** Groups *)
Lemma group_spec fuel : forall np op ng og new old,
  prod ng = np -> prod (shape_of og) = op -> ng <> [] -> og <> [] ->
  Forall (fun n => 1 <= n) (ng ++ new) -> big (og ++ old) -> prod (ng ++ new) = prod (shape_of (og ++ old)) ->
  length new + length old <= fuel ->
  (forall p q, ng = p ++ q -> q <> [] -> prod p < op) ->
  (forall g h, og = g ++ h -> g <> [] -> h <> [] -> prod (shape_of g) < np) ->
  (forall g h p q, og = g ++ h -> g <> [] -> h <> [] -> ng = p ++ q -> prod p <> prod (shape_of g)) ->
  exists n1 o1 new' old', group fuel np op ng og new old = Some (ng ++ n1, og ++ o1, new', old') /\
    new = n1 ++ new' /\ old = o1 ++ old' /\ prod (ng ++ n1) = prod (shape_of (og ++ o1)) /\
    (forall g h p q, og ++ o1 = g ++ h -> g <> [] -> h <> [] -> ng ++ n1 = p ++ q -> prod p <> prod (shape_of g)).
Proof.
  induction fuel as [|fuel IH]; intros np op ng og new old Hn Ho Nn No Fn Bo Et Hf A B C.
  - destruct new; [|cbn [length] in Hf; lia]. destruct old; [|cbn [length] in Hf; lia]. rewrite !app_nil_r in Et. cbn [group].
    assert (E : np = op) by congruence. rewrite E, Nat.eqb_refl.
    exists [], [], [], []. rewrite !app_nil_r. auto 6.
  - cbn [group]. destruct (np =? op) eqn:E.
    + apply Nat.eqb_eq in E. exists [], [], new, old. rewrite !app_nil_r. split; [reflexivity|]. split; [reflexivity|]. split; [reflexivity|].
      split; [congruence|]. exact C.
    + apply Nat.eqb_neq in E. unfold shape_of in Et. rewrite prod_app, map_app, prod_app in Et. fold (shape_of og) (shape_of old) in Et. rewrite Hn, Ho in Et.
      destruct (np <? op) eqn:L.
      * apply Nat.ltb_lt in L. destruct new as [|n new].
        { exfalso. change (prod []) with 1 in Et.
          assert (1 <= prod (shape_of old)). { apply prod_pos, big_pos. unfold big in *. unfold shape_of in *. rewrite map_app in Bo. now apply Forall_app in Bo. } nia. }
        destruct (IH (np * n) op (ng ++ [n]) og new old) as [n1 [o1 [new' [old' [H1 [H2 [H3 [H4 H5]]]]]]]].
        -- rewrite prod_app, Hn. unfold prod. cbn. lia.
        -- exact Ho.
        -- now destruct ng.
        -- exact No.
        -- now rewrite <- app_assoc.
        -- exact Bo.
        -- rewrite <- app_assoc. cbn [app]. unfold shape_of. rewrite prod_app, map_app, prod_app. fold (shape_of og) (shape_of old). now rewrite Hn, Ho.
        -- cbn [length] in Hf. lia.
        -- intros p q Epq Nq. destruct (exists_last Nq) as [q' [x ->]]. rewrite app_assoc in Epq. apply app_inj_tail in Epq. destruct Epq as [Epq _].
           destruct q' as [|y q']; [rewrite app_nil_r in Epq; subst p; lia|]. apply (A p (y :: q')); [exact Epq|discriminate].
        -- intros g h Egh Ng Nh. assert (X := B g h Egh Ng Nh).
           assert (1 <= n). { rewrite Forall_app in Fn. destruct Fn as [_ Fn]. now inversion Fn. } nia.
        -- intros g h p q Egh Ng Nh Epq. destruct q as [|y q].
           { rewrite app_nil_r in Epq. subst p. rewrite prod_app, Hn. assert (X := B g h Egh Ng Nh).
             assert (1 <= n). { rewrite Forall_app in Fn. destruct Fn as [_ Fn]. now inversion Fn. } unfold prod at 1. cbn [fold_right]. nia. }
           destruct (exists_last (l := y :: q) ltac:(discriminate)) as [q' [x Eq]]. rewrite Eq, app_assoc in Epq. apply app_inj_tail in Epq. destruct Epq as [Epq _].
           now apply (C g h p q').
        -- exists (n :: n1), o1, new', old'. rewrite <- !app_assoc in H1, H4. cbn [app] in H1, H4. split; [exact H1|].
           split; [cbn [app]; now rewrite H2|]. split; [exact H3|]. split; [exact H4|]. intros g h p q. specialize (H5 g h p q). rewrite <- app_assoc in H5. exact H5.
      * apply Nat.ltb_ge in L. destruct old as [|o old].
        { exfalso. change (prod (shape_of [])) with 1 in Et.
          assert (1 <= prod new). { apply prod_pos. rewrite Forall_app in Fn. tauto. } nia. }
        destruct (IH np (op * fst o) ng (og ++ [o]) new old) as [n1 [o1 [new' [old' [H1 [H2 [H3 [H4 H5]]]]]]]].
        -- exact Hn.
        -- unfold shape_of. rewrite map_app, prod_app. fold (shape_of og). rewrite Ho. unfold prod. cbn. lia.
        -- exact Nn.
        -- now destruct og.
        -- exact Fn.
        -- rewrite <- app_assoc. exact Bo.
        -- rewrite <- app_assoc. cbn [app]. unfold shape_of. rewrite prod_app, map_app, prod_app. fold (shape_of og) (shape_of (o :: old)). now rewrite Hn, Ho.
        -- cbn [length] in Hf. lia.
        -- intros p q Epq Nq. assert (X := A p q Epq Nq).
           assert (2 <= fst o). { unfold big, shape_of in Bo. rewrite map_app, Forall_app in Bo. destruct Bo as [_ Bo]. now inversion Bo. } nia.
        -- intros g h Egh Ng Nh. destruct (exists_last Nh) as [h' [x ->]]. rewrite app_assoc in Egh. apply app_inj_tail in Egh. destruct Egh as [Egh _].
           destruct h' as [|y h']; [rewrite app_nil_r in Egh; subst g; lia|]. apply (B g (y :: h')); [exact Egh|exact Ng|discriminate].
        -- intros g h p q Egh Ng Nh Epq. destruct (exists_last Nh) as [h' [x ->]]. rewrite app_assoc in Egh. apply app_inj_tail in Egh. destruct Egh as [Egh _].
           destruct h' as [|y h'].
           { rewrite app_nil_r in Egh. subst g. destruct q as [|z q]; [rewrite app_nil_r in Epq; subst p; lia|].
             assert (X := A p (z :: q) Epq ltac:(discriminate)). lia. }
           apply (C g (y :: h') p q); auto. discriminate.
        -- exists n1, (o :: o1), new', old'. rewrite <- !app_assoc in H1, H4. cbn [app] in H1, H4. split; [exact H1|].
           split; [exact H2|]. split; [cbn [app]; now rewrite H3|]. split; [exact H4|]. intros g h p q. specialize (H5 g h p q). rewrite <- app_assoc in H5. exact H5.
Qed.

(** ** Contiguous groups *)
Lemma chained_split g d e h : chained (g ++ d :: e :: h) = true -> snd d = fst e * snd e.
Proof.
  induction g as [|x g IH]; cbn [app chained].
  - intros H. apply andb_prop in H. destruct H as [H _]. now apply Nat.eqb_eq.
  - destruct (g ++ d :: e :: h) as [|y r] eqn:E; [destruct g; discriminate|]. intros H. apply andb_prop in H. now apply IH.
Qed.
Lemma chained_intro g : (forall g1 d e g2, g = g1 ++ d :: e :: g2 -> snd d = fst e * snd e) -> chained g = true.
Proof.
  induction g as [|x g IH]; intros H; [reflexivity|]. cbn [chained]. destruct g as [|y g]; [reflexivity|].
  rewrite IH; [|intros g1 d e g2 E; apply (H (x :: g1) d e g2); now rewrite E].
  rewrite (H [] x y g eq_refl), Nat.eqb_refl. reflexivity.
Qed.

Lemma app_split {A} (l1 l2 l3 l4 : list A) : l1 ++ l2 = l3 ++ l4 ->
  (exists r, l1 = l3 ++ r /\ l4 = r ++ l2) \/ (exists r, l3 = l1 ++ r /\ l2 = r ++ l4).
Proof.
  revert l3. induction l1 as [|x l1 IH]; intros l3 H.
  - right. exists l3. auto.
  - destruct l3 as [|y l3]; [left; exists (x :: l1); auto|]. cbn [app] in H. injection H as -> H.
    destruct (IH l3 H) as [[r [-> ->]]|[r [-> ->]]]; [left|right]; exists r; auto.
Qed.

(** When is the reshaped array a view? *)
Definition break (old : list (nat * nat)) (g1 : list (nat * nat)) (d e : nat * nat) (g2 : list (nat * nat)) : Prop :=
  old = g1 ++ d :: e :: g2 /\ snd d <> fst e * snd e.
Lemma regroup_iff fuel : forall new old, length new <= fuel -> Forall (fun n => 1 <= n) new -> big old ->
  prod new = prod (shape_of old) ->
  ((exists r, regroup fuel new old = Some r) <->
   forall g1 d e g2, break old g1 d e g2 -> exists n1 n2, new = n1 ++ n2 /\ prod n1 = prod (shape_of (g1 ++ [d]))).
Proof.
  induction fuel as [|fuel IH]; intros new old Hf Fn Bo Et.
  - destruct new as [|n new]; [|cbn [length] in Hf; lia].
    assert (old = []).
    { destruct old as [|o old]; [reflexivity|]. exfalso. change (prod []) with 1 in Et.
      assert (2 <= prod (shape_of (o :: old))) by (apply prod_big; [exact Bo|discriminate]). lia. }
    subst old. cbn. split; [intros _ g1 d e g2 [H _]; destruct g1; discriminate|eauto].
  - destruct new as [|n new'].
    { assert (old = []).
      { destruct old as [|o old]; [reflexivity|]. exfalso. change (prod []) with 1 in Et.
        assert (2 <= prod (shape_of (o :: old))) by (apply prod_big; [exact Bo|discriminate]). lia. }
      subst old. cbn. split; [intros _ g1 d e g2 [H _]; destruct g1; discriminate|eauto]. }
    destruct old as [|o old'].
    { cbn. split; [intros _ g1 d e g2 [H _]; destruct g1; discriminate|eauto]. }
    cbn [regroup].
    destruct (group_spec (length new' + length old') n (fst o) [n] [o] new' old') as [n1 [o1 [new'' [old'' [G1 [G2 [G3 [G4 G5]]]]]]]];
      try (discriminate || assumption || reflexivity || (unfold prod, shape_of; cbn; lia)).
    { intros p q E Nq. destruct p as [|x p]; [|destruct p; [destruct q; [contradiction|discriminate E]|discriminate E]].
      unfold prod. cbn. unfold big, shape_of in Bo. cbn [map] in Bo. inversion Bo; lia. }
    { intros g h E Ng Nh. destruct g as [|x [|]]; [contradiction| |discriminate E]. destruct h; [contradiction|discriminate E]. }
    { intros g h p q E Ng Nh. destruct g as [|x [|]]; [contradiction| |discriminate E]. destruct h; [contradiction|discriminate E]. }
    rewrite G1. set (ng := [n] ++ n1) in *. set (og := [o] ++ o1) in *.
    assert (En : n :: new' = ng ++ new'') by (unfold ng; cbn [app]; now rewrite G2).
    assert (Eo : o :: old' = og ++ old'') by (unfold og; cbn [app]; now rewrite G3).
    rewrite En in Fn, Et. rewrite Eo in Bo, Et. rewrite En, Eo.
    assert (Fn1 : Forall (fun n => 1 <= n) ng) by (rewrite Forall_app in Fn; tauto).
    assert (Fn2 : Forall (fun n => 1 <= n) new'') by (rewrite Forall_app in Fn; tauto).
    assert (Bo1 : big og) by (unfold big, shape_of in *; rewrite map_app, Forall_app in Bo; tauto).
    assert (Bo2 : big old'') by (unfold big, shape_of in *; rewrite map_app, Forall_app in Bo; tauto).
    assert (Pg : 1 <= prod ng) by now apply prod_pos.
    assert (Et2 : prod new'' = prod (shape_of old'')).
    { unfold shape_of in *. rewrite prod_app, map_app, prod_app in Et. rewrite G4 in *. nia. }
    assert (Len : length new'' <= fuel).
    { apply (f_equal (@length nat)) in En. unfold ng in En. cbn [length app] in En. rewrite app_length in En. cbn [length] in Hf. lia. }
    specialize (IH new'' old'' Len Fn2 Bo2 Et2). destruct (chained og) eqn:Ch.
    + split.
      * intros [r Hr]. destruct (regroup fuel new'' old'') as [r'|] eqn:Er; [|discriminate Hr].
        assert (X := proj1 IH (ex_intro _ _ eq_refl)). intros g1 d e g2 [E Nb].
        assert (E' := E). change (d :: e :: g2) with ([d] ++ e :: g2) in E'. rewrite app_assoc in E'.
        destruct (app_split _ _ _ _ E') as [[rr [F1 F2]]|[rr [F1 F2]]].
        -- destruct rr as [|y rr].
           ++ rewrite app_nil_r in F1. exists ng, new''. split; [reflexivity|]. now rewrite <- F1.
           ++ exfalso. cbn [app] in F2. injection F2 as <- _. apply Nb. apply (chained_split g1 d e rr).
              rewrite <- app_assoc in F1. cbn [app] in F1. now rewrite <- F1.
        -- destruct (exists_last (l := g1 ++ [d]) ltac:(now destruct g1)) as [? [? _]].
           destruct rr as [|y rr].
           ++ rewrite app_nil_r in F1. exists ng, new''. split; [reflexivity|]. now rewrite F1.
           ++ destruct (exists_last (l := y :: rr) ltac:(discriminate)) as [r1 [z Ez]]. rewrite Ez in F1, F2. rewrite app_assoc in F1. apply app_inj_tail in F1.
              destruct F1 as [F1 <-]. rewrite <- app_assoc in F2. cbn [app] in F2.
              destruct (X r1 d e g2 (conj F2 Nb)) as [m1 [m2 [M1 M2]]]. exists (ng ++ m1), m2. split; [rewrite M1; now rewrite app_assoc|].
              rewrite F1. unfold shape_of in *. rewrite !map_app, !prod_app. rewrite map_app, prod_app in M2. rewrite M2, <- G4. lia.
      * intros H. assert (X : exists r, regroup fuel new'' old'' = Some r).
        { apply IH. intros g1 d e g2 [E Nb].
          destruct (H (og ++ g1) d e g2) as [m1 [m2 [M1 M2]]]; [split; [rewrite E; now rewrite <- app_assoc|exact Nb]|].
          assert (Big : 2 <= prod (shape_of (g1 ++ [d]))).
          { apply prod_big; [|now destruct g1]. unfold big, shape_of in *. rewrite E in Bo2. rewrite map_app in *. cbn [map] in *.
            rewrite Forall_app in *. destruct Bo2 as [K1 K2]. split; [exact K1|]. inversion K2; auto. }
          unfold shape_of in M2. rewrite <- app_assoc, map_app, prod_app in M2. fold (shape_of og) in M2. fold (shape_of (g1 ++ [d])) in M2. rewrite <- G4 in M2.
          destruct (app_split _ _ _ _ M1) as [[rr [F1 F2]]|[rr [F1 F2]]].
          - exfalso. assert (1 <= prod rr) by (apply prod_pos; rewrite F1, Forall_app in Fn1; tauto).
            rewrite F1, prod_app in M2. rewrite F1, prod_app in Pg. nia.
          - exists rr, m2. split; [exact F2|]. rewrite F1, prod_app in M2. nia. }
        destruct X as [r ->]. eauto.
    + split; [intros [r Hr]; discriminate Hr|]. intros H. exfalso.
      assert (Ch' : chained og = true); [|congruence].
      apply chained_intro. intros g1 d e g2 E. destruct (Nat.eq_dec (snd d) (fst e * snd e)) as [|Nb]; [assumption|]. exfalso.
      destruct (H g1 d e (g2 ++ old'')) as [m1 [m2 [M1 M2]]]; [split; [rewrite E; now rewrite <- app_assoc|exact Nb]|].
      assert (E' : og = (g1 ++ [d]) ++ e :: g2) by (rewrite E; now rewrite <- app_assoc).
      assert (Lt : prod (shape_of (g1 ++ [d])) < prod ng).
      { rewrite G4, E'. unfold shape_of. rewrite (map_app fst (g1 ++ [d])), prod_app. fold (shape_of (g1 ++ [d])) (shape_of (e :: g2)).
        unfold big, shape_of in Bo1. rewrite E', map_app, Forall_app in Bo1. destruct Bo1 as [K1 K2].
        assert (2 <= prod (shape_of (e :: g2))) by (apply prod_big; [exact K2|discriminate]).
        assert (1 <= prod (shape_of (g1 ++ [d]))) by (apply prod_pos; eapply Forall_impl; [|exact K1]; cbn; intros; lia). nia. }
      destruct (app_split _ _ _ _ M1) as [[rr [F1 F2]]|[rr [F1 F2]]].
      * apply (G5 (g1 ++ [d]) (e :: g2) m1 rr); [exact E'|now destruct g1|discriminate|exact F1|exact M2].
      * assert (1 <= prod rr). { apply prod_pos. rewrite F2, Forall_app in Fn2. tauto. } rewrite F1, prod_app in M2. nia.
Qed.

(** ** The elements in row-major order *)
Fixpoint flat_addr (d : list (nat * nat)) (k : nat) : nat :=
  match d with
  | [] => 0
  | x :: r => (k / prod (shape_of r)) * snd x + flat_addr r (k mod prod (shape_of r))
  end.
Lemma shape_scaled s shape : shape_of (scaled s shape) = shape.
Proof. unfold shape_of, scaled. rewrite map_map. cbn [fst]. apply c_dims_shape. Qed.
Lemma flat_addr_index d idx : Forall (fun n => 1 <= n) (shape_of d) -> Forall2 lt idx (shape_of d) ->
  dot_strides d idx = flat_addr d (ravel (shape_of d) idx).
Proof.
  revert idx. induction d as [|[n s] d IH]; intros idx P H; [now destruct idx|].
  cbn [shape_of map fst] in *. inversion P as [|? ? P1 P2]; subst. inversion H as [|i m is ms Hi Hs]; subst.
  unfold ravel. cbn [dot_strides c_dims flat_addr snd]. fold (shape_of d) in *. fold (ravel (shape_of d) is).
  assert (L := ravel_lt _ _ Hs). assert (D : prod (shape_of d) <> 0) by lia.
  rewrite Nat.div_add_l by exact D. rewrite Nat.div_small by exact L.
  rewrite Nat.add_comm with (n := i * prod (shape_of d)), Nat.mod_add by exact D. rewrite Nat.mod_small by exact L.
  rewrite IH by assumption. lia.
Qed.
Lemma flat_addr_app d d' k : Forall (fun n => 1 <= n) (shape_of (d ++ d')) -> k < prod (shape_of (d ++ d')) ->
  flat_addr (d ++ d') k = flat_addr d (k / prod (shape_of d')) + flat_addr d' (k mod prod (shape_of d')).
Proof.
  revert k. induction d as [|[n s] d IH]; intros k P Hk.
  - cbn [app flat_addr]. rewrite Nat.mod_small by exact Hk. reflexivity.
  - cbn [app flat_addr snd] in *. cbn [shape_of map fst] in P. inversion P as [|? ? P1 P2]; subst. fold (shape_of (d ++ d')) in P2.
    assert (Q : 1 <= prod (shape_of (d ++ d'))) by now apply prod_pos.
    assert (E : prod (shape_of (d ++ d')) = prod (shape_of d) * prod (shape_of d')) by (unfold shape_of; rewrite map_app; apply prod_app).
    rewrite IH; [|exact P2|apply Nat.mod_upper_bound; lia]. rewrite E in *.
    assert (prod (shape_of d) <> 0) by nia. assert (prod (shape_of d') <> 0) by nia.
    rewrite (Nat.mul_comm (prod (shape_of d))), <- Nat.div_div by assumption.
    rewrite Nat.add_assoc. f_equal.
    + f_equal. f_equal. rewrite Nat.mod_mul_r by assumption. rewrite Nat.add_comm, Nat.mul_comm, Nat.div_add_l by assumption.
      rewrite (Nat.div_small (k mod prod (shape_of d'))) by (apply Nat.mod_upper_bound; assumption). lia.
    + f_equal. rewrite Nat.mod_mul_r by assumption. rewrite Nat.mul_comm, Nat.mod_add by assumption.
      apply Nat.mod_mod. assumption.
Qed.
Lemma flat_addr_scaled s shape k : Forall (fun n => 1 <= n) shape -> k < prod shape -> flat_addr (scaled s shape) k = k * s.
Proof.
  revert k. induction shape as [|n r IH]; intros k P Hk.
  - cbn in *. unfold prod in Hk. cbn in Hk. lia.
  - inversion P as [|? ? P1 P2]; subst. unfold scaled. cbn [c_dims map fst snd flat_addr]. fold (scaled s r). rewrite shape_scaled.
    assert (1 <= prod r) by now apply prod_pos. rewrite IH; [|exact P2|apply Nat.mod_upper_bound; lia].
    assert (D := Nat.div_mod k (prod r) ltac:(lia)). nia.
Qed.
Lemma flat_addr_chained d k : Forall (fun n => 1 <= n) (shape_of d) -> chained d = true -> d <> [] -> k < prod (shape_of d) ->
  flat_addr d k = k * snd (last d (0, 0)).
Proof.
  revert k. induction d as [|[n s] d IH]; intros k P C N Hk; [contradiction|].
  cbn [shape_of map fst] in P. inversion P as [|? ? P1 P2]; subst. fold (shape_of d) in P2. cbn [flat_addr snd].
  destruct d as [|e d].
  - change (prod (shape_of [])) with 1. rewrite Nat.div_1_r. cbn [flat_addr last snd]. lia.
  - assert (C1 := C). change ((n, s) :: e :: d) with ([] ++ (n, s) :: e :: d) in C1. apply chained_split in C1. cbn [snd] in C1.
    assert (1 <= prod (shape_of (e :: d))) by now apply prod_pos.
    assert (C2 : chained (e :: d) = true) by (cbn [chained] in C; apply andb_prop in C; tauto).
    rewrite IH; [|exact P2|exact C2|discriminate|apply Nat.mod_upper_bound; lia].
    assert (D := Nat.div_mod k (prod (shape_of (e :: d))) ltac:(lia)).
    change (last ((n, s) :: e :: d) (0, 0)) with (last (e :: d) (0, 0)).
    assert (S : s = prod (shape_of (e :: d)) * snd (last (e :: d) (0, 0))).
    { rewrite C1. clear -C2. revert e C2. induction d as [|f d IH]; intros e C.
      - cbn. lia.
      - assert (X := C). change (e :: f :: d) with ([] ++ e :: f :: d) in X. apply chained_split in X.
        cbn [chained] in C. apply andb_prop in C. destruct C as [_ C]. apply IH in C. fold (chained (f :: d)) in C.
        change (last (e :: f :: d) (0, 0)) with (last (f :: d) (0, 0)). change (shape_of (e :: f :: d)) with (fst e :: shape_of (f :: d)).
        rewrite prod_cons, X, C. lia. }
    rewrite S at 1. nia.
Qed.
Lemma flat_addr_drop d k : Forall (fun n => 1 <= n) (shape_of d) -> k < prod (shape_of d) -> flat_addr (drop_ones d) k = flat_addr d k.
Proof.
  revert k. induction d as [|[n s] d IH]; intros k P Hk; [reflexivity|].
  cbn [shape_of map fst] in P. inversion P as [|? ? P1 P2]; subst. fold (shape_of d) in P2.
  assert (Q : 1 <= prod (shape_of d)) by now apply prod_pos.
  assert (E : prod (shape_of (drop_ones d)) = prod (shape_of d)).
  { clear. induction d as [|[n s] d IH]; [reflexivity|]. cbn [drop_ones filter fst]. destruct (Nat.eqb_spec n 1) as [->|N].
    - cbn [negb]. change (shape_of ((1, s) :: d)) with (1 :: shape_of d). rewrite prod_cons. fold (drop_ones d). rewrite IH. lia.
    - cbn [negb]. fold (drop_ones d). change (shape_of ((n, s) :: drop_ones d)) with (n :: shape_of (drop_ones d)).
      change (shape_of ((n, s) :: d)) with (n :: shape_of d). rewrite !prod_cons, IH. reflexivity. }
  cbn [drop_ones filter fst]. fold (drop_ones d). destruct (Nat.eqb_spec n 1) as [->|N]; cbn [negb flat_addr snd].
  - change (shape_of ((1, s) :: d)) with (1 :: shape_of d) in Hk. rewrite prod_cons in Hk.
    rewrite (Nat.div_small k) by lia. rewrite (Nat.mod_small k) by lia. rewrite IH by (assumption || lia). lia.
  - rewrite E. rewrite IH; [reflexivity|exact P2|apply Nat.mod_upper_bound; lia].
Qed.
Lemma drop_ones_prod d : prod (shape_of (drop_ones d)) = prod (shape_of d).
Proof.
  induction d as [|[n s] d IH]; [reflexivity|]. cbn [drop_ones filter fst]. destruct (Nat.eqb_spec n 1) as [->|N].
  - cbn [negb]. change (shape_of ((1, s) :: d)) with (1 :: shape_of d). rewrite prod_cons. fold (drop_ones d). rewrite IH. lia.
  - cbn [negb]. fold (drop_ones d). change (shape_of ((n, s) :: drop_ones d)) with (n :: shape_of (drop_ones d)).
    change (shape_of ((n, s) :: d)) with (n :: shape_of d). rewrite !prod_cons, IH. reflexivity.
Qed.
Lemma drop_ones_big d : Forall (fun n => 1 <= n) (shape_of d) -> big (drop_ones d).
Proof.
  unfold big. induction d as [|[n s] d IH]; intros P; [constructor|]. cbn [shape_of map fst] in P. inversion P as [|? ? P1 P2]; subst.
  cbn [drop_ones filter fst]. destruct (Nat.eqb_spec n 1) as [->|N]; cbn [negb]; [now apply IH|].
  cbn [shape_of map fst]. constructor; [lia|]. now apply IH.
Qed.

Lemma regroup_sound fuel : forall new old r, length new <= fuel -> Forall (fun n => 1 <= n) new -> big old ->
  prod new = prod (shape_of old) -> regroup fuel new old = Some r ->
  shape_of r = new /\ forall k, k < prod new -> flat_addr r k = flat_addr old k.
Proof.
  induction fuel as [|fuel IH]; intros new old r Hf Fn Bo Et H.
  - destruct new as [|n new]; [|cbn [length] in Hf; lia].
    assert (old = []).
    { destruct old as [|o old]; [reflexivity|]. exfalso. change (prod []) with 1 in Et.
      assert (2 <= prod (shape_of (o :: old))) by (apply prod_big; [exact Bo|discriminate]). lia. }
    subst old. cbn in H. injection H as <-. auto.
  - destruct new as [|n new'].
    { assert (old = []).
      { destruct old as [|o old]; [reflexivity|]. exfalso. change (prod []) with 1 in Et.
        assert (2 <= prod (shape_of (o :: old))) by (apply prod_big; [exact Bo|discriminate]). lia. }
      subst old. cbn in H. injection H as <-. auto. }
    destruct old as [|o old'].
    { cbn [regroup] in H. injection H as <-. split.
      - unfold shape_of. cbn [map fst]. rewrite map_map. cbn [fst]. now rewrite map_id.
      - intros k Hk. rewrite Et in Hk. unfold prod, shape_of in Hk. cbn in Hk. assert (k = 0) by lia. subst k.
        change ((n, 1) :: map (fun n0 => (n0, 1)) new') with (map (fun m : nat => (m, 1)) (n :: new')).
        change (flat_addr [] 0) with 0. clear. generalize (n :: new') as l. intros l. induction l as [|m l IHl]; [reflexivity|].
        cbn [map flat_addr snd]. destruct (prod (shape_of (map (fun n => (n, 1)) l))) as [|p] eqn:E.
        + cbn. exact IHl.
        + rewrite Nat.div_0_l, Nat.mod_0_l by discriminate. rewrite IHl. reflexivity. }
    cbn [regroup] in H.
    destruct (group_spec (length new' + length old') n (fst o) [n] [o] new' old') as [n1 [o1 [new'' [old'' [G1 [G2 [G3 [G4 G5]]]]]]]];
      try (discriminate || assumption || reflexivity || (unfold prod, shape_of; cbn; lia)).
    { intros p q E Nq. destruct p as [|x p]; [|destruct p; [destruct q; [contradiction|discriminate E]|discriminate E]].
      unfold prod. cbn. unfold big, shape_of in Bo. cbn [map] in Bo. inversion Bo; lia. }
    { intros g h E Ng Nh. destruct g as [|x [|]]; [contradiction| |discriminate E]. destruct h; [contradiction|discriminate E]. }
    { intros g h p q E Ng Nh. destruct g as [|x [|]]; [contradiction| |discriminate E]. destruct h; [contradiction|discriminate E]. }
    rewrite G1 in H. set (ng := [n] ++ n1) in *. set (og := [o] ++ o1) in *.
    assert (En : n :: new' = ng ++ new'') by (unfold ng; cbn [app]; now rewrite G2).
    assert (Eo : o :: old' = og ++ old'') by (unfold og; cbn [app]; now rewrite G3).
    assert (Len : length new'' <= fuel).
    { apply (f_equal (@length nat)) in En. unfold ng in En. cbn [length app] in En. rewrite app_length in En. cbn [length] in Hf. lia. }
    rewrite En in *. rewrite Eo in *.
    assert (Fn1 : Forall (fun n => 1 <= n) ng) by (rewrite Forall_app in Fn; tauto).
    assert (Fn2 : Forall (fun n => 1 <= n) new'') by (rewrite Forall_app in Fn; tauto).
    assert (Bo1 : big og) by (unfold big, shape_of in *; rewrite map_app, Forall_app in Bo; tauto).
    assert (Bo2 : big old'') by (unfold big, shape_of in *; rewrite map_app, Forall_app in Bo; tauto).
    assert (Pg : 1 <= prod ng) by now apply prod_pos.
    assert (Pn : 1 <= prod new'') by now apply prod_pos.
    assert (Et2 : prod new'' = prod (shape_of old'')).
    { unfold shape_of in *. rewrite prod_app, map_app, prod_app in Et. rewrite G4 in *. nia. }
    destruct (chained og) eqn:Ch; [|discriminate H]. destruct (regroup fuel new'' old'') as [r'|] eqn:Er; [|discriminate H].
    assert (Er' : r = scaled (snd (last og (0, 0))) ng ++ r') by congruence. clear H. subst r.
    destruct (IH new'' old'' r' Len Fn2 Bo2 Et2 Er) as [S1 S2].
    assert (S3 : shape_of (scaled (snd (last og (0, 0))) ng ++ r') = ng ++ new'') by (rewrite shape_app, shape_scaled, S1; reflexivity).
    split; [exact S3|]. intros k Hk. assert (Hk' := Hk). rewrite prod_app in Hk'.
    assert (Kd : k / prod new'' < prod ng) by (apply Nat.div_lt_upper_bound; lia).
    assert (Km : k mod prod new'' < prod new'') by (apply Nat.mod_upper_bound; lia).
    rewrite (flat_addr_app _ r') by (rewrite S3; assumption).
    rewrite (flat_addr_app og old''); [|now apply big_pos|rewrite shape_app, prod_app, <- G4, <- Et2; exact Hk'].
    rewrite S1, <- Et2, S2 by exact Km. f_equal.
    rewrite flat_addr_scaled by assumption. rewrite flat_addr_chained; [reflexivity|now apply big_pos|exact Ch|discriminate|].
    now rewrite <- G4.
Qed.

(** ** reshape *)
Definition positive_shape (l : list nat) : Prop := Forall (fun n => 1 <= n) l.
Lemma reshape_sound a new a' : positive_shape (a_shape a) -> positive_shape new -> reshape a new = RView a' ->
  a_shape a' = new /\
  forall i j, in_range a i -> in_range a' j -> ravel (a_shape a) i = ravel new j -> address a i = address a' j.
Proof.
  intros P Pn. unfold reshape. destruct (prod (a_shape a) =? prod new) eqn:E; [|discriminate]. apply Nat.eqb_eq in E.
  destruct (regroup (length new) new (drop_ones (a_dims a))) as [r|] eqn:H; [|discriminate]. intros [= <-].
  assert (Et : prod new = prod (shape_of (drop_ones (a_dims a)))) by (rewrite drop_ones_prod; symmetry; exact E).
  destruct (regroup_sound _ _ _ _ (le_n _) Pn (drop_ones_big _ P) Et H) as [S1 S2]. split; [exact S1|].
  intros i j Hi Hj Er. unfold address. cbn [a_off a_dims]. f_equal.
  unfold in_range, a_shape in Hi, Hj. cbn [a_dims] in Hj. fold (shape_of (a_dims a)) in Hi. fold (shape_of r) in Hj.
  rewrite (flat_addr_index (a_dims a) i P Hi).
  assert (Pr : Forall (fun n => 1 <= n) (shape_of r)) by (rewrite S1; exact Pn).
  rewrite (flat_addr_index r j Pr Hj). rewrite S1. unfold a_shape in Er. fold (shape_of (a_dims a)) in Er. rewrite Er.
  rewrite S2 by (apply ravel_lt; now rewrite <- S1). symmetry. apply flat_addr_drop; [exact P|].
  rewrite <- Er. now apply ravel_lt.
Qed.
Lemma reshape_iff a new : positive_shape (a_shape a) -> positive_shape new -> prod new = prod (a_shape a) ->
  ((exists a', reshape a new = RView a') <->
   forall g1 d e g2, break (drop_ones (a_dims a)) g1 d e g2 -> exists n1 n2, new = n1 ++ n2 /\ prod n1 = prod (shape_of (g1 ++ [d]))) /\
  (reshape a new = RCopy \/ exists a', reshape a new = RView a').
Proof.
  intros P Pn E. unfold reshape. rewrite E, Nat.eqb_refl.
  assert (Et : prod new = prod (shape_of (drop_ones (a_dims a)))) by (rewrite drop_ones_prod; exact E).
  rewrite <- (regroup_iff _ _ _ (le_n _) Pn (drop_ones_big _ P) Et).
  destruct (regroup (length new) new (drop_ones (a_dims a))) as [r|]; split.
  - split; eauto.
  - right. eauto.
  - split; intros [x Hx]; discriminate Hx.
  - now left.
Qed.

(** ** Arrays in a hub: rows of S values each, the features of a row adjacent *)
Definition hub_array (a : arr) (lead feat : list nat) (S : nat) : Prop := a_dims a = scaled S lead ++ c_dims feat.

Lemma scaled_chained S l : Forall (fun n => 1 <= n) l ->
  chained (drop_ones (scaled S l)) = true /\
  (forall d r, drop_ones (scaled S l) = d :: r -> fst d * snd d = prod l * S) /\
  (forall r d, drop_ones (scaled S l) = r ++ [d] -> snd d = S) /\
  (drop_ones (scaled S l) = [] <-> prod l = 1).
Proof.
  induction 1 as [|n l Hn Hl IH].
  - split; [reflexivity|]. split; [discriminate|]. split; [intros r d E; destruct r; discriminate E|]. split; [reflexivity|reflexivity].
  - destruct IH as [I1 [I2 [I3 I4]]]. unfold scaled. cbn [c_dims map fst snd]. fold (scaled S l).
    cbn [drop_ones filter fst]. fold (drop_ones (scaled S l)). rewrite prod_cons. assert (1 <= prod l) by now apply prod_pos.
    destruct (Nat.eqb_spec n 1) as [->|N]; cbn [negb].
    + rewrite Nat.mul_1_l. auto.
    + split; [|split; [|split]].
      * cbn [chained]. destruct (drop_ones (scaled S l)) as [|e r] eqn:E; [reflexivity|]. rewrite I1, Bool.andb_true_r. apply Nat.eqb_eq.
        cbn [snd]. symmetry. now apply (I2 e r).
      * intros d r [= <- _]. cbn [fst snd]. lia.
      * intros r d E. destruct (drop_ones (scaled S l)) as [|e r'] eqn:E'.
        -- destruct r as [|x [|]]; [|discriminate E|discriminate E]. injection E as <-. cbn [snd].
           assert (X := proj1 I4 eq_refl). rewrite X. lia.
        -- destruct r as [|x r]; [discriminate E|]. cbn [app] in E. injection E as _ E. apply (I3 r d). exact E.
      * split; [discriminate|]. intros X. nia.
Qed.
Lemma c_dims_scaled feat : c_dims feat = scaled 1 feat.
Proof.
  unfold scaled. induction feat as [|n r IH]; [reflexivity|]. cbn [c_dims map fst snd]. rewrite Nat.mul_1_r. now f_equal.
Qed.
Lemma hub_array_shape a lead feat S : hub_array a lead feat S -> a_shape a = lead ++ feat.
Proof. unfold hub_array, a_shape. intros ->. rewrite map_app. fold (shape_of (scaled S lead)). rewrite shape_scaled, c_dims_shape. reflexivity. Qed.

(** Exactly when a reshaped hub array is a view. *)
Lemma hub_reshape a lead feat S new : hub_array a lead feat S -> positive_shape (lead ++ feat) -> positive_shape new ->
  prod new = prod (lead ++ feat) ->
  ((exists a', reshape a new = RView a') <->
   prod lead = 1 \/ prod feat = 1 \/ S = prod feat \/ exists n1 n2, new = n1 ++ n2 /\ prod n1 = prod lead) /\
  (reshape a new = RCopy \/ exists a', reshape a new = RView a').
Proof.
  intros H P Pn E. assert (Sh := hub_array_shape _ _ _ _ H).
  destruct (reshape_iff a new) as [K1 K2]; [now rewrite Sh|exact Pn|now rewrite Sh|]. split; [|exact K2].
  rewrite K1. clear K1 K2. rewrite H. unfold drop_ones. rewrite filter_app. fold (drop_ones (scaled S lead)). fold (drop_ones (c_dims feat)).
  rewrite c_dims_scaled. unfold positive_shape in P. rewrite Forall_app in P. destruct P as [P1 P2].
  destruct (scaled_chained S lead P1) as [L1 [L2 [L3 L4]]]. destruct (scaled_chained 1 feat P2) as [F1 [F2 [F3 F4]]].
  assert (PL : prod (shape_of (drop_ones (scaled S lead))) = prod lead) by (rewrite drop_ones_prod, shape_scaled; reflexivity).
  set (L := drop_ones (scaled S lead)) in *. set (F := drop_ones (scaled 1 feat)) in *.
  split.
  - intros Hb. destruct (list_eq_dec (fun x y : nat * nat => ltac:(decide equality; apply Nat.eq_dec)) L []) as [EL|NL]; [left; now apply L4|].
    destruct (list_eq_dec (fun x y : nat * nat => ltac:(decide equality; apply Nat.eq_dec)) F []) as [EF|NF]; [right; left; now apply F4|].
    destruct (Nat.eq_dec S (prod feat)) as [ES|NS]; [right; right; now left|]. right. right. right.
    destruct (exists_last NL) as [g1 [d Ed]]. destruct F as [|e g2] eqn:EF; [contradiction|].
    destruct (Hb g1 d e g2) as [n1 [n2 [N1 N2]]].
    { split; [rewrite Ed, <- app_assoc; reflexivity|]. rewrite (L3 g1 d Ed), (F2 e g2 eq_refl). lia. }
    exists n1, n2. split; [exact N1|]. now rewrite N2, <- Ed.
  - intros Hc g1 d e g2 [Eb Nb].
    assert (Eb' : L ++ F = (g1 ++ [d]) ++ e :: g2) by (rewrite Eb, <- app_assoc; reflexivity).
    destruct (app_split _ _ _ _ Eb') as [[rr [R1 R2]]|[rr [R1 R2]]].
    + destruct rr as [|y rr].
      * rewrite app_nil_r in R1. cbn [app] in R2. rewrite <- R1.
        assert (S <> prod feat). { rewrite (L3 g1 d R1) in Nb. rewrite (F2 e g2 (eq_sym R2)) in Nb. lia. }
        destruct Hc as [Hc|[Hc|[Hc|[n1 [n2 [N1 N2]]]]]].
        -- apply L4 in Hc. rewrite Hc in R1. now destruct g1.
        -- apply F4 in Hc. rewrite Hc in R2. discriminate R2.
        -- contradiction.
        -- exists n1, n2. split; [exact N1|]. now rewrite PL.
      * exfalso. cbn [app] in R2. injection R2 as <- _. apply Nb. apply (chained_split g1 d e rr). rewrite <- app_assoc in R1. cbn [app] in R1. now rewrite <- R1.
    + destruct rr as [|y rr].
      * rewrite app_nil_r in R1. cbn [app] in R2. rewrite R1.
        assert (S <> prod feat). { rewrite (L3 g1 d (eq_sym R1)) in Nb. rewrite (F2 e g2 R2) in Nb. lia. }
        destruct Hc as [Hc|[Hc|[Hc|[n1 [n2 [N1 N2]]]]]].
        -- apply L4 in Hc. rewrite Hc in R1. now destruct g1.
        -- apply F4 in Hc. rewrite Hc in R2. discriminate R2.
        -- contradiction.
        -- exists n1, n2. split; [exact N1|]. now rewrite PL.
      * exfalso. destruct (exists_last (l := y :: rr) ltac:(discriminate)) as [r1 [z Ez]]. rewrite Ez in R1, R2. rewrite app_assoc in R1. apply app_inj_tail in R1.
        destruct R1 as [R1 <-]. apply Nb. apply (chained_split r1 d e g2). rewrite <- app_assoc in R2. cbn [app] in R2. now rewrite <- R2.
Qed.
