(** Properties of random states and initializers: C33, C34, C51. *)
From Coq Require Import String List Arith Bool Reals Lra Lia Permutation Sorting.Sorted FunctionalExtensionality.
From Verif Require Import PyBase PyFacts RandomModel.
Import ListNotations.
Open Scope string_scope.
Open Scope list_scope.
Open Scope nat_scope.

(** * C51 *)
Section States.
  Variable G : generator.
  Notation rstate := (rstate G).
  Notation op := (op G).

  (** What happens to one RandomState seen in isolation. *)
  Inductive lop := LDraw (k : g_K G) | LSeed (s : nat) | LReset | LGen.
  Definition lstep (r : rstate) (p : lop) : rstate * option (out G) :=
    match p with
    | LDraw k => let '(v, st) := g_draw G k (r_st G r) in (mkRstate G (r_seed G r) st, Some (Value G v))
    | LSeed s => (mkRstate G s (g_seed G s), None)
    | LReset => (mkRstate G (r_seed G r) (g_seed G (r_seed G r)), None)
    | LGen => let '(n, st) := g_int G (r_st G r) in (mkRstate G (r_seed G r) st, Some (Seed G n))
    end.
  Fixpoint lrun (r : rstate) (ps : list lop) : rstate * list (out G) :=
    match ps with
    | [] => (r, [])
    | p :: q => let '(r1, o) := lstep r p in let '(r2, os) := lrun r1 q in (r2, match o with Some x => x :: os | None => os end)
    end.
  (** The part of a global operation that concerns object [o]; creating a
      generator without a seed draws a seed from its parent (global_rnd for
      RandomState()). *)
  Definition concerns (o : nat) (p : op) : option lop :=
    match p with
    | New _ None => if o =? 0 then Some LGen else None
    | New _ (Some _) => None
    | Draw _ o' k => if o =? o' then Some (LDraw k) else None
    | SetSeed _ o' s => if o =? o' then Some (LSeed s) else None
    | Reset _ o' => if o =? o' then Some LReset else None
    | GenSeed _ o' => if o =? o' then Some LGen else None
    | Create _ o' None => if o =? o' then Some LGen else None
    | Create _ _ (Some _) => None
    | Pickle _ _ => None
    end.
  Definition project (o : nat) (ps : list op) : list lop := flat_map (fun p => match concerns o p with Some l => [l] | None => [] end) ps.

  Lemma upd_same h o (r r0 : rstate) : nth_error h o = Some r0 -> nth_error (upd G h o r) o = Some r.
  Proof.
    intros H. unfold upd. assert (L : length (firstn o h) = o) by (rewrite firstn_length; apply Nat.min_l; assert (o < length h) by (apply nth_error_Some; congruence); lia).
    rewrite nth_error_app2 by lia. rewrite L, Nat.sub_diag. reflexivity.
  Qed.
  Lemma upd_other h o o' (r r0 : rstate) : nth_error h o' = Some r0 -> o <> o' -> nth_error (upd G h o' r) o = nth_error h o.
  Proof.
    unfold upd. revert o o'. induction h as [|x h IH]; intros o o' H N; [destruct o'; discriminate|]. destruct o' as [|o'].
    - destruct o as [|o]; [congruence|]. reflexivity.
    - destruct o as [|o]; [reflexivity|]. cbn [nth_error] in H. exact (IH o o' H ltac:(congruence)).
  Qed.
  Lemma upd_length h o (r r0 : rstate) : nth_error h o = Some r0 -> length (upd G h o r) = length h.
  Proof. intros H. unfold upd. assert (o < length h) by (apply nth_error_Some; congruence). rewrite app_length, firstn_length. cbn [length]. rewrite skipn_length. lia. Qed.
  Lemma nth_app_keep {X} (h : list X) x o r : nth_error h o = Some r -> nth_error (h ++ [x]) o = Some r.
  Proof. intros H. rewrite nth_error_app1; [assumption|]. apply nth_error_Some. congruence. Qed.

  Lemma step_local h o r p : nth_error h o = Some r ->
    nth_error (fst (step G h p)) o = Some (match concerns o p with Some l => fst (lstep r l) | None => r end).
  Proof.
    intros H. destruct p as [[s|]|o' k|o' s|o'|o'|o' [s|]|o']; cbn [step concerns].
    - cbn [fst]. now apply nth_app_keep.
    - destruct (nth_error h 0) as [r0|] eqn:E0; [|destruct h; [destruct o; discriminate | discriminate]].
      destruct (g_int G (r_st G r0)) as [s st] eqn:Eg. cbn [fst]. apply nth_app_keep. destruct (Nat.eqb_spec o 0) as [->|N].
      + rewrite E0 in H. injection H as <-. cbn [lstep]. rewrite Eg. cbn [fst]. now apply (upd_same _ _ _ r0).
      + rewrite (upd_other _ _ _ _ r0) by assumption. assumption.
    - destruct (nth_error h o') as [r0|] eqn:E0.
      + destruct (g_draw G k (r_st G r0)) as [v st] eqn:Eg. cbn [fst]. destruct (Nat.eqb_spec o o') as [->|N].
        * rewrite E0 in H. injection H as <-. cbn [lstep]. rewrite Eg. cbn [fst]. now apply (upd_same _ _ _ r0).
        * rewrite (upd_other _ _ _ _ r0) by assumption. assumption.
      + cbn [fst]. destruct (Nat.eqb_spec o o') as [->|N]; [congruence | assumption].
    - destruct (nth_error h o') as [r0|] eqn:E0; cbn [fst]; destruct (Nat.eqb_spec o o') as [->|N].
      + rewrite E0 in H. injection H as <-. cbn [lstep fst]. now apply (upd_same _ _ _ r0).
      + rewrite (upd_other _ _ _ _ r0) by assumption. assumption.
      + congruence.
      + assumption.
    - destruct (nth_error h o') as [r0|] eqn:E0; cbn [fst]; destruct (Nat.eqb_spec o o') as [->|N].
      + rewrite E0 in H. injection H as <-. cbn [lstep fst]. now apply (upd_same _ _ _ r0).
      + rewrite (upd_other _ _ _ _ r0) by assumption. assumption.
      + congruence.
      + assumption.
    - destruct (nth_error h o') as [r0|] eqn:E0.
      + destruct (g_int G (r_st G r0)) as [v st] eqn:Eg. cbn [fst]. destruct (Nat.eqb_spec o o') as [->|N].
        * rewrite E0 in H. injection H as <-. cbn [lstep]. rewrite Eg. cbn [fst]. now apply (upd_same _ _ _ r0).
        * rewrite (upd_other _ _ _ _ r0) by assumption. assumption.
      + cbn [fst]. destruct (Nat.eqb_spec o o') as [->|N]; [congruence | assumption].
    - destruct (nth_error h o') as [r0|] eqn:E0; cbn [fst]; [now apply nth_app_keep | assumption].
    - destruct (nth_error h o') as [r0|] eqn:E0.
      + destruct (g_int G (r_st G r0)) as [v st] eqn:Eg. cbn [fst]. apply nth_app_keep. destruct (Nat.eqb_spec o o') as [->|N].
        * rewrite E0 in H. injection H as <-. cbn [lstep]. rewrite Eg. cbn [fst]. now apply (upd_same _ _ _ r0).
        * rewrite (upd_other _ _ _ _ r0) by assumption. assumption.
      + cbn [fst]. destruct (Nat.eqb_spec o o') as [->|N]; [congruence | assumption].
    - destruct (nth_error h o') as [r0|] eqn:E0; cbn [fst]; [now apply nth_app_keep | assumption].
  Qed.

  (** Whatever happens to other objects, and whatever objects are created: the
      state of a RandomState only depends on what is done to itself. *)
  Theorem C51_isolated : forall ps h o r, nth_error h o = Some r ->
    nth_error (fst (run G h ps)) o = Some (fst (lrun r (project o ps))).
  Proof.
    induction ps as [|p ps IH]; intros h o r H; [exact H|].
    cbn [run project flat_map]. assert (S := step_local h o r p H). destruct (step G h p) as [h1 x] eqn:E. cbn [fst] in S.
    destruct (concerns o p) as [l|].
    - assert (Q := IH h1 o _ S). destruct (run G h1 ps) as [h2 os]. cbn [fst] in *. cbn [app lrun]. destruct (lstep r l) as [r1 o1] eqn:El. cbn [fst] in *.
      rewrite Q. unfold project. destruct (lrun r1 _) as [r2 os2]. reflexivity.
    - assert (Q := IH h1 o _ S). destruct (run G h1 ps) as [h2 os]. cbn [fst] in *. exact Q.
  Qed.

  (** The values drawn from it by [Draw] and [GenSeed], too. *)
  Fixpoint visible (o : nat) (ps : list op) (os : list (out G)) : list (out G) :=
    match ps, os with
    | p :: ps', x :: os' =>
        match p with
        | Draw _ o' _ | GenSeed _ o' => if o =? o' then x :: visible o ps' os' else visible o ps' os'
        | _ => visible o ps' os'
        end
    | _, _ => []
    end.
  Definition direct (p : op) : bool := match p with New _ None => false | Create _ _ None => false | _ => true end.
  Theorem C51_values : forall ps h o r, nth_error h o = Some r -> forallb direct ps = true ->
    visible o ps (snd (run G h ps)) = snd (lrun r (project o ps)).
  Proof.
    induction ps as [|p ps IH]; intros h o r H D; [reflexivity|]. cbn [forallb] in D. apply andb_true_iff in D. destruct D as [D1 D2].
    cbn [run project flat_map]. assert (S := step_local h o r p H). destruct (step G h p) as [h1 x] eqn:E. cbn [fst] in S.
    destruct (run G h1 ps) as [h2 os] eqn:R. cbn [snd]. unfold project.
    destruct p as [[s|]|o' k|o' s|o'|o'|o' [s|]|o']; cbn [concerns direct visible] in *; try discriminate D1;
      try (assert (Q := IH h1 o _ S D2); rewrite R in Q; cbn [snd] in Q; exact Q);
      destruct (Nat.eqb_spec o o') as [Eo|N]; try (assert (Q := IH h1 o _ S D2); rewrite R in Q; cbn [snd] in Q; exact Q).
    - subst o'. cbn [step] in E. rewrite H in E. destruct (g_draw G k (r_st G r)) as [v st] eqn:Eg. injection E as _ <-. cbn [app lrun lstep]. rewrite Eg. cbn [lstep fst] in S. rewrite Eg in S. cbn [fst] in S.
      assert (Q := IH h1 o _ S D2). rewrite R in Q. cbn [snd] in Q. rewrite Q. unfold project. destruct (lrun _ _). reflexivity.
    - cbn [app lrun lstep]. assert (Q := IH h1 o _ S D2). rewrite R in Q. cbn [snd lstep fst] in Q. rewrite Q. unfold project. destruct (lrun _ _). reflexivity.
    - cbn [app lrun lstep]. assert (Q := IH h1 o _ S D2). rewrite R in Q. cbn [snd lstep fst] in Q. rewrite Q. unfold project. destruct (lrun _ _). reflexivity.
    - subst o'. cbn [step] in E. rewrite H in E. destruct (g_int G (r_st G r)) as [v st] eqn:Eg. injection E as _ <-. cbn [app lrun lstep]. rewrite Eg. cbn [lstep fst] in S. rewrite Eg in S. cbn [fst] in S.
      assert (Q := IH h1 o _ S D2). rewrite R in Q. cbn [snd] in Q. rewrite Q. unfold project. destruct (lrun _ _). reflexivity.
  Qed.

  Lemma lrun_app r ps qs : fst (lrun r (ps ++ qs)) = fst (lrun (fst (lrun r ps)) qs).
  Proof.
    revert r. induction ps as [|p ps IH]; intros r; [reflexivity|]. cbn [app lrun]. destruct (lstep r p) as [r1 o]. specialize (IH r1).
    destruct (lrun r1 (ps ++ qs)). destruct (lrun r1 ps). exact IH.
  Qed.
  Lemma lrun_seed ps : forall r, (forall s, ~ In (LSeed s) ps) -> r_seed G (fst (lrun r ps)) = r_seed G r.
  Proof.
    induction ps as [|p ps IH]; intros r N; [reflexivity|]. cbn [lrun]. destruct (lstep r p) as [r1 o] eqn:E. specialize (IH r1 ltac:(intros s Hs; exact (N s (or_intror Hs)))).
    destruct (lrun r1 ps) as [r2 os]. cbn [fst] in *. rewrite IH. destruct p as [k|s| |]; cbn [lstep] in E.
    - destruct (g_draw G k (r_st G r)). injection E as <- _. reflexivity.
    - exfalso. exact (N s (or_introl eq_refl)).
    - injection E as <- _. reflexivity.
    - destruct (g_int G (r_st G r)). injection E as <- _. reflexivity.
  Qed.
  Lemma project_app o ps qs : project o (ps ++ qs) = project o ps ++ project o qs.
  Proof. unfold project. apply flat_map_app. Qed.

  (** Seeding with [s], anything but re-seeding, reset: the state is that of a
      new RandomState(s), and so is everything that is drawn afterwards. *)
  Theorem C51_reset : forall ps qs h o s r, nth_error h o = Some r ->
    (forall p, In p ps -> forall s', p <> SetSeed G o s') -> forallb direct qs = true ->
    let h1 := fst (run G h (SetSeed G o s :: ps ++ [Reset G o])) in
    nth_error h1 o = Some (mkRstate G s (g_seed G s)) /\
    visible o qs (snd (run G h1 qs)) = snd (lrun (mkRstate G s (g_seed G s)) (project o qs)).
  Proof.
    intros ps qs h o s r H N D h1. assert (E : nth_error h1 o = Some (mkRstate G s (g_seed G s))).
    { unfold h1. rewrite (C51_isolated _ _ _ _ H). f_equal. change (SetSeed G o s :: ps ++ [Reset G o]) with ([SetSeed G o s] ++ (ps ++ [Reset G o])). rewrite !project_app, !lrun_app.
      unfold project at 1. cbn [flat_map concerns]. rewrite Nat.eqb_refl. cbn [app lrun lstep fst]. unfold project at 2. cbn [flat_map concerns]. rewrite Nat.eqb_refl. cbn [app lrun lstep fst].
      rewrite lrun_seed; [reflexivity|]. intros s' Hs. unfold project in Hs. apply in_flat_map in Hs. destruct Hs as [p [Hp Hs]].
      assert (Np := N p Hp). destruct p as [[z|]|o' k|o' z|o'|o'|o' [z|]|o']; cbn [concerns] in Hs; try contradiction;
        try (destruct (Nat.eqb_spec o o') as [->|]; [|contradiction]); try (destruct (o =? 0); [|contradiction]); destruct Hs as [Hs|[]]; try discriminate Hs. injection Hs as ->. exact (Np s' eq_refl). }
    split; [assumption|]. now apply C51_values.
  Qed.

  (** A restored copy starts in the state of the original and keeps its seed. *)
  Theorem C51_pickle : forall h o r, nth_error h o = Some r ->
    nth_error (fst (step G h (Pickle G o))) (length h) = Some r /\ nth_error (fst (step G h (Pickle G o))) o = Some r.
  Proof.
    intros h o r H. cbn [step]. rewrite H. cbn [fst]. split; [rewrite nth_error_app2, Nat.sub_diag by lia; reflexivity | now apply nth_app_keep].
  Qed.
  (** Derived generators are reproducible: the new object is seeded with the next
      seed of its parent. *)
  Theorem C51_derived : forall h o r s st, nth_error h o = Some r -> g_int G (r_st G r) = (s, st) ->
    nth_error (fst (step G h (Create G o None))) (length h) = Some (mkRstate G s (g_seed G s)) /\
    nth_error (fst (step G h (Create G o None))) o = Some (mkRstate G (r_seed G r) st).
  Proof.
    intros h o r s st H E. cbn [step]. rewrite H, E. cbn [fst]. split.
    - rewrite <- (upd_length h o (mkRstate G (r_seed G r) st) r H). rewrite nth_error_app2, Nat.sub_diag by lia. reflexivity.
    - apply nth_app_keep. now apply (upd_same _ _ _ r).
  Qed.
  (** Given a seed, a new object only depends on it, and nothing else changes; without a
      seed, RandomState() draws one from the global generator. *)
  Theorem C51_created : forall h s,
    step G h (New G (Some s)) = (h ++ [mkRstate G s (g_seed G s)], Done G) /\
    (forall o, o < length h -> step G h (Create G o (Some s)) = (h ++ [mkRstate G s (g_seed G s)], Done G)) /\
    (forall r s2 st, nth_error h 0 = Some r -> g_int G (r_st G r) = (s2, st) ->
       nth_error (fst (step G h (New G None))) (length h) = Some (mkRstate G s2 (g_seed G s2)) /\
       nth_error (fst (step G h (New G None))) 0 = Some (mkRstate G (r_seed G r) st)).
  Proof.
    intros h s. split; [reflexivity|]. split.
    - intros o Ho. cbn [step]. destruct (nth_error h o) eqn:E; [reflexivity|]. apply nth_error_None in E. lia.
    - intros r s2 st H E. cbn [step]. rewrite H, E. cbn [fst]. split.
      + rewrite <- (upd_length h 0 (mkRstate G (r_seed G r) st) r H). rewrite nth_error_app2, Nat.sub_diag by lia. reflexivity.
      + apply nth_app_keep. now apply (upd_same _ _ _ r).
  Qed.
End States.
Print Assumptions C51_isolated.
Print Assumptions C51_created.
Print Assumptions C51_values.
Print Assumptions C51_reset.
Print Assumptions C51_pickle.
Print Assumptions C51_derived.
(** A small generator: x -> 5 x + 3 modulo 64. *)
Definition lcg : generator := mkGenerator nat unit nat (fun s => s) (fun _ s => (s, (5 * s + 3) mod 64)) (fun s => (s, (5 * s + 3) mod 64)).
Example C51_case : run lcg [fresh lcg 7] [New lcg None; SetSeed lcg 1 9; Draw lcg 1 tt; Draw lcg 0 tt; Create lcg 1 None; Draw lcg 2 tt; Reset lcg 1; Draw lcg 1 tt; Draw lcg 1 tt]
  = ([mkRstate lcg 7 1; mkRstate lcg 9 51; mkRstate lcg 48 51],
     [Done lcg; Done lcg; Value lcg 9; Value lcg 38; Done lcg; Value lcg 48; Done lcg; Value lcg 9; Value lcg 48]).
Proof. reflexivity. Qed.

(** * C33, C34 *)
Section Initializers.
  Variable St : Type.
  Variable seed_state : nat -> St.
  Variable gen_seed : St -> nat * St.
  Variable shuffle : nat -> St -> (nat -> nat) * St.
  Notation init := (init St).
  Notation evaluate := (evaluate St seed_state gen_seed shuffle).
  Notation evaluate_initializer := (evaluate_initializer St seed_state gen_seed shuffle).
  Notation initialize := (initialize St seed_state gen_seed shuffle).

  (** The objects an initializer consists of. *)
  Fixpoint ids (i : init) : list nat :=
    match i with
    | Scalar _ _ => []
    | Simple _ id _ => [id]
    | Lstm _ id a b c d => id :: ids a ++ ids b ++ ids c ++ ids d
    | Sparse _ _ id sub _ => id :: ids sub
    end.
  Fixpoint parts (i : init) : list init :=
    i :: match i with
         | Lstm _ _ a b c d => parts a ++ parts b ++ parts c ++ parts d
         | Sparse _ _ _ sub _ => parts sub
         | _ => []
         end.
  Definition own (i : init) : option nat :=
    match i with Scalar _ _ => None | Simple _ id _ => Some id | Lstm _ id _ _ _ _ => Some id | Sparse _ _ id _ _ => Some id end.
  (** Python objects: the same identity means the same object. *)
  Definition consistent (i : init) : Prop := forall a b id, In a (parts i) -> In b (parts i) -> own a = Some id -> own b = Some id -> a = b.

  (** The value does not depend on random numbers at all. *)
  Inductive fixed : init -> Prop :=
  | fixed_scalar c : fixed (Scalar _ c)
  | fixed_simple id body : (forall sh s s', fst (body sh s) = fst (body sh s')) -> fixed (Simple _ id body)
  | fixed_lstm id a b c d : fixed a -> fixed b -> fixed c -> fixed d -> fixed (Lstm _ id a b c d).
  (** Everything that is random is seeded: sparse initializers only contain fixed
      ones. *)
  Inductive seeded : init -> Prop :=
  | seeded_scalar c : seeded (Scalar _ c)
  | seeded_simple id body : seeded (Simple _ id body)
  | seeded_lstm id a b c d : seeded a -> seeded b -> seeded c -> seeded d -> seeded (Lstm _ id a b c d)
  | seeded_sparse inputs id sub k : fixed sub -> seeded (Sparse _ inputs id sub k).

  Lemma parts_self i : In i (parts i).
  Proof. destruct i; now left. Qed.
  Fixpoint isize (i : init) : nat :=
    match i with Lstm _ _ a b c d => S (isize a + isize b + isize c + isize d) | Sparse _ _ _ sub _ => S (isize sub) | _ => 1 end.
  Lemma parts_size i : forall p, In p (parts i) -> isize p <= isize i.
  Proof.
    induction i; intros p [<-|Hp]; cbn [isize] in *; try lia; try contradiction.
    - rewrite !in_app_iff in Hp. destruct Hp as [Hp|[Hp|[Hp|Hp]]]; [apply IHi1 in Hp | apply IHi2 in Hp | apply IHi3 in Hp | apply IHi4 in Hp]; lia.
    - apply IHi in Hp. lia.
  Qed.
  Lemma parts_trans i : forall p q, In p (parts i) -> In q (parts p) -> In q (parts i).
  Proof.
    induction i; intros p q [<-|Hp] Hq; try assumption; try contradiction; right.
    - rewrite !in_app_iff in *. destruct Hp as [Hp|[Hp|[Hp|Hp]]]; eauto.
    - eauto.
  Qed.
  Lemma consistent_part i p : consistent i -> In p (parts i) -> consistent p.
  Proof. intros H Hp a b id Ha Hb. apply H; eapply parts_trans; eassumption. Qed.
  Lemma ids_parts i id : In id (ids i) -> exists p, In p (parts i) /\ own p = Some id.
  Proof.
    induction i; cbn [ids]; intros H.
    - destruct H.
    - destruct H as [<-|[]]. eexists. split; [apply parts_self | reflexivity].
    - destruct H as [<-|H]; [eexists; split; [apply parts_self | reflexivity]|]. rewrite !in_app_iff in H.
      destruct H as [H|[H|[H|H]]]; [destruct (IHi1 H) as [p [? ?]] | destruct (IHi2 H) as [p [? ?]] | destruct (IHi3 H) as [p [? ?]] | destruct (IHi4 H) as [p [? ?]]]; exists p; (split; [|assumption]); right; rewrite !in_app_iff; auto.
    - destruct H as [<-|H]; [eexists; split; [apply parts_self | reflexivity]|]. destruct (IHi H) as [p [? ?]]. exists p. split; [now right | assumption].
  Qed.
  (** Hence no object contains itself. *)
  Lemma not_own i p id : consistent i -> own i = Some id -> In p (parts i) -> isize p < isize i -> ~ In id (ids p).
  Proof.
    intros C O Hp L Hid. apply ids_parts in Hid. destruct Hid as [q [Hq Oq]].
    assert (E : q = i) by (apply (C q i id); [eapply parts_trans; eassumption | apply parts_self | assumption | assumption]). subst q.
    apply parts_size in Hq. lia.
  Qed.

  Lemma set_same (h : rnds St) id s : set_rnd St h id s id = s.
  Proof. unfold set_rnd. now rewrite Nat.eqb_refl. Qed.
  Lemma set_other (h : rnds St) id s j : j <> id -> set_rnd St h id s j = h j.
  Proof. intros N. unfold set_rnd. destruct (Nat.eqb_spec j id); congruence. Qed.

  (** Only the generators of the objects themselves are used up. *)
  Lemma evaluate_frame i : forall h seed sh j, ~ In j (ids i) -> snd (evaluate h seed i sh) j = h j.
  Proof.
    induction i as [c|id body|id a IHa b IHb c IHc d IHd|inputs id sub IH k]; intros h seed sh j N; cbn [ids] in N; cbn [RandomModel.evaluate].
    - reflexivity.
    - assert (j <> id) by (intros ->; apply N; now left). match goal with |- context [body sh ?x] => destruct (body sh x) end. cbn [snd]. rewrite set_other by assumption. destruct seed; [now apply set_other | reflexivity].
    - assert (Nj : j <> id) by (intros ->; apply N; now left). assert (Nr : ~ In j (ids a) /\ ~ In j (ids b) /\ ~ In j (ids c) /\ ~ In j (ids d)).
      { repeat split; intros Q; apply N; right; rewrite !in_app_iff; auto. }
      destruct Nr as [Na [Nb [Nc Nd]]]. set (h0 := match seed with Some s => set_rnd St h id (seed_state s) | None => h end).
      assert (H0 : h0 j = h j) by (unfold h0; destruct seed; [now apply set_other | reflexivity]).
      destruct sh as [|n rest]; [exact H0|]. destruct (negb (n mod 4 =? 0)); [exact H0|].
      destruct (gen_seed (h0 id)) as [s1 st1]. assert (E1 := IHa (set_rnd St h0 id st1) (Some s1) (n / 4 :: rest) j Na). rewrite set_other, H0 in E1 by assumption.
      destruct (evaluate (set_rnd St h0 id st1) (Some s1) a (n / 4 :: rest)) as [[w1|] h1]; cbn [snd] in E1; [|exact E1].
      destruct (gen_seed (h1 id)) as [s2 st2]. assert (E2 := IHb (set_rnd St h1 id st2) (Some s2) (n / 4 :: rest) j Nb). rewrite set_other, E1 in E2 by assumption.
      destruct (evaluate (set_rnd St h1 id st2) (Some s2) b (n / 4 :: rest)) as [[w2|] h2]; cbn [snd] in E2; [|exact E2].
      destruct (gen_seed (h2 id)) as [s3 st3]. assert (E3 := IHc (set_rnd St h2 id st3) (Some s3) (n / 4 :: rest) j Nc). rewrite set_other, E2 in E3 by assumption.
      destruct (evaluate (set_rnd St h2 id st3) (Some s3) c (n / 4 :: rest)) as [[w3|] h3]; cbn [snd] in E3; [|exact E3].
      destruct (gen_seed (h3 id)) as [s4 st4]. assert (E4 := IHd (set_rnd St h3 id st4) (Some s4) (n / 4 :: rest) j Nd). rewrite set_other, E3 in E4 by assumption.
      destruct (evaluate (set_rnd St h3 id st4) (Some s4) d (n / 4 :: rest)) as [[w4|] h4]; exact E4.
    - assert (Nj : j <> id) by (intros ->; apply N; now left). assert (Ns : ~ In j (ids sub)) by (intros Q; apply N; now right).
      set (h0 := match seed with Some s => set_rnd St h id (seed_state s) | None => h end).
      assert (H0 : h0 j = h j) by (unfold h0; destruct seed; [now apply set_other | reflexivity]).
      destruct sh as [|d0 [|d1 r]]; [exact H0 | exact H0 |]. destruct ((if inputs then d0 else d1) <? k); [exact H0|].
      assert (E := IH h0 None (d0 :: d1 :: r) j Ns). destruct (evaluate h0 None sub (d0 :: d1 :: r)) as [[w|] h1]; cbn [snd] in E; [|cbn [snd]; congruence].
      destruct (shuffles St shuffle _ _ (h1 id)) as [ps s']. cbn [snd]. rewrite set_other by assumption. congruence.
  Qed.

  Lemma evaluate_fixed i : fixed i -> forall h h' seed seed' sh, fst (evaluate h seed i sh) = fst (evaluate h' seed' i sh).
  Proof.
    induction 1 as [c|id body Hb|id a b c d _ IHa _ IHb _ IHc _ IHd]; intros h h' seed seed' sh; cbn [RandomModel.evaluate].
    - reflexivity.
    - match goal with |- fst (let '(_, _) := body sh ?x in _) = fst (let '(_, _) := body sh ?y in _) => assert (E := Hb sh x y); destruct (body sh x); destruct (body sh y) end. exact E.
    - set (h0 := match seed with Some s => set_rnd St h id (seed_state s) | None => h end). set (h0' := match seed' with Some s => set_rnd St h' id (seed_state s) | None => h' end).
      destruct sh as [|n rest]; [reflexivity|]. destruct (negb (n mod 4 =? 0)); [reflexivity|].
      destruct (gen_seed (h0 id)) as [s1 st1]. destruct (gen_seed (h0' id)) as [s1' st1'].
      assert (E1 := IHa (set_rnd St h0 id st1) (set_rnd St h0' id st1') (Some s1) (Some s1') (n / 4 :: rest)).
      destruct (evaluate (set_rnd St h0 id st1) (Some s1) a (n / 4 :: rest)) as [[w1|] h1]; destruct (evaluate (set_rnd St h0' id st1') (Some s1') a (n / 4 :: rest)) as [[w1'|] h1']; cbn [fst] in E1; try discriminate E1; [|reflexivity]. injection E1 as <-.
      destruct (gen_seed (h1 id)) as [s2 st2]. destruct (gen_seed (h1' id)) as [s2' st2'].
      assert (E2 := IHb (set_rnd St h1 id st2) (set_rnd St h1' id st2') (Some s2) (Some s2') (n / 4 :: rest)).
      destruct (evaluate (set_rnd St h1 id st2) (Some s2) b (n / 4 :: rest)) as [[w2|] h2]; destruct (evaluate (set_rnd St h1' id st2') (Some s2') b (n / 4 :: rest)) as [[w2'|] h2']; cbn [fst] in E2; try discriminate E2; [|reflexivity]. injection E2 as <-.
      destruct (gen_seed (h2 id)) as [s3 st3]. destruct (gen_seed (h2' id)) as [s3' st3'].
      assert (E3 := IHc (set_rnd St h2 id st3) (set_rnd St h2' id st3') (Some s3) (Some s3') (n / 4 :: rest)).
      destruct (evaluate (set_rnd St h2 id st3) (Some s3) c (n / 4 :: rest)) as [[w3|] h3]; destruct (evaluate (set_rnd St h2' id st3') (Some s3') c (n / 4 :: rest)) as [[w3'|] h3']; cbn [fst] in E3; try discriminate E3; [|reflexivity]. injection E3 as <-.
      destruct (gen_seed (h3 id)) as [s4 st4]. destruct (gen_seed (h3' id)) as [s4' st4'].
      assert (E4 := IHd (set_rnd St h3 id st4) (set_rnd St h3' id st4') (Some s4) (Some s4') (n / 4 :: rest)).
      destruct (evaluate (set_rnd St h3 id st4) (Some s4) d (n / 4 :: rest)) as [[w4|] h4]; destruct (evaluate (set_rnd St h3' id st4') (Some s4') d (n / 4 :: rest)) as [[w4'|] h4']; cbn [fst] in E4; try discriminate E4; [|reflexivity]. injection E4 as <-. reflexivity.
  Qed.

  Lemma evaluate_seeded i : seeded i -> consistent i -> forall h h' seed sh, fst (evaluate h (Some seed) i sh) = fst (evaluate h' (Some seed) i sh).
  Proof.
    induction 1 as [c|id body|id a b c d _ IHa _ IHb _ IHc _ IHd|inputs id sub k Hf]; intros C h h' seed sh; cbn [RandomModel.evaluate].
    - reflexivity.
    - rewrite !set_same. destruct (body sh (seed_state seed)). reflexivity.
    - assert (Pa : In a (parts (Lstm _ id a b c d))) by (right; rewrite !in_app_iff; left; apply parts_self).
      assert (Pb : In b (parts (Lstm _ id a b c d))) by (right; rewrite !in_app_iff; right; left; apply parts_self).
      assert (Pc : In c (parts (Lstm _ id a b c d))) by (right; rewrite !in_app_iff; right; right; left; apply parts_self).
      assert (Pd : In d (parts (Lstm _ id a b c d))) by (right; rewrite !in_app_iff; right; right; right; apply parts_self).
      assert (Sz : forall i : init, 0 < isize i) by (intros []; cbn; lia).
      assert (Na : ~ In id (ids a)) by (apply (not_own _ _ _ C eq_refl Pa); cbn [isize]; lia).
      assert (Nb : ~ In id (ids b)) by (apply (not_own _ _ _ C eq_refl Pb); cbn [isize]; lia).
      assert (Nc : ~ In id (ids c)) by (apply (not_own _ _ _ C eq_refl Pc); cbn [isize]; lia).
      assert (Ca := consistent_part _ _ C Pa). assert (Cb := consistent_part _ _ C Pb). assert (Cc := consistent_part _ _ C Pc). assert (Cd := consistent_part _ _ C Pd).
      destruct sh as [|n rest]; [reflexivity|]. destruct (negb (n mod 4 =? 0)); [reflexivity|]. rewrite !set_same.
      destruct (gen_seed (seed_state seed)) as [s1 st1].
      set (h0 := set_rnd St (set_rnd St h id (seed_state seed)) id st1). set (h0' := set_rnd St (set_rnd St h' id (seed_state seed)) id st1).
      assert (E1 := IHa Ca h0 h0' s1 (n / 4 :: rest)).
      assert (F1 := evaluate_frame a h0 (Some s1) (n / 4 :: rest) id Na). assert (F1' := evaluate_frame a h0' (Some s1) (n / 4 :: rest) id Na). unfold h0 in F1 at 2. unfold h0' in F1' at 2. rewrite set_same in F1, F1'.
      destruct (evaluate h0 (Some s1) a (n / 4 :: rest)) as [[w1|] h1]; destruct (evaluate h0' (Some s1) a (n / 4 :: rest)) as [[w1'|] h1']; cbn [fst snd] in *; try discriminate E1; [|reflexivity]. injection E1 as <-.
      rewrite F1, F1'. destruct (gen_seed st1) as [s2 st2].
      assert (E2 := IHb Cb (set_rnd St h1 id st2) (set_rnd St h1' id st2) s2 (n / 4 :: rest)).
      assert (F2 := evaluate_frame b (set_rnd St h1 id st2) (Some s2) (n / 4 :: rest) id Nb). assert (F2' := evaluate_frame b (set_rnd St h1' id st2) (Some s2) (n / 4 :: rest) id Nb). rewrite set_same in F2, F2'.
      destruct (evaluate (set_rnd St h1 id st2) (Some s2) b (n / 4 :: rest)) as [[w2|] h2]; destruct (evaluate (set_rnd St h1' id st2) (Some s2) b (n / 4 :: rest)) as [[w2'|] h2']; cbn [fst snd] in *; try discriminate E2; [|reflexivity]. injection E2 as <-.
      rewrite F2, F2'. destruct (gen_seed st2) as [s3 st3].
      assert (E3 := IHc Cc (set_rnd St h2 id st3) (set_rnd St h2' id st3) s3 (n / 4 :: rest)).
      assert (F3 := evaluate_frame c (set_rnd St h2 id st3) (Some s3) (n / 4 :: rest) id Nc). assert (F3' := evaluate_frame c (set_rnd St h2' id st3) (Some s3) (n / 4 :: rest) id Nc). rewrite set_same in F3, F3'.
      destruct (evaluate (set_rnd St h2 id st3) (Some s3) c (n / 4 :: rest)) as [[w3|] h3]; destruct (evaluate (set_rnd St h2' id st3) (Some s3) c (n / 4 :: rest)) as [[w3'|] h3']; cbn [fst snd] in *; try discriminate E3; [|reflexivity]. injection E3 as <-.
      rewrite F3, F3'. destruct (gen_seed st3) as [s4 st4].
      assert (E4 := IHd Cd (set_rnd St h3 id st4) (set_rnd St h3' id st4) s4 (n / 4 :: rest)).
      destruct (evaluate (set_rnd St h3 id st4) (Some s4) d (n / 4 :: rest)) as [[w4|] h4]; destruct (evaluate (set_rnd St h3' id st4) (Some s4) d (n / 4 :: rest)) as [[w4'|] h4']; cbn [fst] in E4; try discriminate E4; [|reflexivity]. injection E4 as <-. reflexivity.
    - assert (Ps : In sub (parts (Sparse _ inputs id sub k))) by (right; apply parts_self).
      assert (Ns : ~ In id (ids sub)) by (apply (not_own _ _ _ C eq_refl Ps); cbn [isize]; lia).
      destruct sh as [|d0 [|d1 r]]; [reflexivity | reflexivity |]. destruct ((if inputs then d0 else d1) <? k); [reflexivity|].
      set (h0 := set_rnd St h id (seed_state seed)). set (h0' := set_rnd St h' id (seed_state seed)).
      assert (E := evaluate_fixed sub Hf h0 h0' None None (d0 :: d1 :: r)).
      assert (F := evaluate_frame sub h0 None (d0 :: d1 :: r) id Ns). assert (F' := evaluate_frame sub h0' None (d0 :: d1 :: r) id Ns). unfold h0 in F at 2. unfold h0' in F' at 2. rewrite set_same in F, F'.
      destruct (evaluate h0 None sub (d0 :: d1 :: r)) as [[w|] h1]; destruct (evaluate h0' None sub (d0 :: d1 :: r)) as [[w'|] h1']; cbn [fst snd] in *; try discriminate E; [|reflexivity]. injection E as <-.
      rewrite F, F'. destruct (shuffles St shuffle _ _ (seed_state seed)) as [ps s']. reflexivity.
  Qed.

  (** ** C33 *)
  Definition good_view (v : view St) : Prop :=
    (seeded (v_init St v) /\ consistent (v_init St v)) /\
    match v_fallback St v with None => True | Some f => seeded f /\ consistent f end.
  Lemma evaluate_initializer_seeded v : good_view v -> forall h h' seed sh,
    fst (evaluate_initializer h (Some seed) (v_init St v) (v_fallback St v) sh) = fst (evaluate_initializer h' (Some seed) (v_init St v) (v_fallback St v) sh).
  Proof.
    intros [[S C] F] h h' seed sh. unfold RandomModel.evaluate_initializer. assert (E := evaluate_seeded _ S C h h' seed sh).
    destruct (evaluate h (Some seed) (v_init St v) sh) as [[w|] h1]; destruct (evaluate h' (Some seed) (v_init St v) sh) as [[w'|] h1']; cbn [fst] in *; try discriminate E; [exact E|].
    destruct (v_fallback St v) as [f|]; [|reflexivity]. destruct F as [S' C']. now apply evaluate_seeded.
  Qed.
  Lemma init_views_seeded vs : Forall good_view vs -> forall rnd h h', fst (init_views St seed_state gen_seed shuffle rnd h vs) = fst (init_views St seed_state gen_seed shuffle rnd h' vs).
  Proof.
    induction 1 as [|v vs Hv _ IH]; intros rnd h h'; cbn [init_views]; [reflexivity|]. destruct (gen_seed rnd) as [s rnd'].
    assert (E := evaluate_initializer_seeded v Hv h h' s (v_shape St v)).
    destruct (evaluate_initializer h (Some s) (v_init St v) (v_fallback St v) (v_shape St v)) as [[w|] h1]; destruct (evaluate_initializer h' (Some s) (v_init St v) (v_fallback St v) (v_shape St v)) as [[w'|] h1']; cbn [fst] in *; try discriminate E; [|reflexivity]. injection E as <-.
    specialize (IH rnd' h1 h1'). destruct (init_views St seed_state gen_seed shuffle rnd' h1 vs) as [[ws|] h2]; destruct (init_views St seed_state gen_seed shuffle rnd' h1' vs) as [[ws'|] h2']; cbn [fst] in *; try discriminate IH; [|reflexivity]. now injection IH as <-.
  Qed.

  Lemma view_leb_total x y : view_leb St x y = true \/ view_leb St y x = true.
  Proof.
    unfold view_leb. rewrite (String.eqb_sym (v_layer St y)). destruct (String.eqb_spec (v_layer St x) (v_layer St y)) as [E|N]; apply String.leb_total.
  Qed.
  Lemma view_leb_trans x y z : view_leb St x y = true -> view_leb St y z = true -> view_leb St x z = true.
  Proof.
    unfold view_leb. destruct (String.eqb_spec (v_layer St x) (v_layer St y)) as [E1|N1]; destruct (String.eqb_spec (v_layer St y) (v_layer St z)) as [E2|N2]; intros H1 H2.
    - rewrite E1, E2, String.eqb_refl. eapply string_leb_trans; eassumption.
    - rewrite E1. destruct (String.eqb_spec (v_layer St y) (v_layer St z)); [congruence | assumption].
    - rewrite <- E2. destruct (String.eqb_spec (v_layer St x) (v_layer St y)); [congruence | assumption].
    - destruct (String.eqb_spec (v_layer St x) (v_layer St z)) as [E|N].
      + rewrite E in H1. exfalso. apply N2. now apply String.leb_antisym.
      + eapply string_leb_trans; eassumption.
  Qed.
  Lemma sorted_unique_on (l1 : list (view St)) : forall l2,
    (forall x y, In x l1 -> In y l1 -> view_leb St x y = true -> view_leb St y x = true -> x = y) ->
    StronglySorted (fun a b => view_leb St a b = true) l1 -> StronglySorted (fun a b => view_leb St a b = true) l2 -> Permutation l1 l2 -> l1 = l2.
  Proof.
    induction l1 as [|x r IH]; intros l2 A S1 S2 P.
    - apply Permutation_nil in P. now subst.
    - destruct l2 as [|y r2]; [symmetry in P; now apply Permutation_nil in P|].
      inversion S1 as [|? ? S1a S1b]; inversion S2 as [|? ? S2a S2b]; subst. rewrite Forall_forall in *.
      assert (I2 : In y (x :: r)) by (eapply Permutation_in; [symmetry; exact P | now left]).
      assert (x = y).
      { assert (I1 : In x (y :: r2)) by (eapply Permutation_in; [exact P | now left]).
        destruct I1 as [|I1]; [congruence|]. destruct I2 as [|I2]; [congruence|]. apply A; [now left | now right | now apply S1b | now apply S2b]. }
      subst y. f_equal. apply IH; try assumption; [intros a b Ha Hb; apply A; now right|]. eapply Permutation_cons_inv; exact P.
  Qed.

  (** The same seed gives the same parameters, whatever has been drawn from the
      initializers before and in whatever order the dictionaries list layers and
      views. *)
  Theorem C33_seeded_partial : forall seed h h' vs vs', Forall good_view vs -> Permutation vs vs' ->
    NoDup (map (fun v => (v_layer St v, v_name St v)) vs) ->
    fst (initialize seed h vs) = fst (initialize seed h' vs').
  Proof.
    intros seed h h' vs vs' Hg P ND. unfold RandomModel.initialize. assert (E : isort (view_leb St) vs = isort (view_leb St) vs').
    { apply sorted_unique_on; try apply isort_sorted; try apply view_leb_total; try apply view_leb_trans.
      - intros x y Hx Hy L1 L2. rewrite isort_In in Hx, Hy. assert (K : v_layer St x = v_layer St y /\ v_name St x = v_name St y).
        { unfold view_leb in L1, L2. rewrite (String.eqb_sym (v_layer St y)) in L2. destruct (String.eqb_spec (v_layer St x) (v_layer St y)) as [E|N]; [split; [assumption | now apply String.leb_antisym]|].
          exfalso. apply N. now apply String.leb_antisym. }
        destruct K as [K1 K2]. clear - ND Hx Hy K1 K2. induction vs as [|v vs IH]; [contradiction|]. cbn [map] in ND. inversion ND as [|? ? N1 N2]; subst.
        destruct Hx as [<-|Hx], Hy as [<-|Hy]; [reflexivity | | | now apply IH].
        + exfalso. apply N1. rewrite K1, K2. now apply (in_map (fun v => (v_layer St v, v_name St v))).
        + exfalso. apply N1. rewrite <- K1, <- K2. now apply (in_map (fun v => (v_layer St v, v_name St v))).
      - rewrite !isort_perm. assumption. }
    rewrite <- E. apply init_views_seeded. apply Forall_forall. intros v Hv. rewrite isort_In in Hv. rewrite Forall_forall in Hg. now apply Hg.
  Qed.

  (** ** C34 *)
  Hypothesis shuffle_perm : forall m s, exists back, let p := fst (shuffle m s) in
    (forall a, a < m -> p a < m /\ back (p a) = a) /\ (forall a, a < m -> back a < m /\ p (back a) = a).
  Lemma shuffles_spec m : forall count s, length (fst (shuffles St shuffle m count s)) = count /\
    forall i p, nth_error (fst (shuffles St shuffle m count s)) i = Some p -> exists s', p = fst (shuffle m s').
  Proof.
    induction count as [|c IH]; intros s; cbn [shuffles].
    - split; [reflexivity|]. intros [|i] p H; discriminate.
    - destruct (shuffle m s) as [p0 s1] eqn:E. specialize (IH s1). destruct (shuffles St shuffle m c s1) as [ps s2]. cbn [fst length] in *. destruct IH as [L IH]. split; [congruence|].
      intros [|i] p H; [|now apply (IH i)]. injection H as <-. exists s. now rewrite E.
  Qed.
  (** The [k] selected positions of a shuffled mask. *)
  Lemma selected m s k : k <= m -> exists sel, NoDup sel /\ length sel = k /\ (forall a, In a sel -> a < m) /\
    forall a, a < m -> (fst (shuffle m s) a <? k) = true <-> In a sel.
  Proof.
    intros L. destruct (shuffle_perm m s) as [back [F B]]. exists (map back (seq 0 k)). split; [|split; [|split]].
    - apply NoDup_map_inj; [|apply seq_NoDup]. intros x y Hx Hy E. apply in_seq in Hx, Hy. destruct (B x ltac:(lia)) as [_ Ex]. destruct (B y ltac:(lia)) as [_ Ey]. congruence.
    - now rewrite map_length, seq_length.
    - intros a Ha. apply in_map_iff in Ha. destruct Ha as [x [<- Hx]]. apply in_seq in Hx. now apply B; lia.
    - intros a Ha. rewrite Nat.ltb_lt, in_map_iff. destruct (F a Ha) as [_ E]. split.
      + intros Hk. exists (fst (shuffle m s) a). split; [assumption|]. apply in_seq. lia.
      + intros [x [<- Hx]]. apply in_seq in Hx. destruct (B x ltac:(lia)) as [_ ->]. lia.
  Qed.

  (** SparseInputs / SparseOutputs: along each column (row) exactly [k] entries are
      taken from the sub-initializer, all others are 0.  With more than [k]
      connections than rows (columns), or less than two dimensions, it is an
      error. *)
  Theorem C34_sparse : forall (inputs : bool) id sub k h seed sh,
    (length sh < 2 \/ nth (if inputs then 0 else 1) sh 0 < k -> fst (evaluate h seed (Sparse _ inputs id sub k) sh) = None) /\
    forall w, fst (evaluate h seed (Sparse _ inputs id sub k) sh) = Some w -> exists h0 wsub,
      fst (evaluate h0 None sub sh) = Some wsub /\
      forall across, across < nth (if inputs then 1 else 0) sh 0 -> exists sel, NoDup sel /\ length sel = k /\
        (forall a, In a sel -> a < nth (if inputs then 0 else 1) sh 0) /\
        forall a rest, a < nth (if inputs then 0 else 1) sh 0 ->
          let idx := if inputs then a :: across :: rest else across :: a :: rest in
          (In a sel -> w idx = wsub idx) /\ (~ In a sel -> w idx = 0%R).
  Proof.
    intros inputs id sub k h seed sh. cbn [RandomModel.evaluate]. set (h0 := match seed with Some s => set_rnd St h id (seed_state s) | None => h end).
    destruct sh as [|d0 [|d1 r]].
    - split; [reflexivity|]. intros w H. discriminate.
    - split; [reflexivity|]. intros w H. discriminate.
    - assert (A1 : nth (if inputs then 0 else 1) (d0 :: d1 :: r) 0 = if inputs then d0 else d1) by (destruct inputs; reflexivity).
      assert (A2 : nth (if inputs then 1 else 0) (d0 :: d1 :: r) 0 = if inputs then d1 else d0) by (destruct inputs; reflexivity).
      rewrite A1, A2. set (along := if inputs then d0 else d1) in *. set (across := if inputs then d1 else d0) in *.
      destruct (Nat.ltb_spec along k) as [L|L].
      + split; [reflexivity|]. intros w H. discriminate.
      + split; [cbn [length]; intros [Q|Q]; lia|]. intros w H. exists h0. destruct (evaluate h0 None sub (d0 :: d1 :: r)) as [[wsub|] h1] eqn:E; [|discriminate].
        exists wsub. split; [reflexivity|]. destruct (shuffles_spec along across (h1 id)) as [SL SP]. destruct (shuffles St shuffle along across (h1 id)) as [ps s']. cbn [fst] in *. injection H as <-.
        intros i Hi. destruct (nth_error ps i) as [p|] eqn:Ep; [|apply nth_error_None in Ep; lia]. destruct (SP i p Ep) as [s0 Es]. destruct (selected along s0 k L) as [sel [S1 [S2 [S3 S4]]]].
        exists sel. split; [assumption|]. split; [assumption|]. split; [assumption|]. intros a rest Ha. rewrite <- Es in S4. specialize (S4 a Ha).
        assert (M : mask_entry k ps a i = (p a <? k)) by (unfold mask_entry; now rewrite Ep).
        destruct inputs; cbv zeta; cbn beta iota; rewrite M; destruct (p a <? k) eqn:Ek; split; intros Q; try lra.
        * exfalso. apply Q. now apply S4.
        * apply S4 in Q. discriminate.
        * exfalso. apply Q. now apply S4.
        * apply S4 in Q. discriminate.
  Qed.
  (** * C59 *)
  (** The four blocks of rows are what the four initializers give for a quarter of the
      shape, in the order block_input, input_gate, forget_gate, output_gate, each with a
      seed of its own; a number of rows not divisible by 4 is rejected. *)
  Theorem C59_blocks : forall id i0 i1 i2 i3 h seed d rest,
    match fst (evaluate h seed (Lstm St id i0 i1 i2 i3) (d :: rest)) with
    | Some w => (exists n, d = 4 * n) /\ forall b, b < 4 -> exists hb sb wb,
        fst (evaluate hb (Some sb) (nth b [i0; i1; i2; i3] i0) (d / 4 :: rest)) = Some wb /\
        forall i r, i < d / 4 -> w (b * (d / 4) + i :: r) = wb (i :: r)
    | None => (forall n, d <> 4 * n) \/ exists b hb sb, b < 4 /\ fst (evaluate hb (Some sb) (nth b [i0; i1; i2; i3] i0) (d / 4 :: rest)) = None
    end.
  Proof.
    intros id i0 i1 i2 i3 h seed d rest. cbn [RandomModel.evaluate].
    set (h0 := match seed with Some s => set_rnd St h id (seed_state s) | None => h end). clearbody h0.
    destruct (Nat.eqb_spec (d mod 4) 0) as [M|M]; cbn [negb]; [|left; intros n ->; apply M; now rewrite Nat.mul_comm, Nat.mod_mul].
    assert (exists n, d = 4 * n) as Hd by (exists (d / 4); pose proof (Nat.div_mod d 4 ltac:(lia)); lia).
    destruct (gen_seed (h0 id)) as [s1 st1]. destruct (evaluate (set_rnd St h0 id st1) (Some s1) i0 (d / 4 :: rest)) as [[w1|] h1] eqn:E1; cbn [fst].
    2:{ right. exists 0, (set_rnd St h0 id st1), s1. split; [lia|]. cbn [nth]. now rewrite E1. }
    destruct (gen_seed (h1 id)) as [s2 st2]. destruct (evaluate (set_rnd St h1 id st2) (Some s2) i1 (d / 4 :: rest)) as [[w2|] h2] eqn:E2; cbn [fst].
    2:{ right. exists 1, (set_rnd St h1 id st2), s2. split; [lia|]. cbn [nth]. now rewrite E2. }
    destruct (gen_seed (h2 id)) as [s3 st3]. destruct (evaluate (set_rnd St h2 id st3) (Some s3) i2 (d / 4 :: rest)) as [[w3|] h3] eqn:E3; cbn [fst].
    2:{ right. exists 2, (set_rnd St h2 id st3), s3. split; [lia|]. cbn [nth]. now rewrite E3. }
    destruct (gen_seed (h3 id)) as [s4 st4]. destruct (evaluate (set_rnd St h3 id st4) (Some s4) i3 (d / 4 :: rest)) as [[w4|] h4] eqn:E4; cbn [fst].
    2:{ right. exists 3, (set_rnd St h3 id st4), s4. split; [lia|]. cbn [nth]. now rewrite E4. }
    split; [assumption|]. intros b Hb. assert (b = 0 \/ b = 1 \/ b = 2 \/ b = 3) as [->|[->|[->| ->]]] by lia; cbn [nth].
    - exists (set_rnd St h0 id st1), s1, w1. split; [now rewrite E1|]. intros i r Hi. unfold join4. destruct (Nat.ltb_spec (0 * (d / 4) + i) (d / 4)); [reflexivity | lia].
    - exists (set_rnd St h1 id st2), s2, w2. split; [now rewrite E2|]. intros i r Hi. unfold join4. destruct (Nat.ltb_spec (1 * (d / 4) + i) (d / 4)); [lia|]. destruct (Nat.ltb_spec (1 * (d / 4) + i) (2 * (d / 4))); [|lia]. do 2 f_equal. lia.
    - exists (set_rnd St h2 id st3), s3, w3. split; [now rewrite E3|]. intros i r Hi. unfold join4. destruct (Nat.ltb_spec (2 * (d / 4) + i) (d / 4)); [lia|]. destruct (Nat.ltb_spec (2 * (d / 4) + i) (2 * (d / 4))); [lia|]. destruct (Nat.ltb_spec (2 * (d / 4) + i) (3 * (d / 4))); [|lia]. do 2 f_equal. lia.
    - exists (set_rnd St h3 id st4), s4, w4. split; [now rewrite E4|]. intros i r Hi. unfold join4. destruct (Nat.ltb_spec (3 * (d / 4) + i) (d / 4)); [lia|]. destruct (Nat.ltb_spec (3 * (d / 4) + i) (2 * (d / 4))); [lia|]. destruct (Nat.ltb_spec (3 * (d / 4) + i) (3 * (d / 4))); [lia|]. do 2 f_equal. lia.
  Qed.
End Initializers.
Print Assumptions C59_blocks.
Print Assumptions C33_seeded_partial.
Print Assumptions C34_sparse.

(** A small generator for the cases below: states are numbers, shuffling rotates. *)
Definition rot (m s : nat) : (nat -> nat) * nat := (fun a => (a + s) mod m, S s).
Lemma rot_perm m s : exists back, let p := fst (rot m s) in
  (forall a, a < m -> p a < m /\ back (p a) = a) /\ (forall a, a < m -> back a < m /\ p (back a) = a).
Proof.
  exists (fun a => (a + (m - s mod m)) mod m). cbn [rot fst]. split; intros a Ha; (split; [apply Nat.mod_upper_bound; lia|]).
  - assert (L := Nat.mod_upper_bound s m ltac:(lia)). rewrite Nat.add_mod_idemp_l by lia.
    rewrite (Nat.div_mod s m) at 1 by lia. replace (a + (m * (s / m) + s mod m) + (m - s mod m)) with (a + (s / m + 1) * m) by lia.
    rewrite Nat.mod_add by lia. now apply Nat.mod_small.
  - assert (L := Nat.mod_upper_bound s m ltac:(lia)). rewrite Nat.add_mod_idemp_l by lia.
    rewrite (Nat.div_mod s m) at 2 by lia. replace (a + (m - s mod m) + (m * (s / m) + s mod m)) with (a + (s / m + 1) * m) by lia.
    rewrite Nat.mod_add by lia. now apply Nat.mod_small.
Qed.
Definition num_seed (s : nat) : nat := 10 * s.
Definition num_gen (s : nat) : nat * nat := (s, S s).
(** One draw, like Gaussian or Uniform. *)
Definition noise (id : nat) : init nat := Simple nat id (fun _ s => (Some (fun _ => INR s), S s)).

(** A network whose two layers share one initializer object, one of them inside an
    LSTM initializer. *)
Definition shared_views : list (view nat) :=
  [mkView nat "b" "W" [2; 3] (noise 0) None;
   mkView nat "a" "W" [8] (Lstm nat 1 (noise 0) (Scalar nat 1%R) (noise 0) (noise 2)) None;
   mkView nat "a" "R" [3; 3] (Sparse nat true 3 (Scalar nat 1%R) 2) (Some (noise 0))].
Lemma consistent_noise k : consistent nat (noise k).
Proof. intros x y i [<-|[]] [<-|[]]; reflexivity. Qed.
Example C33_case : Forall (good_view nat) shared_views /\ NoDup (map (fun v => (v_layer nat v, v_name nat v)) shared_views) /\
  fst (initialize nat num_seed num_gen rot 4 (fun _ => 17) shared_views) = fst (initialize nat num_seed num_gen rot 4 (fun i => i) (rev shared_views)).
Proof.
  assert (G : Forall (good_view nat) shared_views).
  { repeat apply Forall_cons; try apply Forall_nil; unfold good_view; cbn [v_init v_fallback].
    - split; [|exact I]. split; [constructor | apply consistent_noise].
    - split; [|exact I]. split; [repeat constructor|]. intros x y i Hx Hy. cbn [parts noise app] in Hx, Hy.
      repeat (destruct Hx as [<-|Hx]; [repeat (destruct Hy as [<-|Hy]; [cbn [own]; congruence|]); contradiction|]). contradiction.
    - split; [|split; [constructor | apply consistent_noise]]. split; [repeat constructor|]. intros x y i Hx Hy. cbn [parts app] in Hx, Hy.
      repeat (destruct Hx as [<-|Hx]; [repeat (destruct Hy as [<-|Hy]; [cbn [own]; congruence|]); contradiction|]). contradiction. }
  assert (N : NoDup (map (fun v => (v_layer nat v, v_name nat v)) shared_views)).
  { cbn. repeat constructor; cbn; intuition discriminate. }
  split; [exact G|]. split; [exact N|]. apply C33_seeded_partial; [exact G | apply Permutation_rev | exact N].
Qed.

(** A sparse initializer evaluates its sub-initializer without a seed, so a random
    sub-initializer carries on from wherever its own generator is. *)
Theorem C33_sparse_refuted : exists seed h h' vs, Forall (fun v => consistent nat (v_init nat v)) vs /\
  fst (initialize nat num_seed num_gen rot seed h vs) <> fst (initialize nat num_seed num_gen rot seed h' vs).
Proof.
  exists 0, (fun _ => 5), (fun _ => 6), [mkView nat "a" "W" [1; 1] (Sparse nat true 0 (noise 1) 1) None]. split.
  - constructor; [|constructor]. intros x y i Hx Hy. cbn [v_init parts noise] in Hx, Hy.
    repeat (destruct Hx as [<-|Hx]; [repeat (destruct Hy as [<-|Hy]; [cbn [own]; congruence|]); contradiction|]). contradiction.
  - intros E. assert (E' : option_map (fun l => map (fun e => snd e [0; 0]) l) (fst (initialize nat num_seed num_gen rot 0 (fun _ => 5) [mkView nat "a" "W" [1; 1] (Sparse nat true 0 (noise 1) 1) None]))
      = option_map (fun l => map (fun e => snd e [0; 0]) l) (fst (initialize nat num_seed num_gen rot 0 (fun _ => 6) [mkView nat "a" "W" [1; 1] (Sparse nat true 0 (noise 1) 1) None]))) by now rewrite E.
    cbn -[INR] in E'. injection E' as E'. lra.
Qed.
Print Assumptions C33_sparse_refuted.

Example C34_case : exists w, fst (evaluate nat num_seed num_gen rot (fun _ => 1) (Some 4) (Sparse nat true 3 (noise 1) 2) [3; 2]) = Some w /\
  map w [[0; 0]; [1; 0]; [2; 0]] = [1; 0; 1]%R /\ map w [[0; 1]; [1; 1]; [2; 1]] = [0; 1; 1]%R.
Proof.
  eexists. split; [reflexivity|]. split; cbn; rewrite ?Rmult_0_r, ?Rmult_1_r; reflexivity.
Qed.

(** The documentation of SparseInputs promises "every unit only gets activation from a
    certain number of input units".  But the weights of a FullyConnected layer have
    one row per unit (fully_connected_layer.py:46), and SparseInputs limits the
    entries of each column: here unit 0 is connected to all three inputs although
    one connection was asked for. *)
Theorem C34_units_refuted : exists units inputs k h seed w,
  fst (evaluate nat num_seed num_gen (fun m s => (fun a => a, s)) h seed (Sparse nat true 0 (Scalar nat 1%R) k) [units; inputs]) = Some w /\
  exists u sel, u < units /\ NoDup sel /\ (forall i, In i sel -> i < inputs /\ w [u; i] <> 0%R) /\ k < length sel.
Proof.
  exists 2, 3, 1, (fun _ => 0), (Some 0). eexists. split; [reflexivity|]. exists 0, [0; 1; 2]. split; [lia|]. split; [repeat constructor; cbn; lia|].
  split; [|cbn; lia]. intros i Hi. split; [cbn in Hi; lia|]. cbn in Hi. destruct Hi as [<-|[<-|[<-|[]]]]; cbn; lra.
Qed.
Print Assumptions C34_units_refuted.

(** Eight rows: two of each of four constants *)
Example C59_case : exists w, fst (evaluate nat num_seed num_gen rot (fun _ => 1) (Some 4) (Lstm nat 0 (Scalar nat 1) (Scalar nat 2) (Scalar nat 3) (Scalar nat 4)) [8; 3]) = Some w /\
  map (fun i => w [i; 0]) (seq 0 8) = [1; 1; 2; 2; 3; 3; 4; 4]%R /\
  fst (evaluate nat num_seed num_gen rot (fun _ => 1) (Some 4) (Lstm nat 0 (Scalar nat 1) (Scalar nat 2) (Scalar nat 3) (Scalar nat 4)) [7; 3]) = None.
Proof. eexists. split; [vm_compute; reflexivity|]. split; vm_compute; reflexivity. Qed.
