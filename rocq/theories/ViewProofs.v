(** Lemmas about ViewModel: creating views for a layout, and adjusting them to
    another layout of the same form. *)
From Coq Require Import String Ascii List Arith Bool Lia.
From Verif Require Import PyBase PyFacts UtilsModel ViewModel.
Import ListNotations.
Open Scope string_scope.
Open Scope list_scope.
Open Scope nat_scope.

Section Views.
  Variable A : Type.
  Notation value := (value A).
  Notation heap := (heap A).
  Notation obj := (obj A).
  Notation ltree := (ltree A).
  Notation create := (create A).

  (** Induction over layouts *)
  Section Ind.
    Variable P : ltree -> Prop.
    Hypothesis HA : forall a, P (LArr a).
    Hypothesis HV : forall full cs, Forall (fun c => P (snd c)) cs -> P (LView full cs).
    Fixpoint tree_ind (t : ltree) : P t :=
      match t with
      | LArr a => HA a
      | LView full cs => HV full cs
          ((fix go (cs : list (string * ltree)) : Forall (fun c => P (snd c)) cs :=
              match cs with [] => Forall_nil _ | c :: r => Forall_cons c (tree_ind (snd c)) (go r) end) cs)
      end.
  End Ind.

  (** The loop of [create] *)
  Definition loop (old : option value) :=
    fix loop (cs : list (string * ltree)) (names : list string) (bufs : list value) (h : heap)
      : vres (heap * list string * list value) :=
      match cs with
      | [] => VOk (h, names, bufs)
      | (n, sub) :: r =>
          if String.prefix "@" n then loop r names bufs h
          else
            try exn <- match old with
                       | None => VOk None
                       | Some v =>
                           try b <- contains A h v n;
                           try _ <- vguard b EAssertion;
                           try w <- get_item A h v n;
                           VOk (Some w)
                       end;
            try (h', c) <- create sub exn h;
            loop r (names ++ [n]) (bufs ++ [c]) h'
      end.
  Definition existing (ex : option value) (h : heap) : vres (option value) :=
    match ex with None => VOk None | Some v => try b <- truthy A h v; VOk (if b then Some v else None) end.
  Lemma create_view full cs ex h : create (LView full cs) ex h =
    try old <- existing ex h;
    try (h1, names, bufs) <- loop old cs [] [] h;
    match old with
    | Some (VRef p) => adjust A p names bufs full h1
    | Some (VArr _) => VErr EUnmodelled
    | None => new_view A names bufs full h1
    end.
  Proof. reflexivity. Qed.

  (** ** Names and forms *)
  (** Names of methods and attributes that views need *)
  Definition reserved : list string :=
    ["adjust"; "items"; "_asdict"; "_buffer_names"; "_keys"; "__class__"; "__dict__"; "__weakref__"].
  (** A name that takes the place of nothing a view needs *)
  Definition good_name (n : string) : Prop :=
    String.prefix "@" n = false /\ has_dot n = false /\ ~ In n reserved.
  Fixpoint good_tree (t : ltree) : Prop :=
    match t with
    | LArr _ => True
    | LView _ cs => NoDup (map fst cs) /\ Forall good_name (map fst cs) /\
        (fix all (cs : list (string * ltree)) := match cs with [] => True | c :: r => good_tree (snd c) /\ all r end) cs
    end.
  Lemma good_view full cs : good_tree (LView full cs) <->
    NoDup (map fst cs) /\ Forall good_name (map fst cs) /\ Forall (fun c => good_tree (snd c)) cs.
  Proof.
    cbn [good_tree].
    enough (E : (fix all (cs : list (string * ltree)) := match cs with [] => True | c :: r => good_tree (snd c) /\ all r end) cs <-> Forall (fun c => good_tree (snd c)) cs)
      by (rewrite E; reflexivity).
    induction cs as [|c r IH]; [split; constructor|]. rewrite IH. split; [intros [H1 H2]; now constructor|]. intros H. inversion_clear H. auto.
  Qed.
  (** The same names, arrays where there are arrays *)
  Fixpoint same_form (t u : ltree) : Prop :=
    match t, u with
    | LArr _, LArr _ => True
    | LView _ cs, LView _ ds =>
        (fix all (cs ds : list (string * ltree)) :=
           match cs, ds with
           | [], [] => True
           | c :: r, d :: s => fst c = fst d /\ same_form (snd c) (snd d) /\ all r s
           | _, _ => False
           end) cs ds
    | _, _ => False
    end.
  Lemma same_view f cs g ds : same_form (LView f cs) (LView g ds) <->
    Forall2 (fun c d => fst c = fst d /\ same_form (snd c) (snd d)) cs ds.
  Proof.
    cbn [same_form]. revert ds. induction cs as [|c r IH]; intros [|d s].
    - split; constructor.
    - split; [contradiction|intros H; inversion H].
    - split; [contradiction|intros H; inversion H].
    - rewrite IH. split; [intros [H1 [H2 H3]]; constructor; auto|]. intros H. inversion_clear H. tauto.
  Qed.
  Lemma same_names f cs g ds : same_form (LView f cs) (LView g ds) -> map fst cs = map fst ds.
  Proof. intros H. apply same_view in H. induction H as [|c d r s [H _] _ IH]; [reflexivity|]. cbn [map]. now rewrite H, IH. Qed.
  Lemma same_refl t : same_form t t.
  Proof. induction t as [a|f cs IH] using tree_ind; [exact I|]. apply same_view. induction IH; constructor; auto. Qed.
  Lemma same_trans t : forall u v, same_form t u -> same_form u v -> same_form t v.
  Proof.
    induction t as [a|f cs IH] using tree_ind; intros [|g ds] [|k es]; try (cbn; tauto).
    intros H1 H2. apply same_view in H1, H2. apply same_view. revert ds es H1 H2.
    induction IH as [|c r Hc _ IHr]; intros ds es H1 H2; inversion H1; subst; inversion H2; subst; constructor.
    - destruct H3, H4. split; [congruence|eauto].
    - eauto.
  Qed.
  Lemma same_good t : forall u, same_form t u -> good_tree t -> good_tree u.
  Proof.
    induction t as [a|f cs IH] using tree_ind; intros [|g ds]; try (cbn; tauto).
    intros H G. apply good_view in G. destruct G as [G1 [G2 G3]]. apply good_view.
    rewrite <- (same_names _ _ _ _ H). split; [exact G1|]. split; [exact G2|]. apply same_view in H. clear G1 G2.
    revert ds H. induction IH as [|c r Hc _ IHr]; intros ds H; inversion H; subst; constructor; inversion G3; subst.
    - destruct H2. eauto.
    - eauto.
  Qed.

  (** ** The attributes of a view *)
  Lemma set_children_other names bufs attrs k : ~ In k names ->
    dget k (set_children A names bufs attrs) = dget k attrs.
  Proof.
    unfold set_children. revert bufs attrs. induction names as [|n r IH]; intros [|b bufs] attrs H; try reflexivity.
    cbn [combine fold_left fst snd]. rewrite IH by (intros X; apply H; now right).
    rewrite dget_dset_other; [reflexivity|]. intros ->. apply H. now left.
  Qed.
  Lemma set_children_here names bufs attrs : NoDup names -> length bufs = length names ->
    Forall2 (fun n b => dget n (set_children A names bufs attrs) = Some (AVal b)) names bufs.
  Proof.
    revert bufs attrs. induction names as [|n r IH]; intros [|b bufs] attrs N L; try discriminate; constructor.
    - inversion_clear N as [|? ? N1 N2]. unfold set_children. cbn [combine fold_left fst snd].
      change (dget n (set_children A r bufs (dset n (AVal b) attrs)) = Some (AVal b)).
      rewrite set_children_other by exact N1. apply dget_dset_same.
    - inversion_clear N as [|? ? N1 N2]. apply (IH bufs (dset n (AVal b) attrs) N2). now injection L.
  Qed.
  Lemma distinct_names_In l n : In n (distinct_names l) <-> In n l.
  Proof.
    induction l as [|m r IH]; [tauto|]. cbn [distinct_names]. destruct (smem m r) eqn:E.
    - apply smem_In in E. rewrite IH. cbn [In]. split; [tauto|]. intros [->|]; tauto.
    - cbn [In]. rewrite IH. tauto.
  Qed.
  Record attrs_ok (o : obj) (names : list string) (full : option A) : Prop := {
    ao_names : dget "_buffer_names" (o_attrs o) = Some (ANames names);
    ao_keys : exists ks, dget "_keys" (o_attrs o) = Some (ANames ks) /\ forall n, In n ks <-> In n names;
    ao_children : Forall2 (fun n b => dget n (o_attrs o) = Some (AVal b)) names (o_list o);
    ao_other : forall k, ~ In k names -> ~ In k ["_full_buffer"; "_buffer_names"; "_keys"] -> dget k (o_attrs o) = None;
    ao_full : ~ In "_full_buffer" names -> dget "_full_buffer" (o_attrs o) = Some (full_attr A full)
  }.
  Lemma good_not names n : Forall good_name names ->
    In n reserved -> ~ In n names.
  Proof. intros G H X. rewrite Forall_forall in G. destruct (G n X) as [_ [_ N]]. contradiction. Qed.
  Lemma new_attrs names bufs full : NoDup names -> Forall good_name names -> length bufs = length names ->
    attrs_ok (mkObj bufs (set_children A names bufs [("_full_buffer", full_attr A full); ("_buffer_names", ANames names);
                                                     ("_keys", ANames (distinct_names names))])) names full.
  Proof.
    intros N G L. constructor; cbn [o_list o_attrs].
    - rewrite set_children_other; [reflexivity|]. apply (good_not _ _ G). cbn; tauto.
    - exists (distinct_names names). split; [|apply distinct_names_In].
      rewrite set_children_other; [reflexivity|]. apply (good_not _ _ G). cbn; tauto.
    - now apply set_children_here.
    - intros k K1 K2. rewrite set_children_other by exact K1. cbn [dget].
      repeat (match goal with |- context [String.eqb k ?x] => destruct (String.eqb_spec k x) as [->|] end; [exfalso; apply K2; cbn; tauto|]).
      reflexivity.
    - intros K. now rewrite set_children_other.
  Qed.
  Lemma adjusted_attrs o names bufs full full' : NoDup names -> Forall good_name names -> length bufs = length names ->
    attrs_ok o names full ->
    attrs_ok (mkObj bufs (set_children A names bufs (dset "_full_buffer" (full_attr A full') (o_attrs o)))) names full'.
  Proof.
    intros N G L [H1 [ks [H2 H2']] H3 H4 H5]. constructor; cbn [o_list o_attrs].
    - rewrite set_children_other by (apply (good_not _ _ G); cbn; tauto). rewrite dget_dset_other by discriminate. exact H1.
    - exists ks. split; [|exact H2']. rewrite set_children_other by (apply (good_not _ _ G); cbn; tauto).
      rewrite dget_dset_other by discriminate. exact H2.
    - now apply set_children_here.
    - intros k K1 K2. rewrite set_children_other by exact K1. rewrite dget_dset_other; [now apply H4|].
      intros ->. apply K2. cbn; tauto.
    - intros K. rewrite set_children_other by exact K. apply dget_dset_same.
  Qed.

  (** ** A value that shows a layout; [fp]: the addresses of its views *)
  Fixpoint shows (h : heap) (t : ltree) (v : value) (fp : list nat) : Prop :=
    match t with
    | LArr a => v = VArr a /\ fp = []
    | LView full cs => exists p o fps, v = VRef p /\ nth_error h p = Some o /\ fp = p :: concat fps /\
        attrs_ok o (map fst cs) full /\
        (fix all (cs : list (string * ltree)) (xs : list value) (fps : list (list nat)) :=
           match cs, xs, fps with
           | [], [], [] => True
           | c :: r, x :: xs, f :: fps => shows h (snd c) x f /\ all r xs fps
           | _, _, _ => False
           end) cs (o_list o) fps
    end.
  Fixpoint all_show (h : heap) (cs : list (string * ltree)) (xs : list value) (fps : list (list nat)) : Prop :=
    match cs, xs, fps with
    | [], [], [] => True
    | c :: r, x :: xs, f :: fps => shows h (snd c) x f /\ all_show h r xs fps
    | _, _, _ => False
    end.
  Lemma shows_view h full cs v fp : shows h (LView full cs) v fp <->
    exists p o fps, v = VRef p /\ nth_error h p = Some o /\ fp = p :: concat fps /\ attrs_ok o (map fst cs) full /\ all_show h cs (o_list o) fps.
  Proof.
    cbn [shows].
    assert (E : forall cs xs fps, (fix all (cs : list (string * ltree)) (xs : list value) (fps : list (list nat)) :=
           match cs, xs, fps with
           | [], [], [] => True
           | c :: r, x :: xs, f :: fps => shows h (snd c) x f /\ all r xs fps
           | _, _, _ => False
           end) cs xs fps <-> all_show h cs xs fps).
    { induction cs0 as [|c r IH]; intros [|x xs] [|f fps]; try reflexivity. cbn [all_show]. now rewrite IH. }
    split; intros [p [o [fps [H1 [H2 [H3 [H4 H5]]]]]]]; exists p, o, fps; (split; [exact H1|]; split; [exact H2|]; split; [exact H3|]; split; [exact H4|]; now apply E).
  Qed.
  Lemma all_show_length h cs xs fps : all_show h cs xs fps -> length xs = length cs.
  Proof. revert xs fps. induction cs as [|c r IH]; intros [|x xs] [|f fps] H; try contradiction; [reflexivity|]. cbn [length]. f_equal. apply (IH xs fps). exact (proj2 H). Qed.
  Lemma shows_frame h h' t : forall v fp, shows h t v fp -> (forall q, In q fp -> nth_error h' q = nth_error h q) -> shows h' t v fp.
  Proof.
    induction t as [a|full cs IH] using tree_ind; intros v fp H F; [exact H|].
    apply shows_view in H. destruct H as [p [o [fps [-> [H2 [-> [H4 H5]]]]]]].
    apply shows_view. exists p, o, fps. split; [reflexivity|]. split; [rewrite (F p (or_introl eq_refl)); exact H2|]. split; [reflexivity|].
    split; [exact H4|]. assert (F' : forall q, In q (concat fps) -> nth_error h' q = nth_error h q) by (intros; apply F; now right).
    clear F H2 H4. revert H5 F'. generalize (o_list o) as xs. revert fps. induction IH as [|c r Hc _ IHr]; intros [|f fps] [|x xs] H5 F'; try contradiction; [exact I|].
    cbn [all_show] in *. cbn [concat] in F'. split.
    - apply Hc; [tauto|]. intros q Hq. apply F'. apply in_or_app. now left.
    - apply IHr; [tauto|]. intros q Hq. apply F'. apply in_or_app. now right.
  Qed.
  Lemma all_show_frame h h' cs xs fps : all_show h cs xs fps -> (forall q, In q (concat fps) -> nth_error h' q = nth_error h q) -> all_show h' cs xs fps.
  Proof.
    revert xs fps. induction cs as [|c r IH]; intros [|x xs] [|f fps] H F; try contradiction; [exact I|].
    cbn [all_show concat] in *. split.
    - apply (shows_frame h); [tauto|]. intros q Hq. apply F, in_or_app. now left.
    - apply IH; [tauto|]. intros q Hq. apply F, in_or_app. now right.
  Qed.
  Lemma shows_bound h t v fp : shows h t v fp -> forall q, In q fp -> q < length h.
  Proof.
    revert v fp. induction t as [a|full cs IH] using tree_ind; intros v fp H q Hq.
    { destruct H as [_ ->]. destruct Hq. }
    apply shows_view in H. destruct H as [p [o [fps [-> [H2 [-> [H4 H5]]]]]]].
    destruct Hq as [->|Hq]; [apply nth_error_Some; congruence|].
    clear H2 H4. revert H5 Hq. generalize (o_list o) as xs. revert fps. induction IH as [|c r Hc _ IHr]; intros [|f fps] [|x xs] H5 Hq; try contradiction.
    cbn [all_show concat] in *. apply in_app_or in Hq. destruct Hq as [Hq|Hq]; [apply (Hc x f); tauto|apply (IHr fps xs); tauto].
  Qed.

  (** ** Access to views *)
  Lemma child_at names (bufs : list value) n : forall (P : string -> value -> Prop), Forall2 P names bufs -> In n names -> exists b, P n b.
  Proof. intros P H. induction H as [|x y r s Hx _ IH]; intros X; [destruct X|]. destruct X as [->|X]; eauto. Qed.
  Lemma get_key_ok h p o names full n : nth_error h p = Some o -> attrs_ok o names full -> In n names ->
    exists b, dget n (o_attrs o) = Some (AVal b) /\ get_key A h (VRef p) n = VOk b.
  Proof.
    intros H1 [N1 [ks [K1 K2]] C1 _ _] H3. destruct (child_at _ _ n _ C1 H3) as [b Hb]. exists b. split; [exact Hb|].
    unfold get_key, at_ref, names_attr. rewrite H1. cbn [vbind]. rewrite K1. cbn [vbind].
    assert (X : smem n ks = true) by (apply smem_In, K2; exact H3). rewrite X, Hb. reflexivity.
  Qed.
  Lemma get_item_key h p o names full n : nth_error h p = Some o -> attrs_ok o names full -> In n names ->
    get_item A h (VRef p) n = get_key A h (VRef p) n.
  Proof.
    intros H1 [N1 [ks [K1 K2]] C1 _ _] H3. unfold get_item, at_ref, names_attr. rewrite H1. cbn [vbind]. rewrite K1. cbn [vbind].
    assert (X : smem n ks = true) by (apply smem_In, K2; exact H3). now rewrite X.
  Qed.
  Lemma contains_ok h p o names full n : nth_error h p = Some o -> attrs_ok o names full -> In n names ->
    contains A h (VRef p) n = VOk true.
  Proof.
    intros H1 H2 H3. unfold contains, at_ref, names_attr. rewrite H1. cbn [vbind]. rewrite (ao_names _ _ _ H2). cbn [vbind].
    now replace (smem n names) with true by (symmetry; now apply smem_In).
  Qed.

  (** ** New views *)
  Definition fresh_in (h h' : heap) (fp : list nat) : Prop := forall q, In q fp -> length h <= q < length h'.
  Lemma NoDup_app_intro {X} (l m : list X) : NoDup l -> NoDup m -> (forall x, In x l -> ~ In x m) -> NoDup (l ++ m).
  Proof.
    induction l as [|x l IH]; intros N1 N2 D; [exact N2|]. inversion_clear N1 as [|? ? X1 X2]. cbn [app]. constructor.
    - rewrite in_app_iff. intros [H|H]; [contradiction|]. apply (D x); [now left|exact H].
    - apply IH; auto. intros y Hy. apply D. now right.
  Qed.
  Lemma create_new t : good_tree t -> forall h, exists ext v fp,
    create t None h = VOk (h ++ ext, v) /\ shows (h ++ ext) t v fp /\ NoDup fp /\ fresh_in h (h ++ ext) fp.
  Proof.
    induction t as [a|full cs IH] using tree_ind; intros G h.
    { exists [], (VArr a), []. rewrite app_nil_r. split; [reflexivity|]. split; [split; reflexivity|]. split; [constructor|]. intros q []. }
    apply good_view in G. destruct G as [G1 [G2 G3]].
    assert (L : forall cs, Forall (fun c => good_tree (snd c) -> forall h, exists ext v fp,
                  create (snd c) None h = VOk (h ++ ext, v) /\ shows (h ++ ext) (snd c) v fp /\ NoDup fp /\ fresh_in h (h ++ ext) fp) cs ->
              Forall good_name (map fst cs) -> Forall (fun c => good_tree (snd c)) cs ->
              forall names bufs h, exists ext xs fps,
                loop None cs names bufs h = VOk (h ++ ext, names ++ map fst cs, bufs ++ xs) /\
                all_show (h ++ ext) cs xs fps /\ NoDup (concat fps) /\ fresh_in h (h ++ ext) (concat fps)).
    { clear. induction 1 as [|[n sub] r Hc _ IHr]; intros G2 G3 names bufs h.
      - exists [], [], []. cbn [loop map]. rewrite !app_nil_r. split; [reflexivity|]. split; [exact I|]. split; [constructor|]. intros q [].
      - inversion_clear G3 as [|? ? G3' G3'']. inversion_clear G2 as [|? ? G2' G2''].
        destruct (Hc G3' h) as [ext [v [fp [E1 [E2 [E3 E4]]]]]].
        destruct (IHr G2'' G3'' (names ++ [n]) (bufs ++ [v]) (h ++ ext)) as [ext' [xs [fps [F1 [F2 [F3 F4]]]]]].
        exists (ext ++ ext'), (v :: xs), (fp :: fps). rewrite app_assoc.
        assert (GG : forall q, In q fp -> nth_error ((h ++ ext) ++ ext') q = nth_error (h ++ ext) q).
        { intros q Hq. apply nth_error_app1. apply E4 in Hq. lia. }
        split; [|split; [|split]].
        + cbn [loop]. destruct G2' as [-> _]. cbn [snd] in E1. cbn [vbind]. rewrite E1. cbn [vbind].
          change (loop None r (names ++ [n]) (bufs ++ [v]) (h ++ ext) = VOk ((h ++ ext) ++ ext', names ++ map fst ((n, sub) :: r), bufs ++ v :: xs)).
          rewrite F1. cbn [map fst]. rewrite <- !app_assoc. reflexivity.
        + cbn [all_show]. split; [|exact F2]. now apply (shows_frame (h ++ ext)).
        + cbn [concat]. apply NoDup_app_intro; auto. intros q Hq Hq'. apply E4 in Hq. apply F4 in Hq'. lia.
        + cbn [concat]. intros q Hq. apply in_app_or in Hq. rewrite !app_length in *. destruct Hq as [Hq|Hq].
          * apply E4 in Hq. rewrite !app_length in Hq. lia.
          * apply F4 in Hq. rewrite !app_length in Hq. lia. }
    destruct (L cs IH G2 G3 [] [] h) as [ext [xs [fps [E1 [E2 [E3 E4]]]]]].
    rewrite create_view. cbn [existing vbind]. rewrite E1. cbn [vbind app].
    assert (Len : length xs = length (map fst cs)) by (rewrite map_length; now apply (all_show_length (h ++ ext) cs xs fps)).
    unfold new_view. rewrite Len, Nat.eqb_refl.
    set (o := mkObj xs _). exists (ext ++ [o]), (VRef (length (h ++ ext))), (length (h ++ ext) :: concat fps).
    split; [now rewrite app_assoc|]. rewrite app_assoc. split; [|split].
    - apply shows_view. exists (length (h ++ ext)), o, fps. split; [reflexivity|].
      split; [rewrite nth_error_app2, Nat.sub_diag by lia; reflexivity|]. split; [reflexivity|].
      split; [now apply new_attrs|]. apply (all_show_frame (h ++ ext)); [exact E2|].
      intros q Hq. apply nth_error_app1. apply E4 in Hq. lia.
    - constructor; [|exact E3]. intros X. apply E4 in X. lia.
    - intros q [<-|Hq]; rewrite !app_length in *; cbn [length]; [lia|]. apply E4 in Hq. rewrite !app_length in Hq. lia.
  Qed.

  (** ** Paths *)
  (** The part of a layout that a path leads to *)
  Fixpoint node (t : ltree) (path : list string) : option ltree :=
    match path with
    | [] => Some t
    | n :: r => match t with
                | LView _ cs => match dget n cs with Some s => node s r | None => None end
                | LArr _ => None
                end
    end.
  Lemma child_shown h (P : string -> value -> Prop) n s : forall cs xs fps,
    all_show h cs xs fps -> Forall2 P (map fst cs) xs -> dget n cs = Some s ->
    exists x f, shows h s x f /\ incl f (concat fps) /\ P n x.
  Proof.
    induction cs as [|[m u] r IH]; intros [|x xs] [|f fps] H1 H2 H3; try contradiction; [discriminate|].
    cbn [all_show map fst snd concat dget] in *. inversion H2; subst. destruct (String.eqb_spec n m) as [->|Ne].
    - injection H3 as ->. exists x, f. split; [tauto|]. split; [apply incl_appl, incl_refl|assumption].
    - destruct (IH xs fps) as [y [g [Y1 [Y2 Y3]]]]; auto; [tauto|]. exists y, g. split; [exact Y1|]. split; [now apply incl_appr|exact Y3].
  Qed.
  Lemma dget_names {V} n (cs : list (string * V)) s : dget n cs = Some s -> In n (map fst cs).
  Proof. intros H. apply dget_In in H. now apply (in_map fst) in H. Qed.
  Lemma get_key_child h p o full cs fps n s : nth_error h p = Some o -> attrs_ok o (map fst cs) full -> all_show h cs (o_list o) fps ->
    dget n cs = Some s -> exists x f, get_key A h (VRef p) n = VOk x /\ dget n (o_attrs o) = Some (AVal x) /\ shows h s x f /\ incl f (concat fps).
  Proof.
    intros H1 H2 H3 H4. destruct (child_shown h _ n s cs _ _ H3 (ao_children _ _ _ H2) H4) as [x [f [X1 [X2 X3]]]].
    exists x, f. split; [|auto]. destruct (get_key_ok h p o _ _ n H1 H2 (dget_names _ _ _ H4)) as [b [B1 B2]]. rewrite B2. congruence.
  Qed.
  Lemma walk_shows h : forall path t v fp u, shows h t v fp -> node t path = Some u ->
    exists w f, walk A (get_key A h) v path = VOk w /\ shows h u w f /\ incl f fp.
  Proof.
    induction path as [|n r IH]; intros t v fp u H1 H2.
    - injection H2 as <-. exists v, fp. split; [reflexivity|]. split; [exact H1|apply incl_refl].
    - destruct t as [a|full cs]; [discriminate|]. cbn [node] in H2. destruct (dget n cs) as [s|] eqn:E; [|discriminate].
      apply shows_view in H1. destruct H1 as [p [o [fps [-> [K2 [-> [K4 K5]]]]]]].
      destruct (get_key_child h p o full cs fps n s K2 K4 K5 E) as [x [f [X1 [_ [X2 X3]]]]].
      destruct (IH s x f u X2 H2) as [w [g [W1 [W2 W3]]]]. exists w, g. split; [|split; [exact W2|]].
      + cbn [walk]. rewrite X1. exact W1.
      + intros q Hq. right. apply X3, W3, Hq.
  Qed.
  Lemma get_key_agree h h' p n : nth_error h' p = nth_error h p -> get_key A h' (VRef p) n = get_key A h (VRef p) n.
  Proof. intros E. unfold get_key, at_ref. now rewrite E. Qed.
  Lemma walk_agree h h' : forall path t v fp u, shows h t v fp -> (forall q, In q fp -> nth_error h' q = nth_error h q) -> node t path = Some u ->
    walk A (get_key A h') v path = walk A (get_key A h) v path.
  Proof.
    induction path as [|n r IH]; intros t v fp u H1 F H2; [reflexivity|].
    destruct t as [a|full cs]; [discriminate|]. cbn [node] in H2. destruct (dget n cs) as [s|] eqn:E; [|discriminate].
    apply shows_view in H1. destruct H1 as [p [o [fps [-> [K2 [-> [K4 K5]]]]]]].
    destruct (get_key_child h p o full cs fps n s K2 K4 K5 E) as [x [f [X1 [_ [X2 X3]]]]].
    cbn [walk]. rewrite (get_key_agree h h' p n (F p (or_introl eq_refl))), X1. cbn [vbind].
    apply (IH s x f u X2); [|exact H2]. intros q Hq. apply F. right. now apply X3.
  Qed.

  (** ** Existing views *)
  (** All views with children are the same objects *)
  Definition ident (h h' : heap) (t : ltree) (v v' : value) : Prop :=
    forall path full c cs, node t path = Some (LView full (c :: cs)) ->
      walk A (get_key A h') v' path = walk A (get_key A h) v path.
  Fixpoint all_ident (h h' : heap) (cs : list (string * ltree)) (xs ys : list value) : Prop :=
    match cs, xs, ys with
    | [], [], [] => True
    | c :: r, x :: xs, y :: ys => ident h h' (snd c) x y /\ all_ident h h' r xs ys
    | _, _, _ => False
    end.
  Definition updated (h h' : heap) (fp fp' : list nat) : Prop :=
    length h <= length h' /\
    (forall q, q < length h -> ~ In q fp -> nth_error h' q = nth_error h q) /\
    (forall q, In q fp' -> In q fp \/ length h <= q < length h').
  Lemma ident_frame h0 h1 h2 h3 t t' v v' fp fp' : same_form t t' ->
    shows h1 t v fp -> (forall q, In q fp -> nth_error h1 q = nth_error h0 q) ->
    shows h2 t' v' fp' -> (forall q, In q fp' -> nth_error h3 q = nth_error h2 q) ->
    ident h1 h2 t' v v' -> ident h0 h3 t' v v'.
  Proof.
    intros S H1 F1 H2 F2 I path full c cs N.
    rewrite (walk_agree h2 h3 path t' v' fp' _ H2 F2 N), (I path full c cs N).
    assert (X : exists u, node t path = Some u).
    { clear -S N. revert t t' S N. induction path as [|n r IH]; intros t t' S N; [exists t; reflexivity|].
      destruct t as [|f cs0], t' as [|g ds]; try contradiction; try discriminate. cbn [node] in *. apply same_view in S.
      destruct (dget n ds) as [d|] eqn:E; [|discriminate].
      assert (Y : exists s, dget n cs0 = Some s /\ same_form s d).
      { clear -S E. induction S as [|[m s] [m' s'] r r' [Hm Hs] _ IH]; [discriminate|]. cbn [dget fst snd] in *. subst m'.
        destruct (String.eqb n m); [injection E as ->; eauto|auto]. }
      destruct Y as [s [-> Ys]]. now apply (IH s d). }
    destruct X as [u Hu]. symmetry. apply (walk_agree h1 h0 path t v fp u H1); [|exact Hu]. intros q Hq. symmetry. now apply F1.
  Qed.
  Definition adjusts (t' : ltree) : Prop := forall t v fp h, good_tree t' -> same_form t t' -> shows h t v fp -> NoDup fp ->
    exists h' v' fp', create t' (Some v) h = VOk (h', v') /\ shows h' t' v' fp' /\ NoDup fp' /\ updated h h' fp fp' /\ ident h h' t' v v'.
  Lemma loop_old p o : forall ds, Forall (fun d => adjusts (snd d)) ds -> Forall good_name (map fst ds) -> Forall (fun d => good_tree (snd d)) ds ->
    forall cs xs fps names bufs h,
    Forall2 (fun c d => fst c = fst d /\ same_form (snd c) (snd d)) cs ds ->
    all_show h cs xs fps -> NoDup (concat fps) -> ~ In p (concat fps) -> nth_error h p = Some o ->
    (forall h2, nth_error h2 p = Some o -> Forall2 (fun n x => contains A h2 (VRef p) n = VOk true /\ get_item A h2 (VRef p) n = VOk x) (map fst ds) xs) ->
    exists h' ys fps', loop (Some (VRef p)) ds names bufs h = VOk (h', names ++ map fst ds, bufs ++ ys) /\
      all_show h' ds ys fps' /\ NoDup (concat fps') /\ updated h h' (concat fps) (concat fps') /\ all_ident h h' ds xs ys.
  Proof.
    induction 1 as [|[n sub] ds Hd _ IH]; intros G2 G3 cs xs fps names bufs h S H N Np Ho Hget.
    - inversion S; subst. destruct xs as [|x xs], fps as [|f fps]; try contradiction.
      exists h, [], []. cbn [loop map]. rewrite !app_nil_r. split; [reflexivity|]. split; [exact I|]. split; [constructor|].
      split; [|exact I]. split; [lia|]. split; [reflexivity|]. intros q [].
    - inversion S as [|[m s] ? cs' ? [Hm Hs] S']; subst. cbn [fst snd] in Hm, Hs. subst m. destruct xs as [|x xs], fps as [|f fps]; try contradiction.
      destruct H as [Hx H]. cbn [snd concat] in Hx, N, Np.
      inversion_clear G2 as [|? ? G2' G2'']. inversion_clear G3 as [|? ? G3' G3''].
      assert (NN : NoDup f /\ NoDup (concat fps) /\ forall q, In q f -> ~ In q (concat fps)).
      { clear -N. induction f as [|a f IH]; [split; [constructor|split; [exact N|intros q []]]|]. cbn [app] in N. inversion_clear N as [|? ? N1 N2].
        destruct (IH N2) as [I1 [I2 I3]]. rewrite in_app_iff in N1. split; [constructor; tauto|]. split; [exact I2|]. intros q [<-|Hq]; [tauto|auto]. }
      destruct NN as [N1 [N2 N3]].
      destruct (Hd s x f h G3' Hs Hx N1) as [h1 [y [f' [E1 [E2 [E3 [[E4 [E5 E6]] E7]]]]]]]. cbn [snd] in E1, E2, E7.
      assert (Lp : p < length h) by (apply nth_error_Some; congruence).
      assert (Ho1 : nth_error h1 p = Some o) by (rewrite E5; [exact Ho|exact Lp|intros X; apply Np, in_or_app; now left]).
      assert (Fr : forall q, In q (concat fps) -> nth_error h1 q = nth_error h q).
      { intros q Hq. apply E5; [|intros X; apply (N3 q X Hq)]. clear -H Hq. revert xs fps H Hq. induction cs' as [|c r IHc]; intros [|z zs] [|g gs] H Hq; try contradiction.
        cbn [all_show concat] in *. apply in_app_or in Hq. destruct Hq as [Hq|Hq]; [apply (shows_bound h (snd c) z g (proj1 H) q Hq)|apply (IHc zs gs (proj2 H) Hq)]. }
      destruct (IH G2'' G3'' cs' xs fps (names ++ [n]) (bufs ++ [y]) h1 S' (all_show_frame h h1 _ _ _ H Fr) N2) as [h2 [ys [fps' [K1 [K2 [K3 [[K4 [K5 K6]] K7]]]]]]].
      { intros X. apply Np, in_or_app. now right. }
      { exact Ho1. }
      { intros h3 H3. specialize (Hget h3 H3). cbn [map fst] in Hget. now inversion Hget. }
      assert (Bp : forall q, In q f' -> q < length h1 /\ ~ In q (concat fps)).
      { intros q Hq. split; [now apply (shows_bound h1 sub y f')|]. intros X. apply E6 in Hq. destruct Hq as [Hq|Hq]; [exact (N3 q Hq X)|].
        assert (q < length h); [|lia].
        clear -H X. revert xs fps H X. induction cs' as [|c r IHc]; intros [|z zs] [|g gs] H X; try contradiction.
        cbn [all_show concat] in *. apply in_app_or in X. destruct X as [X|X]; [apply (shows_bound h (snd c) z g (proj1 H) q X)|apply (IHc zs gs (proj2 H) X)]. }
      assert (Fr2 : forall q, In q f' -> nth_error h2 q = nth_error h1 q).
      { intros q Hq. destruct (Bp q Hq). now apply K5. }
      exists h2, (y :: ys), (f' :: fps'). split; [|split; [|split; [|split]]].
      + cbn [loop]. destruct G2' as [-> _]. specialize (Hget h Ho). cbn [map fst] in Hget. inversion Hget as [|? ? ? ? [X1 X2] _]; subst.
        rewrite X1. cbn [vbind vguard]. rewrite X2. cbn [vbind]. rewrite E1. cbn [vbind].
        change (loop (Some (VRef p)) ds (names ++ [n]) (bufs ++ [y]) h1 = VOk (h2, names ++ map fst ((n, sub) :: ds), bufs ++ y :: ys)).
        rewrite K1. cbn [map fst]. rewrite <- !app_assoc. reflexivity.
      + cbn [all_show snd]. split; [|exact K2]. now apply (shows_frame h1).
      + cbn [concat]. apply NoDup_app_intro; auto. intros q Hq Hq'. destruct (Bp q Hq) as [B1 B2]. apply K6 in Hq'. destruct Hq' as [|]; [contradiction|lia].
      + cbn [concat]. split; [lia|]. split.
        * intros q L Hq. rewrite in_app_iff in Hq. rewrite K5; [|lia|tauto]. apply E5; [exact L|tauto].
        * intros q Hq. rewrite in_app_iff. apply in_app_or in Hq. destruct Hq as [Hq|Hq].
          -- apply E6 in Hq. destruct Hq; [tauto|right; lia].
          -- apply K6 in Hq. destruct Hq; [tauto|right; lia].
      + cbn [all_ident snd]. split.
        * apply (ident_frame h h h1 h2 s sub x y f f'); auto.
        * clear -K7 S' H Fr K2. revert K7 S' H Fr K2. revert xs fps ys fps' ds. induction cs' as [|c r IHc]; intros xs fps ys fps' ds K7 S' H Fr K2; inversion S' as [|? d ? r' [_ Hcd] S'']; subst;
            destruct xs as [|z zs], ys as [|y ys], fps as [|g gs], fps' as [|g' gs']; try contradiction; [exact I|].
          cbn [all_ident all_show concat] in *. split.
          -- apply (ident_frame h h1 h2 h2 (snd c) (snd d) z y g g'); try tauto; auto.
             ++ apply (shows_frame h); [tauto|]. intros q Hq. apply Fr, in_or_app. now left.
             ++ intros q Hq. apply Fr, in_or_app. now left.
          -- apply (IHc zs gs ys gs'); try tauto. intros q Hq. apply Fr, in_or_app. now right.
  Qed.

  Lemma nth_error_set_obj (h : heap) p o q : p < length h -> nth_error (set_obj A p o h) q = if q =? p then Some o else nth_error h q.
  Proof.
    intros L. unfold set_obj. destruct (Nat.eqb_spec q p) as [->|Ne].
    - rewrite nth_error_app2; rewrite firstn_length_le by lia; [now rewrite Nat.sub_diag|lia].
    - destruct (Nat.lt_ge_cases q p) as [Lq|Lq].
      + rewrite nth_error_app1 by (rewrite firstn_length_le; lia). clear L. revert q p Ne Lq. induction h as [|x h IH]; intros [|q] [|p] Ne Lq; cbn; try lia; auto. apply IH; lia.
      + rewrite nth_error_app2; rewrite firstn_length_le by lia; [|lia]. destruct (q - p) as [|k] eqn:E; [lia|]. cbn [nth_error].
        replace q with (S p + k) by lia. clear. generalize (S p) as m. induction h as [|x h IH]; intros [|m]; cbn [skipn Nat.add nth_error]; try reflexivity; [now destruct k|apply IH].
  Qed.
  Lemma set_obj_length (h : heap) p o : p < length h -> length (set_obj A p o h) = length h.
  Proof. intros L. unfold set_obj. rewrite app_length, firstn_length_le by lia. cbn [length]. rewrite skipn_length. lia. Qed.
  Lemma all_ident_child h h' (P Q : string -> value -> Prop) n s : forall cs xs ys,
    all_ident h h' cs xs ys -> Forall2 P (map fst cs) xs -> Forall2 Q (map fst cs) ys -> dget n cs = Some s ->
    exists x y, P n x /\ Q n y /\ ident h h' s x y.
  Proof.
    induction cs as [|[m u] r IH]; intros [|x xs] [|y ys] H1 H2 H3 H4; try contradiction; [discriminate|].
    cbn [all_ident map fst snd dget] in *. inversion H2; subst. inversion H3; subst. destruct (String.eqb_spec n m) as [->|Ne].
    - injection H4 as ->. exists x, y. tauto.
    - apply (IH xs ys); tauto.
  Qed.
  Lemma ident_agree h h1 h2 t v v' fp' : shows h1 t v' fp' -> (forall q, In q fp' -> nth_error h2 q = nth_error h1 q) -> ident h h1 t v v' -> ident h h2 t v v'.
  Proof. intros S F I path full c cs N. rewrite (walk_agree h1 h2 path t v' fp' _ S F N). now apply (I path full c cs). Qed.

  Lemma create_old t' : adjusts t'.
  Proof.
    induction t' as [a|g ds IH] using tree_ind; intros t v fp h G S H N.
    { exists h, (VArr a), []. split; [reflexivity|]. split; [split; reflexivity|]. split; [constructor|]. split.
      - split; [lia|]. split; [reflexivity|]. intros q [].
      - intros [|n r] full c cs E; discriminate. }
    destruct t as [|f cs]; [contradiction|]. assert (EN := same_names _ _ _ _ S).
    destruct ds as [|d ds].
    - (* no children: a new view *)
      apply same_view in S. inversion S; subst. apply shows_view in H. destruct H as [p [o [fps [-> [H2 [-> [H4 H5]]]]]]].
      destruct (o_list o) as [|x xs] eqn:EL; [|contradiction]. destruct fps; [|contradiction].
      assert (C : create (LView g []) (Some (VRef p)) h = create (LView g []) None h).
      { rewrite !create_view. cbn [existing]. unfold truthy, at_ref. rewrite H2. cbn [vbind]. now rewrite EL. }
      rewrite C. destruct (create_new (LView g []) G h) as [ext [w [fp [E1 [E2 [E3 E4]]]]]].
      exists (h ++ ext), w, fp. split; [exact E1|]. split; [exact E2|]. split; [exact E3|]. split.
      + split; [rewrite app_length; lia|]. split; [intros q L _; now apply nth_error_app1|]. intros q Hq. right. now apply E4.
      + intros [|n r] full c cs E; discriminate.
    - apply good_view in G. destruct G as [G1 [G2 G3]]. assert (S' := proj1 (same_view _ _ _ _) S).
      apply shows_view in H. destruct H as [p [o [fps [-> [H2 [-> [H4 H5]]]]]]].
      inversion_clear N as [|? ? N1 N2]. assert (Lp : p < length h) by (apply nth_error_Some; congruence).
      assert (T : existing (Some (VRef p)) h = VOk (Some (VRef p))).
      { unfold existing, truthy, at_ref. rewrite H2. cbn [vbind]. destruct (o_list o) as [|x xs] eqn:EL; [|reflexivity].
        assert (X := all_show_length _ _ _ _ H5). inversion S'; subst. discriminate. }
      rewrite create_view, T. cbn [vbind].
      destruct (loop_old p o (d :: ds) IH G2 G3 cs (o_list o) fps [] [] h S' H5 N2 N1 H2) as [h1 [ys [fps' [K1 [K2 [K3 [[K4 [K5 K6]] K7]]]]]]].
      { intros h2 X. rewrite <- EN. assert (C := ao_children _ _ _ H4).
        assert (Y : forall n x, In n (map fst cs) -> dget n (o_attrs o) = Some (AVal x) -> contains A h2 (VRef p) n = VOk true /\ get_item A h2 (VRef p) n = VOk x).
        { intros n x Hn Hx. split; [now apply (contains_ok h2 p o (map fst cs) f)|]. rewrite (get_item_key h2 p o (map fst cs) f n X H4 Hn).
          destruct (get_key_ok h2 p o _ _ n X H4 Hn) as [b [B1 B2]]. rewrite B2. congruence. }
        revert Y C. clear. generalize (o_list o). generalize (map fst cs). intros l xs Y C.
        assert (Z : forall n x, In n l -> dget n (o_attrs o) = Some (AVal x) -> contains A h2 (VRef p) n = VOk true /\ get_item A h2 (VRef p) n = VOk x) by auto.
        clear Y. induction C as [|n x l xs Hx _ IHc]; constructor; [apply Z; [now left|exact Hx]|]. apply IHc. intros m y Hm. apply Z. now right. }
      rewrite K1. cbn [vbind app].
      assert (Ho1 : nth_error h1 p = Some o) by (rewrite K5; auto).
      assert (Len : length ys = length (map fst (d :: ds))) by (rewrite map_length; apply (all_show_length _ _ _ _ K2)).
      assert (Lxs : length (o_list o) = length (map fst (d :: ds))) by (rewrite <- EN, map_length; apply (all_show_length _ _ _ _ H5)).
      unfold adjust, at_ref. rewrite Ho1. cbn [vbind]. unfold method.
      rewrite (ao_other _ _ _ H4 "adjust"); [|rewrite EN; apply (good_not _ _ G2); cbn; tauto|cbn; intros X; repeat (destruct X as [X|X]; [discriminate|]); contradiction].
      cbn [vbind]. unfold names_attr. rewrite (ao_names _ _ _ H4). cbn [vbind]. destruct (list_eq_dec string_dec (map fst cs) (map fst (d :: ds))) as [_|X]; [|contradiction].
      cbn [vguard vbind]. rewrite Lxs, Len, Nat.leb_refl. cbn [vguard vbind]. rewrite <- Lxs, skipn_all, app_nil_r.
      set (o' := mkObj ys _). assert (Lp1 : p < length h1) by lia.
      assert (Np : ~ In p (concat fps')) by (intros X; apply K6 in X; destruct X; [contradiction|lia]).
      assert (Fr : forall q, In q (concat fps') -> nth_error (set_obj A p o' h1) q = nth_error h1 q).
      { intros q Hq. rewrite nth_error_set_obj by exact Lp1. destruct (Nat.eqb_spec q p) as [->|]; [contradiction|reflexivity]. }
      assert (Hp : nth_error (set_obj A p o' h1) p = Some o') by (rewrite nth_error_set_obj by exact Lp1; now rewrite Nat.eqb_refl).
      assert (AO : attrs_ok o' (map fst (d :: ds)) g) by (apply (adjusted_attrs o _ ys f); auto; rewrite <- EN; exact H4).
      exists (set_obj A p o' h1), (VRef p), (p :: concat fps'). split; [reflexivity|]. split; [|split; [|split]].
      + apply shows_view. exists p, o', fps'. split; [reflexivity|]. split; [exact Hp|]. split; [reflexivity|]. split; [exact AO|].
        now apply (all_show_frame h1).
      + now constructor.
      + split; [rewrite set_obj_length by exact Lp1; exact K4|]. rewrite set_obj_length by exact Lp1. split.
        * intros q L Hq. rewrite nth_error_set_obj by exact Lp1. destruct (Nat.eqb_spec q p) as [->|Ne]; [exfalso; apply Hq; now left|].
          apply K5; [exact L|]. intros X. apply Hq. now right.
        * intros q [<-|Hq]; [left; now left|]. apply K6 in Hq. destruct Hq as [Hq|Hq]; [left; now right|now right].
      + intros [|n r] full c es E; [reflexivity|]. cbn [node] in E. destruct (dget n (d :: ds)) as [s|] eqn:Es; [|discriminate].
        assert (C1 := ao_children _ _ _ H4). rewrite EN in C1.
        destruct (all_ident_child h h1 _ _ n s (d :: ds) (o_list o) ys K7 C1 (ao_children _ _ _ AO) Es) as [x [y [X1 [X2 X3]]]].
        assert (Hn := dget_names _ _ _ Es).
        assert (Hn' : In n (map fst cs)) by (rewrite EN; exact Hn).
        destruct (get_key_ok _ p o' _ _ n Hp AO Hn) as [b [B1 B2]].
        destruct (get_key_ok h p o _ _ n H2 H4 Hn') as [b' [B1' B2']].
        cbn [walk]. rewrite B2, B2'. cbn [vbind]. assert (b = y) by congruence. assert (b' = x) by congruence. subst b b'.
        destruct (child_shown h1 _ n s (d :: ds) ys fps' K2 (ao_children _ _ _ AO) Es) as [y' [f' [Y1 [Y2 Y3]]]].
        assert (y' = y) by congruence. subst y'.
        rewrite (walk_agree h1 (set_obj A p o' h1) r s y f' _ Y1 (fun q Hq => Fr q (Y2 q Hq)) E).
        now apply (X3 r full c es).
  Qed.
End Views.
