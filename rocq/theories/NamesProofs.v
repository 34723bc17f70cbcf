(** Proofs for NamesModel.v: C01 (unique names) and C02 (architecture
    generation). *)
From Coq Require Import String Ascii List Arith Bool Lia Permutation Sorting.Sorted Relations.
From Verif Require Import PyBase PyFacts UtilsModel NamesModel.
Import ListNotations.
Open Scope string_scope.
Open Scope list_scope.
Open Scope nat_scope.

(** ** Specification vocabulary (in terms of the program, not of the model state) *)

(** Base names of the layers created by a program, by creation order. *)
Definition created (ops : list op) : list string :=
  flat_map (fun o => match o with
                     | Create t None => [t]
                     | Create _ (Some n) => [n]
                     | Wire _ _ _ _ => []
                     end) ops.

Definition created_types (ops : list op) : list string :=
  flat_map (fun o => match o with Create t _ => [t] | Wire _ _ _ _ => [] end) ops.

(** The wirings made by a program. *)
Definition wirings (ops : list op) : list (nat * string * string * nat) :=
  flat_map (fun o => match o with
                     | Create _ _ => []
                     | Wire a o i b => [(a, o, i, b)]
                     end) ops.

Definition wired (ops : list op) (a b : nat) : Prop :=
  exists o i, In (a, o, i, b) (wirings ops).

(** Two layers are connected if a chain of wirings (in any direction) joins them. *)
Definition connected (ops : list op) : nat -> nat -> Prop :=
  clos_refl_sym_trans nat (wired ops).

(** ** Elementary lemmas *)
Lemma run_app l1 l2 w :
  run (l1 ++ l2) w = match run l1 w with Some w' => run l2 w' | None => None end.
Proof.
  revert w. induction l1 as [|o l1 IH]; intros w; simpl; [reflexivity|].
  destruct (step w o); [apply IH | reflexivity].
Qed.

Lemma set_nth_length {A} n (x : A) l : length (set_nth n x l) = length l.
Proof. revert n. induction l as [|y l IH]; intros [|n]; simpl; auto. Qed.

Lemma nth_error_set_nth {A} n m (x : A) l :
  nth_error (set_nth n x l) m =
  if n =? m then match nth_error l m with Some _ => Some x | None => None end
  else nth_error l m.
Proof.
  revert n m. induction l as [|y l IH]; intros n m; simpl.
  - destruct m; simpl; destruct (n =? _); reflexivity.
  - destruct n as [|n], m as [|m]; simpl; try reflexivity. apply IH.
Qed.

Lemma insert_uniq_In x y l : In y (insert_uniq x l) <-> y = x \/ In y l.
Proof.
  induction l as [|z l IH]; simpl; [intuition|].
  destruct (Nat.eqb_spec x z) as [->|N]; simpl; [intuition|].
  destruct (x <? z); simpl; [intuition|]. rewrite IH. intuition.
Qed.

Lemma insert_uniq_sorted x l :
  StronglySorted lt l -> StronglySorted lt (insert_uniq x l).
Proof.
  induction l as [|z l IH]; simpl; intros H; [repeat constructor|].
  inversion H as [|? ? H1 H2]; subst. rewrite Forall_forall in H2.
  destruct (Nat.eqb_spec x z) as [->|N]; [exact H|].
  destruct (Nat.ltb_spec x z) as [L|L].
  - constructor; [exact H|]. rewrite Forall_forall. intros y [<-|I]; [exact L|].
    apply H2 in I. lia.
  - constructor; [auto|]. rewrite Forall_forall. intros y I. apply insert_uniq_In in I.
    destruct I as [->|I]; [lia | auto].
Qed.

Lemma sorted_set_In y l : In y (sorted_set l) <-> In y l.
Proof.
  induction l as [|x l IH]; simpl; [tauto|]. rewrite insert_uniq_In, IH. intuition.
Qed.

Lemma sorted_set_sorted l : StronglySorted lt (sorted_set l).
Proof. induction l as [|x l IH]; simpl; [constructor | now apply insert_uniq_sorted]. Qed.

Lemma ssorted_NoDup l : StronglySorted lt l -> NoDup l.
Proof.
  induction 1 as [|x l H IH F]; constructor; [|assumption].
  rewrite Forall_forall in F. intros I. apply F in I. lia.
Qed.

Lemma merge_dicts_dget other self k :
  NoDup (dkeys other) ->
  dget k (merge_dicts self other) =
  match dget k other with
  | None => dget k self
  | Some l => Some (sorted_set (match dget k self with Some c => c | None => [] end ++ l))
  end.
Proof.
  unfold merge_dicts. revert self. induction other as [|[k' l'] other IH]; intros self ND; simpl.
  - reflexivity.
  - inversion ND as [|? ? N1 N2]; subst. rewrite IH by assumption. clear IH.
    destruct (String.eqb_spec k k') as [->|N].
    + assert (E : dget k' other = None) by now apply dget_None.
      rewrite E. now rewrite dget_dset_same.
    + now rewrite !dget_dset_other by assumption.
Qed.

Lemma merge_dicts_NoDup other self :
  NoDup (dkeys self) -> NoDup (dkeys (merge_dicts self other)).
Proof.
  unfold merge_dicts. revert self. induction other as [|[k' l'] other IH]; intros self ND; simpl.
  - exact ND.
  - apply IH. now apply NoDup_dset.
Qed.

(** ** The invariant *)
Definition base (w : world) (i : nat) : string :=
  match nth_error (w_layers w) i with Some l => l_base l | None => "" end.
Definition scope (w : world) (i : nat) : nat :=
  match nth_error (w_layers w) i with Some l => l_scope l | None => 0 end.
Definition nlayers (w : world) : nat := length (w_layers w).

(** The dictionary [d] lists exactly the layers of scope [s], by base name and
    sorted by creation. *)
Definition good (w : world) (s : nat) (d : dict (list nat)) : Prop :=
  NoDup (dkeys d) /\
  forall k, match dget k d with
            | Some l => l <> [] /\ StronglySorted lt l /\
                        forall j, In j l <-> j < nlayers w /\ scope w j = s /\ base w j = k
            | None => forall j, j < nlayers w -> scope w j = s -> base w j <> k
            end.

Record Inv (ops : list op) (w : world) : Prop := {
  inv_nscopes : length (w_scopes w) = nlayers w;
  inv_base : map l_base (w_layers w) = created ops;
  inv_type : map l_type (w_layers w) = created_types ops;
  inv_scope_lt : forall i, i < nlayers w -> scope w i < nlayers w;
  inv_good : forall i, i < nlayers w -> exists d,
      nth_error (w_scopes w) (scope w i) = Some d /\ good w (scope w i) d;
  inv_wire_lt : forall a o i b, In (a, o, i, b) (wirings ops) -> a < nlayers w /\ b < nlayers w;
  inv_connected : forall i j, i < nlayers w -> j < nlayers w ->
      (scope w i = scope w j <-> connected ops i j);
  inv_out : forall a l, nth_error (w_layers w) a = Some l ->
      l_out l = flat_map (fun x => match x with (a', o, i, b) =>
                            if a' =? a then [(o, i, b)] else [] end) (wirings ops);
  inv_in : forall b l, nth_error (w_layers w) b = Some l ->
      l_in l = flat_map (fun x => match x with (a, o, i, b') =>
                            if b' =? b then [(a, o, i)] else [] end) (wirings ops);
  inv_valid : forall n, In n (created ops) -> is_valid_layer_name n = true
}.

Lemma connected_nil i j : connected [] i j -> i = j.
Proof.
  unfold connected. induction 1 as [x y [o [i0 []]]| | |]; congruence.
Qed.

Lemma inv_empty : Inv [] empty_world.
Proof.
  constructor; simpl; try reflexivity; unfold nlayers; simpl; try lia; try tauto.
  - intros [|a]; discriminate.
  - intros [|a]; discriminate.
Qed.

Lemma wirings_app l1 l2 : wirings (l1 ++ l2) = wirings l1 ++ wirings l2.
Proof. apply flat_map_app. Qed.
Lemma created_app l1 l2 : created (l1 ++ l2) = created l1 ++ created l2.
Proof. apply flat_map_app. Qed.

Lemma connected_ext ops1 ops2 i j :
  (forall x, In x (wirings ops1) <-> In x (wirings ops2)) ->
  (connected ops1 i j <-> connected ops2 i j).
Proof.
  intros H. unfold connected.
  assert (G : forall o1 o2, (forall x, In x (wirings o1) -> In x (wirings o2)) ->
              forall i j, clos_refl_sym_trans nat (wired o1) i j ->
                          clos_refl_sym_trans nat (wired o2) i j).
  { intros o1 o2 S x y. induction 1 as [x y [o [n I]]| x | x y _ IH | x y z _ IH1 _ IH2].
    - apply rst_step. exists o, n. auto.
    - apply rst_refl.
    - now apply rst_sym.
    - eapply rst_trans; eauto. }
  split; apply G; intros x; apply H.
Qed.

Lemma connected_bound ops w i j :
  Inv ops w -> connected ops i j -> i <> j -> i < nlayers w /\ j < nlayers w.
Proof.
  intros I. unfold connected.
  assert (G : forall x y, clos_refl_sym_trans nat (wired ops) x y ->
              x = y \/ (x < nlayers w /\ y < nlayers w)).
  { induction 1 as [x y [o [n W]]| x | x y _ IH | x y z _ IH1 _ IH2].
    - right. eapply inv_wire_lt; eauto.
    - now left.
    - intuition.
    - destruct IH1 as [->|[? ?]]; [assumption|].
      destruct IH2 as [<-|[? ?]]; right; intuition. }
  intros C N. destruct (G _ _ C); [contradiction | assumption].
Qed.

(** *** Creating a layer *)
Lemma inv_create_aux ops w t n nm :
  Inv ops w ->
  is_valid_layer_name nm = true ->
  created [Create t n] = [nm] ->
  Inv (ops ++ [Create t n])
      (mkWorld (w_layers w ++ [mkLayer nm t (length (w_layers w)) [] []])
               (w_scopes w ++ [[(nm, [length (w_layers w)])]])).
Proof.
  intros I V Hc.
  set (w' := mkWorld _ _).
  assert (NL : nlayers w' = S (nlayers w)).
  { unfold nlayers, w'. simpl. rewrite app_length. simpl. lia. }
  assert (Old : forall i, i < nlayers w -> nth_error (w_layers w') i = nth_error (w_layers w) i).
  { intros i Hi. unfold w'. simpl. now rewrite nth_error_app1. }
  assert (New : nth_error (w_layers w') (nlayers w)
                = Some (mkLayer nm t (nlayers w) [] [])).
  { unfold w', nlayers. simpl. apply nth_error_app_last. }
  assert (SO : forall i, i < nlayers w -> scope w' i = scope w i).
  { intros i Hi. unfold scope. now rewrite Old. }
  assert (BO : forall i, i < nlayers w -> base w' i = base w i).
  { intros i Hi. unfold base. now rewrite Old. }
  assert (SN : scope w' (nlayers w) = nlayers w).
  { unfold scope. now rewrite New. }
  assert (BN : base w' (nlayers w) = nm).
  { unfold base. now rewrite New. }
  assert (WE : forall x, In x (wirings ops) <-> In x (wirings (ops ++ [Create t n]))).
  { intros x. rewrite wirings_app. simpl. now rewrite app_nil_r. }
  assert (WQ : wirings (ops ++ [Create t n]) = wirings ops).
  { rewrite wirings_app. simpl. now rewrite app_nil_r. }
  constructor.
  - rewrite NL. unfold w'. simpl. rewrite app_length. simpl. rewrite (inv_nscopes _ _ I). lia.
  - unfold w'. simpl. rewrite map_app, (inv_base _ _ I), created_app, Hc. reflexivity.
  - unfold w'. simpl. rewrite map_app, (inv_type _ _ I). unfold created_types.
    rewrite flat_map_app. reflexivity.
  - intros i Hi. rewrite NL in *. destruct (Nat.eq_dec i (nlayers w)) as [->|N].
    + rewrite SN. lia.
    + rewrite SO by lia. assert (Hi' : i < nlayers w) by lia.
      pose proof (inv_scope_lt _ _ I i Hi'). lia.
  - intros i Hi. rewrite NL in Hi. destruct (Nat.eq_dec i (nlayers w)) as [->|N].
    + rewrite SN. exists [(nm, [nlayers w])]. split.
      * unfold w'. simpl. unfold nlayers at 2. rewrite <- (inv_nscopes _ _ I).
        replace (length (w_layers w)) with (length (w_scopes w)) by apply (inv_nscopes _ _ I).
        apply nth_error_app_last.
      * split; [simpl; constructor; [intros []|constructor]|].
        intros k. simpl. destruct (String.eqb_spec k nm) as [->|Nk].
        -- split; [discriminate|]. split; [repeat constructor|].
           intros j. rewrite NL. simpl. split.
           ++ intros [<-|[]]. rewrite SN, BN. repeat split; lia.
           ++ intros [Hj [Hs Hb]]. left.
              destruct (Nat.eq_dec j (nlayers w)) as [|Nj]; [congruence|].
              rewrite SO in Hs by lia.
              assert (Hj' : j < nlayers w) by lia.
              pose proof (inv_scope_lt _ _ I j Hj'). lia.
        -- intros j Hj Hs. rewrite NL in Hj.
           destruct (Nat.eq_dec j (nlayers w)) as [->|Nj]; [congruence|].
           rewrite SO in Hs by lia.
           assert (Hj' : j < nlayers w) by lia.
           pose proof (inv_scope_lt _ _ I j Hj'). lia.
    + assert (Hi' : i < nlayers w) by lia. rewrite SO by assumption.
      destruct (inv_good _ _ I i Hi') as [d [Hd [ND G]]].
      exists d. split.
      * unfold w'. simpl. rewrite nth_error_app1; [exact Hd|].
        apply nth_error_Some. congruence.
      * split; [exact ND|]. intros k. specialize (G k).
        pose proof (inv_scope_lt _ _ I i Hi') as Ls.
        destruct (dget k d) as [l|].
        -- destruct G as [G1 [G2 G3]]. repeat split; try assumption.
           ++ apply G3 in H. rewrite NL. lia.
           ++ apply G3 in H. rewrite SO; intuition.
           ++ apply G3 in H. rewrite BO; intuition.
           ++ intros [Hj [Hs Hb]]. rewrite NL in Hj. apply G3.
              destruct (Nat.eq_dec j (nlayers w)) as [->|Nj]; [rewrite SN in Hs; lia|].
              rewrite SO in Hs by lia. rewrite BO in Hb by lia. repeat split; try assumption; lia.
        -- intros j Hj Hs. rewrite NL in Hj.
           destruct (Nat.eq_dec j (nlayers w)) as [->|Nj]; [rewrite SN in Hs; lia|].
           rewrite SO in Hs by lia. rewrite BO by lia. apply G; [lia | assumption].
  - intros a o i b W. apply WE in W. apply (inv_wire_lt _ _ I) in W. rewrite NL. lia.
  - intros i j Hi Hj. rewrite NL in Hi, Hj. rewrite <- (connected_ext ops _ i j WE).
    destruct (Nat.eq_dec i (nlayers w)) as [->|Ni]; destruct (Nat.eq_dec j (nlayers w)) as [->|Nj].
    + split; intros _; [apply rst_refl | reflexivity].
    + rewrite SN, SO by lia. assert (Hj' : j < nlayers w) by lia.
      pose proof (inv_scope_lt _ _ I j Hj'). split; intros H1; [lia|].
      apply (connected_bound _ _ _ _ I) in H1; lia.
    + rewrite SN, SO by lia. assert (Hi' : i < nlayers w) by lia.
      pose proof (inv_scope_lt _ _ I i Hi'). split; intros H1; [lia|].
      apply (connected_bound _ _ _ _ I) in H1; lia.
    + rewrite !SO by lia. apply (inv_connected _ _ I); lia.
  - intros a l Ha. rewrite WQ. destruct (Nat.eq_dec a (nlayers w)) as [->|Na].
    + rewrite New in Ha. injection Ha as <-. simpl. symmetry.
      assert (G : forall x, In x (wirings ops) -> (let '(a', o, i, b) := x in
                  if a' =? nlayers w then [(o, i, b)] else []) = @nil (string*string*nat)).
      { intros [[[a' o] i] b] Hx. apply (inv_wire_lt _ _ I) in Hx.
        destruct (Nat.eqb_spec a' (nlayers w)); [lia | reflexivity]. }
      now apply flat_map_nil.
    + apply (inv_out _ _ I). destruct (Nat.lt_ge_cases a (nlayers w)) as [L|L].
      * now rewrite <- Old.
      * assert (nth_error (w_layers w') a = None) by (apply nth_error_None; fold (nlayers w'); lia).
        congruence.
  - intros a l Ha. rewrite WQ. destruct (Nat.eq_dec a (nlayers w)) as [->|Na].
    + rewrite New in Ha. injection Ha as <-. simpl. symmetry.
      assert (G : forall x, In x (wirings ops) -> (let '(a', o, i, b) := x in
                  if b =? nlayers w then [(a', o, i)] else []) = @nil (nat*string*string)).
      { intros [[[a' o] i] b] Hx. apply (inv_wire_lt _ _ I) in Hx.
        destruct (Nat.eqb_spec b (nlayers w)); [lia | reflexivity]. }
      now apply flat_map_nil.
    + apply (inv_in _ _ I). destruct (Nat.lt_ge_cases a (nlayers w)) as [L|L].
      * now rewrite <- Old.
      * assert (nth_error (w_layers w') a = None) by (apply nth_error_None; fold (nlayers w'); lia).
        congruence.
  - intros m Hm. rewrite created_app, Hc in Hm. apply in_app_or in Hm.
    destruct Hm as [Hm|[<-|[]]]; [now apply (inv_valid _ _ I) | exact V].
Qed.

Lemma inv_create ops w w' t n :
  Inv ops w -> create t n w = Some w' -> Inv (ops ++ [Create t n]) w'.
Proof.
  unfold create. intros I H.
  destruct (is_valid_layer_name t) eqn:Vt; simpl in H; [|discriminate].
  destruct n as [n|].
  - destruct (is_valid_layer_name n) eqn:Vn; simpl in H; [|discriminate].
    injection H as <-. now apply inv_create_aux.
  - injection H as <-. now apply inv_create_aux.
Qed.

(** *** Wiring *)
Lemma rescope_nth s members ls i :
  nth_error (rescope s members ls) i =
  match nth_error ls i with
  | None => None
  | Some l => Some (if nmem i members then set_scope s l else l)
  end.
Proof.
  unfold rescope. rewrite nth_error_map.
  assert (G : forall k (ls : list layer) i, nth_error (combine (seq k (length ls)) ls) i =
              match nth_error ls i with None => None | Some l => Some (k + i, l) end).
  { intros k l. revert k. induction l as [|x l IH]; intros k [|j]; simpl; try reflexivity.
    - now rewrite Nat.add_0_r.
    - rewrite IH. destruct (nth_error l j); [|reflexivity]. do 2 f_equal. lia. }
  rewrite G. simpl. destruct (nth_error ls i); reflexivity.
Qed.

Lemma rescope_length s members ls : length (rescope s members ls) = length ls.
Proof. unfold rescope. rewrite map_length, combine_length, seq_length. lia. Qed.

(** State before merging the scopes: only out/in lists changed. *)
Definition same_names (w1 w2 : world) : Prop :=
  length (w_layers w1) = length (w_layers w2) /\ w_scopes w1 = w_scopes w2 /\
  forall i, base w1 i = base w2 i /\ scope w1 i = scope w2 i.

Lemma connected_wire ops a o i b x y :
  connected (ops ++ [Wire a o i b]) x y <->
  connected ops x y \/ (connected ops x a /\ connected ops b y)
                    \/ (connected ops x b /\ connected ops a y).
Proof.
  unfold connected. split.
  - induction 1 as [x y [o' [i' W]]| x | x y _ IH | x y z _ IH1 _ IH2].
    + rewrite wirings_app in W. apply in_app_or in W. destruct W as [W|W].
      * left. apply rst_step. now exists o', i'.
      * simpl in W. destruct W as [W|[]]. injection W as <- <- <- <-.
        right; left. split; apply rst_refl.
    + left. apply rst_refl.
    + destruct IH as [IH|[[IH1 IH2]|[IH1 IH2]]].
      * left; now apply rst_sym.
      * right; right. split; now apply rst_sym.
      * right; left. split; now apply rst_sym.
    + assert (S : forall x y, clos_refl_sym_trans nat (wired ops) x y ->
                   clos_refl_sym_trans nat (wired ops) y x) by (intros; now apply rst_sym).
      assert (T : forall x y z, clos_refl_sym_trans nat (wired ops) x y ->
                   clos_refl_sym_trans nat (wired ops) y z ->
                   clos_refl_sym_trans nat (wired ops) x z) by (intros; eapply rst_trans; eauto).
      destruct IH1 as [A|[[A1 A2]|[A1 A2]]]; destruct IH2 as [B|[[B1 B2]|[B1 B2]]];
        eauto 8.
  - assert (Sub : forall u v, clos_refl_sym_trans nat (wired ops) u v ->
        clos_refl_sym_trans nat (wired (ops ++ [Wire a o i b])) u v).
    { induction 1 as [u v [o' [i' W]]| u | u v _ IH | u v z _ IH1 _ IH2].
      - apply rst_step. exists o', i'. rewrite wirings_app. apply in_or_app. now left.
      - apply rst_refl.
      - now apply rst_sym.
      - eapply rst_trans; eauto. }
    assert (AB : clos_refl_sym_trans nat (wired (ops ++ [Wire a o i b])) a b).
    { apply rst_step. exists o, i. rewrite wirings_app. apply in_or_app. right. now left. }
    intros [H|[[H1 H2]|[H1 H2]]].
    + auto.
    + eapply rst_trans; [apply Sub; exact H1|]. eapply rst_trans; [exact AB|]. auto.
    + eapply rst_trans; [apply Sub; exact H1|]. eapply rst_trans; [apply rst_sym; exact AB|]. auto.
Qed.

Lemma inv_wire ops w w' a o i b :
  Inv ops w -> wire a o i b w = Some w' -> Inv (ops ++ [Wire a o i b]) w'.
Proof.
  unfold wire. intros I H.
  unfold update_layer in H at 1.
  destruct (nth_error (w_layers w) a) as [la|] eqn:Ea; [|discriminate].
  set (w1 := mkWorld (set_nth a (add_out (o, i, b) la) (w_layers w)) (w_scopes w)) in *.
  unfold update_layer in H.
  destruct (nth_error (w_layers w1) b) as [lb|] eqn:Eb; [|discriminate].
  set (w2 := mkWorld (set_nth b (add_in (a, o, i) lb) (w_layers w1)) (w_scopes w1)) in *.
  assert (La : a < nlayers w) by (apply nth_error_Some; congruence).
  assert (L1 : length (w_layers w1) = length (w_layers w)) by (apply set_nth_length).
  assert (L2 : length (w_layers w2) = length (w_layers w)).
  { unfold w2. simpl. now rewrite set_nth_length, set_nth_length. }
  assert (Lb : b < nlayers w).
  { unfold nlayers. rewrite <- L1. apply nth_error_Some. congruence. }
  assert (E1 : forall j, nth_error (w_layers w1) j =
            if a =? j then Some (add_out (o, i, b) la) else nth_error (w_layers w) j).
  { intros j. unfold w1. simpl. rewrite nth_error_set_nth.
    destruct (Nat.eqb_spec a j) as [<-|]; [now rewrite Ea | reflexivity]. }
  assert (E2 : forall j, nth_error (w_layers w2) j =
            if b =? j then Some (add_in (a, o, i) lb) else nth_error (w_layers w1) j).
  { intros j. unfold w2. cbn [w_layers]. rewrite nth_error_set_nth.
    destruct (Nat.eqb_spec b j) as [<-|]; [now rewrite Eb | reflexivity]. }
  assert (B2 : forall j, base w2 j = base w j /\ scope w2 j = scope w j).
  { intros j. unfold base, scope. rewrite E2.
    assert (B1 : forall j, match nth_error (w_layers w1) j with Some l => l_base l | None => "" end
                 = match nth_error (w_layers w) j with Some l => l_base l | None => "" end /\
                 match nth_error (w_layers w1) j with Some l => l_scope l | None => 0 end
                 = match nth_error (w_layers w) j with Some l => l_scope l | None => 0 end).
    { intros k. rewrite E1. destruct (Nat.eqb_spec a k) as [<-|]; [rewrite Ea; simpl; auto | auto]. }
    destruct (Nat.eqb_spec b j) as [<-|].
    - specialize (B1 b). rewrite Eb in B1. simpl. exact B1.
    - apply B1. }
  unfold merge_scopes in H.
  destruct (nth_error (w_layers w2) a) as [la2|] eqn:Ea2; [|discriminate].
  destruct (nth_error (w_layers w2) b) as [lb2|] eqn:Eb2; [|discriminate].
  assert (Sa : l_scope la2 = scope w a).
  { destruct (B2 a) as [_ B2a]. unfold scope in B2a at 1. now rewrite Ea2 in B2a. }
  assert (Sb : l_scope lb2 = scope w b).
  { destruct (B2 b) as [_ B2b]. unfold scope in B2b at 1. now rewrite Eb2 in B2b. }
  rewrite Sa, Sb in H. clear Sa Sb.
  change (w_scopes w2) with (w_scopes w) in H.
  destruct (inv_good _ _ I a La) as [da [Hda [NDa Ga]]].
  destruct (inv_good _ _ I b Lb) as [db [Hdb [NDb Gb]]].
  rewrite Hda, Hdb in H. injection H as <-.
  set (d := merge_dicts da db).
  set (sa := scope w a) in *. set (sb := scope w b) in *.
  set (w' := mkWorld _ _).
  (* lookups in the merged dictionary *)
  assert (NDd : NoDup (dkeys d)) by (now apply merge_dicts_NoDup).
  assert (Gd : forall k, match dget k d with
            | Some l => l <> [] /\ StronglySorted lt l /\
                        forall j, In j l <-> j < nlayers w /\ (scope w j = sa \/ scope w j = sb) /\ base w j = k
            | None => forall j, j < nlayers w -> (scope w j = sa \/ scope w j = sb) -> base w j <> k
            end).
  { intros k. unfold d. rewrite merge_dicts_dget by assumption.
    specialize (Ga k). specialize (Gb k).
    destruct (dget k db) as [lb'|].
    - destruct Gb as [Gb1 [Gb2 Gb3]].
      assert (Q : forall j, In j (match dget k da with Some c => c | None => [] end) <->
                 j < nlayers w /\ scope w j = sa /\ base w j = k).
      { intros j. destruct (dget k da) as [la'|].
        - apply Ga.
        - simpl. split; [tauto|]. intros [A1 [A2 A3]]. exact (Ga j A1 A2 A3). }
      repeat split.
      + intros E. destruct lb' as [|z lb']; [now apply Gb1|].
        assert (In z (sorted_set (match dget k da with Some c => c | None => [] end ++ z :: lb'))).
        { apply sorted_set_In, in_or_app. right. now left. }
        rewrite E in H. destruct H.
      + apply sorted_set_sorted.
      + apply sorted_set_In, in_app_or in H. rewrite Q, Gb3 in H. intuition.
      + apply sorted_set_In, in_app_or in H. rewrite Q, Gb3 in H. intuition.
      + apply sorted_set_In, in_app_or in H. rewrite Q, Gb3 in H. intuition.
      + intros [H1 [[H2|H2] H3]]; apply sorted_set_In, in_or_app; [left; apply Q | right; apply Gb3]; auto.
    - destruct (dget k da) as [la'|].
      + destruct Ga as [Ga1 [Ga2 Ga3]]. split; [assumption|]. split; [assumption|].
        intros j. rewrite Ga3. split; [tauto|].
        intros [H1 [[H2|H2] H3]]; [tauto|]. exfalso. exact (Gb j H1 H2 H3).
      + intros j Hj [Hs|Hs]; [now apply Ga | now apply Gb]. }
  assert (Mem : forall j, In j (flat_map snd d) <-> j < nlayers w /\ (scope w j = sa \/ scope w j = sb)).
  { intros j. rewrite in_flat_map. split.
    - intros [[k l] [Hkl Hj]]. simpl in Hj. apply In_dget in Hkl; [|assumption].
      specialize (Gd k). rewrite Hkl in Gd. apply Gd in Hj. tauto.
    - intros [Hj Hs]. specialize (Gd (base w j)).
      destruct (dget (base w j) d) as [l|] eqn:E.
      + exists (base w j, l). split; [now apply dget_In|]. simpl. apply Gd. auto.
      + exfalso. exact (Gd j Hj Hs eq_refl). }
  assert (NL : nlayers w' = nlayers w).
  { unfold nlayers, w'. cbn [w_layers]. now rewrite rescope_length. }
  assert (N' : forall j, nth_error (w_layers w') j =
     match nth_error (w_layers w2) j with
     | None => None
     | Some l => Some (if nmem j (flat_map snd d) then set_scope sa l else l) end).
  { intros j. unfold w'. cbn [w_layers]. apply rescope_nth. }
  assert (B' : forall j, base w' j = base w j).
  { intros j. destruct (B2 j) as [<- _]. unfold base. rewrite N'.
    destruct (nth_error (w_layers w2) j); [|reflexivity].
    destruct (nmem j _); reflexivity. }
  assert (S' : forall j, j < nlayers w ->
       scope w' j = if (scope w j =? sa) || (scope w j =? sb) then sa else scope w j).
  { intros j Hj. destruct (B2 j) as [_ B2j]. rewrite <- B2j.
    unfold scope. rewrite N'.
    assert (X : exists l, nth_error (w_layers w2) j = Some l).
    { destruct (nth_error (w_layers w2) j) eqn:E; [eauto|].
      apply nth_error_None in E. unfold nlayers in Hj. lia. }
    destruct X as [l El]. rewrite El.
    assert (Sl : l_scope l = scope w j) by (rewrite <- B2j; unfold scope; now rewrite El).
    destruct (nmem j (flat_map snd d)) eqn:M.
    - apply nmem_In, Mem in M. destruct M as [_ M]. simpl. rewrite Sl.
      destruct M as [M|M]; rewrite M, Nat.eqb_refl; simpl; [reflexivity|].
      now rewrite orb_true_r.
    - apply nmem_false in M. rewrite Mem in M. rewrite Sl.
      destruct (Nat.eqb_spec (scope w j) sa); [exfalso; tauto|].
      destruct (Nat.eqb_spec (scope w j) sb); [exfalso; tauto|]. reflexivity. }
  assert (S'eq : forall j, j < nlayers w -> (scope w' j = sa <-> scope w j = sa \/ scope w j = sb)).
  { intros j Hj. rewrite S' by assumption.
    destruct (Nat.eqb_spec (scope w j) sa); [simpl; intuition|].
    destruct (Nat.eqb_spec (scope w j) sb); simpl; intuition. }
  assert (S'ne : forall j s, j < nlayers w -> s <> sa ->
             (scope w' j = s <-> scope w j = s /\ s <> sb)).
  { intros j s Hj Ns. rewrite S' by assumption.
    destruct (Nat.eqb_spec (scope w j) sa); [simpl; split; [congruence | intros [? ?]; congruence]|].
    destruct (Nat.eqb_spec (scope w j) sb); simpl; split; intros; try congruence.
    - destruct H. congruence.
    - split; congruence.
    - tauto. }
  constructor.
  - unfold w'. simpl. rewrite set_nth_length. fold w'. rewrite NL. apply (inv_nscopes _ _ I).
  - rewrite created_app. simpl. rewrite app_nil_r, <- (inv_base _ _ I).
    apply nth_error_ext. intros j. rewrite !nth_error_map, N'.
    specialize (B' j). unfold base in B'. rewrite N' in B'.
    destruct (nth_error (w_layers w2) j) as [l|] eqn:E2j;
    destruct (nth_error (w_layers w) j) as [l0|] eqn:E0j; simpl; try reflexivity.
    + simpl in B'. now rewrite B'.
    + apply nth_error_None in E0j. assert (j < length (w_layers w2)) by (apply nth_error_Some; congruence). lia.
    + apply nth_error_None in E2j. assert (j < length (w_layers w)) by (apply nth_error_Some; congruence). lia.
  - unfold created_types. rewrite flat_map_app. simpl. rewrite app_nil_r.
    fold (created_types ops). rewrite <- (inv_type _ _ I).
    apply nth_error_ext. intros j. rewrite !nth_error_map, N', E2.
    destruct (Nat.eqb_spec b j) as [<-|Nb].
    + simpl. rewrite E1 in Eb. destruct (Nat.eqb_spec a b) as [->|Nab].
      * injection Eb as <-. rewrite Ea. simpl. destruct (nmem b _); reflexivity.
      * rewrite Eb. simpl. destruct (nmem b _); reflexivity.
    + rewrite E1. destruct (Nat.eqb_spec a j) as [<-|Na].
      * rewrite Ea. simpl. destruct (nmem a _); reflexivity.
      * destruct (nth_error (w_layers w) j); simpl; [|reflexivity].
        destruct (nmem j _); reflexivity.
  - intros j Hj. rewrite NL in *. rewrite S' by assumption.
    destruct (_ || _); [apply (inv_scope_lt _ _ I); assumption | now apply (inv_scope_lt _ _ I)].
  - intros j Hj. rewrite NL in Hj.
    destruct (Nat.eq_dec (scope w' j) sa) as [Es|Ns].
    + rewrite Es. exists d. split.
      * unfold w'. simpl. rewrite nth_error_set_nth, Nat.eqb_refl.
        change (w_scopes w2) with (w_scopes w). now rewrite Hda.
      * split; [exact NDd|]. intros k. specialize (Gd k). destruct (dget k d) as [l|].
        -- destruct Gd as [G1 [G2 G3]]. split; [assumption|]. split; [assumption|].
           intros m. rewrite G3, NL, B'. split; intros [H1 [H2 H3]]; repeat split; try assumption;
           [apply S'eq | apply S'eq in H2]; assumption.
        -- intros m Hm Hs. rewrite NL in Hm. rewrite B'. apply Gd; [assumption|].
           now apply S'eq.
    + destruct (proj1 (S'ne j (scope w' j) Hj Ns) eq_refl) as [Sj Nsb].
      destruct (inv_good _ _ I j Hj) as [dj [Hdj [NDj Gj]]].
      exists dj. rewrite <- Sj. split.
      * unfold w'. simpl. rewrite nth_error_set_nth.
        change (w_scopes w2) with (w_scopes w).
        destruct (Nat.eqb_spec sa (scope w j)); [congruence | assumption].
      * split; [assumption|]. intros k. specialize (Gj k). destruct (dget k dj) as [l|].
        -- destruct Gj as [G1 [G2 G3]]. split; [assumption|]. split; [assumption|].
           intros m. rewrite G3, NL, B'. rewrite Sj.
           split; intros [H1 [H2 H3]]; repeat split; try assumption;
           [apply S'ne | apply S'ne in H2]; tauto.
        -- intros m Hm Hs. rewrite NL in Hm. rewrite B'. apply Gj; [assumption|].
           rewrite Sj in *. apply S'ne in Hs; tauto.
  - intros a' o' i' b' W. rewrite wirings_app in W. apply in_app_or in W.
    rewrite NL. destruct W as [W|[W|[]]]; [now apply (inv_wire_lt _ _ I) in W|].
    injection W as <- <- <- <-. auto.
  - intros x y Hx Hy. rewrite NL in Hx, Hy. rewrite connected_wire.
    rewrite <- !(inv_connected _ _ I) by assumption.
    rewrite !S' by assumption.
    destruct (Nat.eqb_spec (scope w x) sa); destruct (Nat.eqb_spec (scope w x) sb);
    destruct (Nat.eqb_spec (scope w y) sa); destruct (Nat.eqb_spec (scope w y) sb);
    simpl; fold sa; fold sb; intuition congruence.
  - intros x l Hx. rewrite N' in Hx.
    destruct (nth_error (w_layers w2) x) as [l2|] eqn:E2x; [|discriminate].
    assert (Q : l_out l = l_out l2) by (injection Hx as <-; destruct (nmem x _); reflexivity).
    rewrite Q, wirings_app, flat_map_app. simpl. rewrite app_nil_r.
    assert (Q1 : exists l1, nth_error (w_layers w1) x = Some l1 /\ l_out l2 = l_out l1).
    { rewrite E2 in E2x. destruct (Nat.eqb_spec b x) as [<-|].
      - injection E2x as <-. exists lb. auto.
      - exists l2. auto. }
    destruct Q1 as [l1 [E1x ->]]. rewrite E1 in E1x.
    destruct (Nat.eqb_spec a x) as [<-|Nx].
    + injection E1x as <-. simpl. now rewrite (inv_out _ _ I a la Ea).
    + rewrite (inv_out _ _ I x l1 E1x). now rewrite app_nil_r.
  - intros x l Hx. rewrite N' in Hx.
    destruct (nth_error (w_layers w2) x) as [l2|] eqn:E2x; [|discriminate].
    assert (Q : l_in l = l_in l2) by (injection Hx as <-; destruct (nmem x _); reflexivity).
    rewrite Q, wirings_app, flat_map_app. simpl. rewrite app_nil_r.
    assert (Q1 : forall l1, nth_error (w_layers w1) x = Some l1 ->
                 l_in l1 = flat_map (fun x0 => match x0 with (a, o, i, b') =>
                            if b' =? x then [(a, o, i)] else [] end) (wirings ops)).
    { intros l1. rewrite E1. destruct (Nat.eqb_spec a x) as [<-|Nx].
      - intros [= <-]. simpl. now apply (inv_in _ _ I a la).
      - intros E. now apply (inv_in _ _ I x l1). }
    rewrite E2 in E2x. destruct (Nat.eqb_spec b x) as [<-|Nx].
    + injection E2x as <-. simpl. now rewrite (Q1 lb Eb).
    + rewrite (Q1 l2 E2x). now rewrite app_nil_r.
  - intros m Hm. rewrite created_app in Hm. apply in_app_or in Hm.
    destruct Hm as [Hm|[]]. now apply (inv_valid _ _ I).
Qed.

Lemma run_inv ops w : run ops empty_world = Some w -> Inv ops w.
Proof.
  revert w. induction ops as [|o ops IH] using rev_ind; intros w H.
  - simpl in H. injection H as <-. apply inv_empty.
  - rewrite run_app in H. destruct (run ops empty_world) as [w0|] eqn:E; [|discriminate].
    specialize (IH w0 eq_refl). simpl in H.
    destruct (step w0 o) as [w1|] eqn:E1; [|discriminate]. injection H as <-.
    destruct o as [t n|a o i b]; simpl in E1.
    + now apply (inv_create ops w0).
    + now apply (inv_wire ops w0).
Qed.

(** ** Names *)
Definition taken (d : dict (list nat)) (b : string) (i : nat) : bool :=
  match dget (suffixed b i) d with Some l => length l =? 1 | None => false end.

Lemma skip_taken_spec fuel d b i :
  (forall j, skip_taken fuel d b i = Some j -> i <= j /\ taken d b j = false) /\
  (skip_taken fuel d b i = None -> forall k, k < fuel -> taken d b (i + k) = true).
Proof.
  revert i. induction fuel as [|f IH]; intros i; simpl.
  - split; [discriminate | lia].
  - fold (taken d b i). unfold taken at 2.
    destruct (dget (suffixed b i) d) as [l|] eqn:E.
    + destruct (length l =? 1) eqn:El.
      * destruct (IH (S i)) as [IH1 IH2]. split.
        -- intros j Hj. apply IH1 in Hj. split; [lia | tauto].
        -- intros H [|k] Hk.
           ++ rewrite Nat.add_0_r. unfold taken. now rewrite E.
           ++ replace (i + S k) with (S i + k) by lia. apply IH2; [assumption | lia].
      * split; [|discriminate]. intros j [= <-]. split; [lia|]. unfold taken. now rewrite E.
    + split; [|discriminate]. intros j [= <-]. split; [lia|]. unfold taken. now rewrite E.
Qed.

Lemma skip_taken_total d b i : exists j, skip_taken (S (length d)) d b i = Some j.
Proof.
  destruct (skip_taken (S (length d)) d b i) as [j|] eqn:E; [eauto|].
  destruct (skip_taken_spec (S (length d)) d b i) as [_ H]. specialize (H E).
  exfalso.
  assert (L : length (map (fun k => suffixed b (i + k)) (seq 0 (S (length d)))) <= length (dkeys d)).
  { apply NoDup_incl_length.
    - apply NoDup_map_inj; [|apply seq_NoDup].
      intros x y _ _ Hxy. apply suffixed_inj in Hxy. lia.
    - intros k Hk. apply in_map_iff in Hk. destruct Hk as [x [<- Hx]]. apply in_seq in Hx.
      assert (T : taken d b (i + x) = true) by (apply H; lia).
      unfold taken in T. destruct (dget (suffixed b (i + x)) d) eqn:Eg; [|discriminate].
      eapply dget_Some_key; eauto. }
  rewrite map_length, seq_length, dkeys_length in L. lia.
Qed.

Lemma name_loop_spec d b uns i self :
  In self uns ->
  exists j, name_loop d b uns i self = Some (suffixed b j) /\ i <= j /\ taken d b j = false.
Proof.
  revert i. induction uns as [|un uns IH]; intros i []; simpl.
  - destruct (skip_taken_total d b i) as [j Hj]. change (skip_taken (S (length d)) d b i = Some j) in Hj.
    simpl in Hj. rewrite Hj. subst un. rewrite Nat.eqb_refl.
    exists j. split; [reflexivity|]. apply (skip_taken_spec (S (length d))). exact Hj.
  - destruct (skip_taken_total d b i) as [j Hj].
    assert (Hj' := Hj). simpl in Hj. rewrite Hj. apply skip_taken_spec in Hj'.
    destruct (un =? self).
    + exists j. tauto.
    + destruct (IH (S j) H) as [j' [H1 [H2 H3]]]. exists j'. rewrite H1. repeat split; try assumption. lia.
Qed.

Lemma name_loop_increasing d b uns i x y :
  StronglySorted lt uns -> In x uns -> In y uns -> x < y ->
  exists j k, name_loop d b uns i x = Some (suffixed b j) /\
              name_loop d b uns i y = Some (suffixed b k) /\
              taken d b j = false /\ taken d b k = false /\ i <= j /\ j < k.
Proof.
  intros S. revert i. induction S as [|un uns S IH F]; intros i Hx Hy L; [destruct Hx|].
  rewrite Forall_forall in F.
  destruct (skip_taken_total d b i) as [j Hj].
  assert (Hj' := Hj). apply skip_taken_spec in Hj'. simpl in Hj.
  destruct Hx as [<-|Hx].
  - destruct Hy as [->|Hy]; [lia|].
    destruct (name_loop_spec d b uns (Datatypes.S j) y Hy) as [k [H1 [H2 H3]]].
    exists j, k. cbn [name_loop]. simpl. rewrite Hj, Nat.eqb_refl.
    destruct (Nat.eqb_spec un y); [lia|]. repeat split; try tauto; lia.
  - destruct Hy as [<-|Hy]; [apply F in Hx; lia|].
    destruct (IH (Datatypes.S j) Hx Hy L) as [j' [k [H1 [H2 [H3 [H4 [H5 H6]]]]]]].
    exists j', k. simpl. rewrite Hj.
    assert (un < x) by auto. assert (un < y) by auto.
    destruct (Nat.eqb_spec un x); [lia|]. destruct (Nat.eqb_spec un y); [lia|].
    repeat split; try assumption; try lia.
Qed.

Lemma length_one_eq {A} (l : list A) x y : length l = 1 -> In x l -> In y l -> x = y.
Proof.
  destruct l as [|a [|b l]]; simpl; intros H Hx Hy; try lia.
  destruct Hx as [|[]], Hy as [|[]]. congruence.
Qed.

(** The group of layers that share base name and scope with [a]. *)
Lemma group_spec ops w a :
  Inv ops w -> a < nlayers w ->
  exists la d l, nth_error (w_layers w) a = Some la /\
    nth_error (w_scopes w) (l_scope la) = Some d /\ good w (scope w a) d /\
    dget (l_base la) d = Some l /\ l_base la = base w a /\ In a l /\ StronglySorted lt l /\
    (forall j, In j l <-> j < nlayers w /\ connected ops a j /\ base w j = base w a).
Proof.
  intros I Ha.
  destruct (nth_error (w_layers w) a) as [la|] eqn:Ea.
  2:{ apply nth_error_None in Ea. unfold nlayers in Ha. lia. }
  destruct (inv_good _ _ I a Ha) as [d [Hd G]].
  assert (Sa : scope w a = l_scope la) by (unfold scope; now rewrite Ea).
  assert (Ba : base w a = l_base la) by (unfold base; now rewrite Ea).
  assert (G2 := G). destruct G2 as [ND G2]. specialize (G2 (l_base la)).
  destruct (dget (l_base la) d) as [l|] eqn:El.
  - destruct G2 as [G3 [G4 G5]].
    exists la, d, l. rewrite <- Sa.
    refine (conj eq_refl (conj Hd (conj G (conj El (conj (eq_sym Ba) (conj _ (conj G4 _))))))).
    + apply G5. auto.
    + intros j. split.
      * intros H. apply G5 in H. destruct H as [Hj [Hs Hb]]. repeat split; try congruence.
        apply (inv_connected _ _ I); auto.
      * intros [Hj [Hc Hb]]. apply G5. repeat split; try assumption; try congruence.
        symmetry. now apply (inv_connected _ _ I).
  - exfalso. exact (G2 a Ha eq_refl Ba).
Qed.

Lemma names_unique ops w a b :
  run ops empty_world = Some w -> connected ops a b -> a <> b ->
  exists na nb, layer_name w a = Some na /\ layer_name w b = Some nb /\ na <> nb.
Proof.
  intros R C N. apply run_inv in R.
  destruct (connected_bound _ _ _ _ R C N) as [La Lb].
  destruct (group_spec _ _ a R La) as [la [d [l [Ea [Ed [Gd [El [Ba [Ia [Sl Ml]]]]]]]]]].
  destruct (group_spec _ _ b R Lb) as [lb [d' [l' [Eb [Ed' [Gd' [El' [Bb [Ib [Sl' Ml']]]]]]]]]].
  assert (Sab : scope w a = scope w b) by (apply (inv_connected _ _ R); assumption).
  assert (d' = d).
  { assert (l_scope la = l_scope lb).
    { unfold scope in Sab. rewrite Ea, Eb in Sab. exact Sab. }
    congruence. }
  subst d'.
  unfold layer_name. rewrite Ea, Ed, El, Eb, Ed', El'.
  assert (Single : forall (x : nat) (k : string) (m : list nat), dget k d = Some m -> (length m =? 1) = true ->
             forall b0 j, taken d b0 j = false -> k <> suffixed b0 j).
  { intros x k m Hk Hm b0 j T ->. unfold taken in T. rewrite Hk in T. congruence. }
  destruct (length l =? 1) eqn:L1; destruct (length l' =? 1) eqn:L2.
  - exists (l_base la), (l_base lb). repeat split; auto. intros E.
    rewrite E in El. rewrite El in El'. injection El' as <-.
    apply N. apply Nat.eqb_eq in L1. now apply (length_one_eq l).
  - destruct (name_loop_spec d (l_base lb) l' 1 b Ib) as [j [H1 [H2 H3]]].
    exists (l_base la), (suffixed (l_base lb) j). repeat split; auto.
    eapply (Single a); eauto.
  - destruct (name_loop_spec d (l_base la) l 1 a Ia) as [j [H1 [H2 H3]]].
    exists (suffixed (l_base la) j), (l_base lb). repeat split; auto.
    apply not_eq_sym. eapply (Single a); eauto.
  - destruct (string_dec (l_base la) (l_base lb)) as [E|NE].
    + rewrite <- E in El'. rewrite El in El'. injection El' as <-. rewrite <- E.
      destruct (Nat.lt_total a b) as [L|[L|L]]; [|contradiction|].
      * destruct (name_loop_increasing d (l_base la) l 1 a b Sl Ia Ib L)
          as [j [k [H1 [H2 [H3 [H4 [H5 H6]]]]]]].
        rewrite H1, H2. do 2 eexists. repeat split. intros Q. apply suffixed_inj in Q. lia.
      * destruct (name_loop_increasing d (l_base la) l 1 b a Sl Ib Ia L)
          as [j [k [H1 [H2 [H3 [H4 [H5 H6]]]]]]].
        rewrite H1, H2. do 2 eexists. repeat split. intros Q. apply suffixed_inj in Q. lia.
    + destruct (name_loop_spec d (l_base la) l 1 a Ia) as [j [H1 _]].
      destruct (name_loop_spec d (l_base lb) l' 1 b Ib) as [k [H2 _]].
      rewrite H1, H2. do 2 eexists. repeat split. intros Q. apply suffixed_inj in Q. tauto.
Qed.

Lemma base_created ops w a : Inv ops w -> nth_error (created ops) a = 
  match nth_error (w_layers w) a with Some l => Some (l_base l) | None => None end.
Proof. intros I. rewrite <- (inv_base _ _ I), nth_error_map. destruct (nth_error _ a); reflexivity. Qed.

Lemma created_nlayers ops w : Inv ops w -> length (created ops) = nlayers w.
Proof. intros I. rewrite <- (inv_base _ _ I). apply map_length. Qed.

(** A layer that does not share its base name with a connected layer keeps it. *)
Lemma name_unshared ops w a n :
  run ops empty_world = Some w -> nth_error (created ops) a = Some n ->
  (forall b, connected ops a b -> nth_error (created ops) b = Some n -> b = a) ->
  layer_name w a = Some n.
Proof.
  intros R Hn U. apply run_inv in R. rewrite (base_created _ _ _ R) in Hn.
  assert (La : a < nlayers w).
  { apply nth_error_Some. intros E. unfold nlayers in *. rewrite E in Hn. discriminate. }
  destruct (group_spec _ _ a R La) as [la [d [l [Ea [Ed [Gd [El [Ba [Ia [Sl Ml]]]]]]]]]].
  rewrite Ea in Hn. injection Hn as <-.
  unfold layer_name. rewrite Ea, Ed, El.
  assert (l = [a]).
  { assert (F : forall j, In j l -> j = a).
    { intros j Hj. apply Ml in Hj. destruct Hj as [Lj [Cj Bj]]. apply U; [assumption|].
      rewrite (base_created _ _ _ R). unfold base in Bj.
      destruct (nth_error (w_layers w) j) eqn:Ej.
      - rewrite Ea in Bj. now rewrite Bj.
      - apply nth_error_None in Ej. unfold nlayers in Lj. lia. }
    apply ssorted_NoDup in Sl.
    destruct l as [|x [|y l]]; [destruct Ia | | ].
    - f_equal. apply F. now left.
    - assert (x = a) by (apply F; now left). assert (y = a) by (apply F; right; now left).
      subst. inversion Sl as [|? ? X]. exfalso. apply X. now left. }
  subst l. reflexivity.
Qed.

(** Connected layers sharing a base name are numbered in creation order. *)
Lemma name_shared ops w a b n :
  run ops empty_world = Some w -> connected ops a b -> a < b ->
  nth_error (created ops) a = Some n -> nth_error (created ops) b = Some n ->
  exists i j, layer_name w a = Some (suffixed n i) /\ layer_name w b = Some (suffixed n j) /\
              1 <= i /\ i < j.
Proof.
  intros R C L Ha Hb. apply run_inv in R.
  assert (N : a <> b) by lia.
  destruct (connected_bound _ _ _ _ R C N) as [La Lb].
  rewrite (base_created _ _ a R) in Ha. rewrite (base_created _ _ b R) in Hb.
  destruct (group_spec _ _ a R La) as [la [d [l [Ea [Ed [Gd [El [Ba [Ia [Sl Ml]]]]]]]]]].
  destruct (nth_error (w_layers w) b) as [lb|] eqn:Eb; [|discriminate].
  rewrite Ea in Ha. injection Ha as Ha. injection Hb as Hb.
  assert (Ib : In b l).
  { apply Ml. repeat split; try assumption. unfold base. rewrite Ea, Eb. congruence. }
  assert (Sab : scope w a = scope w b) by (apply (inv_connected _ _ R); assumption).
  assert (Q : l_scope la = l_scope lb).
  { unfold scope in Sab. now rewrite Ea, Eb in Sab. }
  destruct (name_loop_increasing d n l 1 a b Sl Ia Ib L)
    as [j [k [H1 [H2 [H3 [H4 [H5 H6]]]]]]].
  assert (N1 : (length l =? 1) = false).
  { apply Nat.eqb_neq. intros E. apply N. now apply (length_one_eq l). }
  exists j, k. unfold layer_name. rewrite Ea, Ed, El, N1.
  rewrite Eb, <- Q, Ed, Hb, <- Ha, El, N1. rewrite Ha. auto.
Qed.

Lemma layer_name_total ops w a :
  run ops empty_world = Some w -> a < length (created ops) ->
  exists n, layer_name w a = Some n.
Proof.
  intros R La. apply run_inv in R. rewrite (created_nlayers _ _ R) in La.
  destruct (group_spec _ _ a R La) as [la [d [l [Ea [Ed [Gd [El [Ba [Ia [Sl Ml]]]]]]]]]].
  unfold layer_name. rewrite Ea, Ed, El.
  destruct (length l =? 1); [eauto|].
  destruct (name_loop_spec d (l_base la) l 1 a Ia) as [j [-> _]]. eauto.
Qed.

(** ** Collecting the connected layers *)
Lemma neighbours_spec ops w a x :
  Inv ops w -> (In x (neighbours w a) <-> (a < nlayers w /\ (wired ops a x \/ wired ops x a))).
Proof.
  intros I. unfold neighbours. destruct (nth_error (w_layers w) a) as [l|] eqn:Ea.
  - assert (La : a < nlayers w) by (apply nth_error_Some; congruence).
    rewrite (inv_out _ _ I a l Ea), (inv_in _ _ I a l Ea).
    rewrite in_app_iff, !in_map_iff. split.
    + intros [[y [E Hy]]|[y [E Hy]]].
      * apply in_flat_map in Hy. destruct Hy as [[[[a' o] i] b] [W Hy]].
        destruct (Nat.eqb_spec a' a) as [->|]; [|destruct Hy].
        destruct Hy as [<-|[]]. simpl in E. subst b. split; [assumption|]. left. now exists o, i.
      * apply in_flat_map in Hy. destruct Hy as [[[[a' o] i] b] [W Hy]].
        destruct (Nat.eqb_spec b a) as [->|]; [|destruct Hy].
        destruct Hy as [<-|[]]. simpl in E. subst a'. split; [assumption|]. right. now exists o, i.
    + intros [_ [[o [i W]]|[o [i W]]]].
      * left. exists (o, i, x). split; [reflexivity|]. apply in_flat_map.
        exists (a, o, i, x). split; [assumption|]. rewrite Nat.eqb_refl. now left.
      * right. exists (x, o, i). split; [reflexivity|]. apply in_flat_map.
        exists (x, o, i, a). split; [assumption|]. rewrite Nat.eqb_refl. now left.
  - apply nth_error_None in Ea. unfold nlayers. split; [intros [] | lia].
Qed.

Lemma NoDup_app_intro {A} (l1 l2 : list A) :
  NoDup l1 -> NoDup l2 -> (forall x, In x l1 -> ~ In x l2) -> NoDup (l1 ++ l2).
Proof.
  induction 1 as [|x l1 Hx ND IH]; simpl; intros ND2 D; [assumption|].
  constructor.
  - rewrite in_app_iff. intros [H|H]; [contradiction | exact (D x (or_introl eq_refl) H)].
  - apply IH; [assumption|]. intros y Hy. apply D. now right.
Qed.

Lemma collect_loop_spec ops w a fuel con new :
  Inv ops w ->
  (forall x, In x con \/ In x new -> x < nlayers w /\ connected ops a x) ->
  NoDup con -> NoDup new -> (forall x, In x con -> ~ In x new) ->
  (forall x y, In x con -> wired ops x y \/ wired ops y x -> In y con \/ In y new) ->
  (In a con \/ In a new) ->
  nlayers w < length con + fuel ->
  exists l, collect_loop fuel w con new = Some l /\ NoDup l /\
            (forall x, In x l <-> connected ops a x).
Proof.
  intros I. revert con new. induction fuel as [|f IH]; intros con new HB ND1 ND2 D HC Ha F.
  - exfalso. assert (length con <= length (seq 0 (nlayers w))).
    { apply NoDup_incl_length; [assumption|]. intros x Hx. apply in_seq.
      destruct (HB x (or_introl Hx)). lia. }
    rewrite seq_length in H. lia.
  - destruct new as [|n0 new0].
    + simpl. exists con. split; [reflexivity|]. split; [assumption|]. intros x. split.
      * intros Hx. apply HB. now left.
      * intros C. destruct Ha as [Ha|[]].
        unfold connected in C.
        assert (G : forall u v, clos_refl_sym_trans nat (wired ops) u v ->
                    (In u con <-> In v con)).
        { induction 1 as [u v W| u | u v _ IHc | u v z _ IH1 _ IH2].
          - split; intros Hu.
            + destruct (HC u v Hu (or_introl W)) as [|[]]; assumption.
            + destruct (HC v u Hu (or_intror W)) as [|[]]; assumption.
          - tauto.
          - tauto.
          - tauto. }
        now apply (G a x).
    + set (new := n0 :: new0) in *. 
      assert (Filt : filter (fun x => negb (nmem x con)) new = new).
      { assert (Q : forall l, (forall x, In x l -> ~ In x con) -> filter (fun x => negb (nmem x con)) l = l).
        { induction l as [|x l IHl]; simpl; intros Hl; [reflexivity|].
          destruct (nmem x con) eqn:E; [apply nmem_In in E; exfalso; exact (Hl x (or_introl eq_refl) E)|].
          simpl. f_equal. apply IHl. intros y Hy. apply Hl. now right. }
        apply Q. intros x Hx Hc. exact (D x Hc Hx). }
      cbn [collect_loop]. fold new. change (match new with [] => _ | _ => _ end) with
        (collect_loop f w (con ++ filter (fun x => negb (nmem x con)) new)
            (nodup Nat.eq_dec (filter (fun x => negb (nmem x (con ++ filter (fun x => negb (nmem x con)) new)))
               (flat_map (neighbours w) new)))).
      rewrite Filt. apply IH.
      * intros x [Hx|Hx].
        -- apply in_app_or in Hx. now apply HB.
        -- apply nodup_In, filter_In in Hx. destruct Hx as [Hx _].
           apply in_flat_map in Hx. destruct Hx as [y [Hy Hx]].
           apply (neighbours_spec _ _ _ _ I) in Hx. destruct Hx as [_ Hx].
           destruct (HB y (or_intror Hy)) as [By Cy]. split.
           ++ destruct Hx as [[o [i W]]|[o [i W]]]; apply (inv_wire_lt _ _ I) in W; tauto.
           ++ eapply rst_trans; [exact Cy|]. destruct Hx as [W|W]; [|apply rst_sym]; now apply rst_step.
      * apply NoDup_app_intro; assumption.
      * apply NoDup_nodup.
      * intros x Hx Hn. apply nodup_In, filter_In in Hn. destruct Hn as [_ Hn].
        apply negb_true_iff, nmem_false in Hn. contradiction.
      * intros x y Hx W. destruct (in_dec Nat.eq_dec y (con ++ new)) as [|Ny]; [now left|].
        right. apply nodup_In, filter_In. split; [|apply negb_true_iff; now apply nmem_false].
        apply in_app_or in Hx. destruct Hx as [Hx|Hx].
        -- exfalso. apply Ny, in_or_app. eapply HC; eauto.
        -- apply in_flat_map. exists x. split; [assumption|].
           apply (neighbours_spec _ _ _ _ I). split; [|assumption]. apply HB. now right.
      * left. apply in_or_app. assumption.
      * rewrite app_length. unfold new. simpl. lia.
Qed.

Lemma collect_spec ops w a :
  run ops empty_world = Some w -> a < length (created ops) ->
  exists l, collect_connected_layers w a = Some l /\ NoDup l /\
            (forall x, In x l <-> connected ops a x).
Proof.
  intros R La. apply run_inv in R. rewrite (created_nlayers _ _ R) in La.
  apply collect_loop_spec; try assumption.
  - intros x [[]|[<-|[]]]. split; [assumption | apply rst_refl].
  - constructor.
  - repeat constructor. intros [].
  - intros x [].
  - intros x y [].
  - right. now left.
  - simpl. unfold nlayers. lia.
Qed.

(** ** Generating the architecture *)
Lemma ident_char_no_dot c : ident_char c = true -> c <> "."%char.
Proof. intros H ->. discriminate. Qed.

Lemma ident_tail_chars s c : ident_tail s = true -> In c (chars s) -> c <> "."%char.
Proof.
  induction s as [|x s IH]; simpl; [tauto|].
  destruct (ident_char x) eqn:E.
  - intros H [<-|Hc]; [now apply ident_char_no_dot | auto].
  - intros H. apply andb_true_iff in H. destruct H as [H1 H2].
    apply Ascii.eqb_eq in H1. apply String.eqb_eq in H2. subst.
    intros [<-|[]]. discriminate.
Qed.

Lemma valid_name_no_dot s : is_valid_layer_name s = true -> ~ In "."%char (chars s).
Proof.
  unfold is_valid_layer_name. destruct (smem s name_blacklist); [discriminate|].
  destruct s as [|c s]; simpl; [discriminate|]. intros H. apply andb_true_iff in H.
  destruct H as [H1 H2]. intros [->|I].
  - discriminate.
  - now apply (ident_tail_chars s "."%char).
Qed.

Lemma suffixed_no_dot b i : ~ In "."%char (chars b) -> ~ In "."%char (chars (suffixed b i)).
Proof.
  intros H. unfold suffixed. rewrite chars_app. intros I. apply in_app_or in I.
  destruct I as [I|[I|I]]; [contradiction | discriminate |].
  now apply dec_digits in I.
Qed.

Lemma layer_name_no_dot ops w a n :
  Inv ops w -> layer_name w a = Some n -> ~ In "."%char (chars n).
Proof.
  intros I. unfold layer_name. destruct (nth_error (w_layers w) a) as [la|] eqn:Ea; [|discriminate].
  destruct (nth_error (w_scopes w) (l_scope la)) as [d|]; [|discriminate].
  destruct (dget (l_base la) d) as [l|]; [|discriminate].
  assert (B : ~ In "."%char (chars (l_base la))).
  { apply valid_name_no_dot, (inv_valid _ _ I). rewrite <- (inv_base _ _ I).
    apply in_map. eapply nth_error_In; eauto. }
  destruct (length l =? 1).
  - intros [= <-]. exact B.
  - generalize 1. induction l as [|u l IH]; intros i; simpl; [discriminate|].
    destruct (match dget _ d with Some _ => _ | None => _ end) as [j|]; [|discriminate].
    destruct (u =? a).
    + intros [= <-]. now apply suffixed_no_dot.
    + apply IH.
Qed.

Lemma partition_dot_spec n s :
  ~ In "."%char (chars n) -> partition_dot (n ++ String "." s)%string = (n, s).
Proof.
  induction n as [|c n IH]; simpl; intros H; [reflexivity|].
  destruct (Ascii.eqb_spec c "."%char) as [->|N]; [exfalso; apply H; now left|].
  rewrite IH; [reflexivity|]. intros I. apply H. now right.
Qed.

(** The connection that a wiring stands for, given the names. *)
Definition default_input (i : string) : string := if String.eqb i "" then "default" else i.

Definition con_of (nm : nat -> option string) (x : nat * string * string * nat)
  : option connection :=
  match x with (a, o, i, b) =>
    match nm a, nm b with
    | Some na, Some nb => Some (mkCon na o nb (default_input i))
    | _, _ => None
    end
  end.

Lemma Permutation_flat_map_dset (f : string -> string -> connection) k s l d :
  dget k d = Some l ->
  Permutation (flat_map (fun it : string * list string => map (f (fst it)) (snd it)) (dset k (l ++ [s]) d))
              (flat_map (fun it : string * list string => map (f (fst it)) (snd it)) d ++ [f k s]).
Proof.
  induction d as [|[k' l'] d IH]; simpl; [discriminate|].
  destruct (String.eqb_spec k k') as [->|N]; intros H.
  - injection H as <-. simpl. rewrite map_app, <- !app_assoc. apply Permutation_app_head.
    simpl. apply Permutation_cons_append.
  - simpl. rewrite <- app_assoc. apply Permutation_app_head. auto.
Qed.

Lemma outgoing_description_spec ops w a la na :
  Inv ops w -> nth_error (w_layers w) a = Some la -> layer_name w a = Some na ->
  (forall o i b, In (o, i, b) (l_out la) -> exists nb, layer_name w b = Some nb) ->
  exists d, outgoing_description w a = Some d /\
    Permutation (map Some (outgoing_connections na d))
      (map (fun x => match x with (o, i, b) => con_of (layer_name w) (a, o, i, b) end) (l_out la)).
Proof.
  intros I Ea En Hb. unfold outgoing_description. rewrite Ea.
  assert (G : forall outs d0,
    (forall o i b, In (o, i, b) outs -> exists nb, layer_name w b = Some nb) ->
    exists d, fold_left (add_outgoing w) outs (Some d0) = Some d /\
    Permutation (map Some (outgoing_connections na d))
      (map Some (outgoing_connections na d0) ++
       map (fun x => match x with (o, i, b) => con_of (layer_name w) (a, o, i, b) end) outs)).
  { induction outs as [|[[o i] b] outs IH]; intros d0 Ho; simpl.
    - exists d0. split; [reflexivity|]. now rewrite app_nil_r.
    - destruct (Ho o i b (or_introl eq_refl)) as [nb Hnb]. rewrite Hnb.
      set (s := (nb ++ String "." i)%string).
      assert (Ps : parse_con na o s = mkCon na o nb (default_input i)).
      { unfold parse_con, s. rewrite partition_dot_spec by (eapply layer_name_no_dot; eauto).
        reflexivity. }
      assert (X : exists d1, (match dget o d0 with
                  | Some l => Some (dset o (l ++ [s]) d0)
                  | None => Some (dset o [s] d0) end) = Some d1 /\
                 Permutation (outgoing_connections na d1)
                   (outgoing_connections na d0 ++ [mkCon na o nb (default_input i)])).
      { destruct (dget o d0) as [l|] eqn:El.
        - exists (dset o (l ++ [s]) d0). split; [reflexivity|]. unfold outgoing_connections.
          rewrite <- Ps. now apply (Permutation_flat_map_dset (parse_con na)).
        - exists (dset o [s] d0). split; [reflexivity|].
          apply dget_None in El. rewrite dset_fresh by assumption.
          unfold outgoing_connections. rewrite flat_map_app. simpl. now rewrite Ps. }
      destruct X as [d1 [-> P1]].
      destruct (IH d1) as [d [Hd P]].
      { intros o' i' b' H. apply (Ho o' i' b'). now right. }
      exists d. split; [exact Hd|].
      rewrite P. rewrite (Permutation_map Some P1), map_app. simpl.
      rewrite <- app_assoc. apply Permutation_app_head. rewrite En. reflexivity. }
  destruct (G (l_out la) [] Hb) as [d [Hd P]]. exists d. split; [exact Hd | exact P].
Qed.

Lemma In_l_out ops w a la o i b :
  Inv ops w -> nth_error (w_layers w) a = Some la ->
  (In (o, i, b) (l_out la) <-> In (a, o, i, b) (wirings ops)).
Proof.
  intros I Ea. rewrite (inv_out _ _ I a la Ea), in_flat_map. split.
  - intros [[[[a' o'] i'] b'] [W H]]. destruct (Nat.eqb_spec a' a) as [->|]; [|destruct H].
    destruct H as [H|[]]. congruence.
  - intros W. exists (a, o, i, b). rewrite Nat.eqb_refl. split; [assumption | now left].
Qed.

(** Regrouping the wirings by their start layer. *)
Lemma regroup {B} (f : nat * string * string * nat -> B) (order : list nat) ws :
  NoDup order ->
  Permutation
    (flat_map (fun a => map (fun x => match x with (o, i, b) => f (a, o, i, b) end)
        (flat_map (fun x => match x with (a', o, i, b) =>
                   if a' =? a then [(o, i, b)] else [] end) ws)) order)
    (map f (filter (fun x => match x with (a, _, _, _) => nmem a order end) ws)).
Proof.
  intros ND. induction ws as [|[[[a o] i] b] ws IH].
  - rewrite flat_map_nil; [reflexivity | reflexivity].
  - cbn [filter flat_map].
    assert (E : forall l, NoDup l ->
      Permutation
       (flat_map (fun a0 => map (fun x => match x with (o, i, b) => f (a0, o, i, b) end)
          ((if a =? a0 then [(o, i, b)] else []) ++
           flat_map (fun x => match x with (a', o, i, b) =>
                     if a' =? a0 then [(o, i, b)] else [] end) ws)) l)
       ((if nmem a l then [f (a, o, i, b)] else []) ++
        flat_map (fun a0 => map (fun x => match x with (o, i, b) => f (a0, o, i, b) end)
          (flat_map (fun x => match x with (a', o, i, b) =>
                     if a' =? a0 then [(o, i, b)] else [] end) ws)) l)).
    { induction l as [|c l IHl]; intros NDl; [reflexivity|].
      inversion NDl as [|? ? N1 N2]; subst. cbn [flat_map]. rewrite IHl by assumption.
      rewrite map_app. unfold nmem at 2. simpl. fold (nmem a l).
      destruct (Nat.eqb_spec a c) as [<-|NE]; simpl.
      - apply nmem_false in N1. rewrite N1. simpl. reflexivity.
      - destruct (nmem a l); simpl; [|reflexivity].
        symmetry. apply Permutation_middle. }
    rewrite (E order ND), IH.
    destruct (nmem a order); simpl; reflexivity.
Qed.

Lemma generate_architecture_spec ops w a l order :
  run ops empty_world = Some w -> a < length (created ops) ->
  collect_connected_layers w a = Some l -> Permutation order l ->
  exists ar, generate_architecture_in w order = Some ar /\
    (* one entry per connected layer, in iteration order, with its name and type *)
    map (fun it => (Some (fst it), Some (fst (snd it)))) ar
      = map (fun x => (layer_name w x, nth_error (created_types ops) x)) order /\
    NoDup (dkeys ar) /\
    (* the connections are exactly the wirings of the connected layers *)
    Permutation (map Some (all_connections ar))
      (map (con_of (layer_name w))
           (filter (fun x => match x with (s, _, _, _) => nmem s order end) (wirings ops))).
Proof.
  intros R La Hc P.
  destruct (collect_spec ops w a R La) as [l' [Hc' [NDl Ml]]].
  rewrite Hc in Hc'. injection Hc' as <-.
  assert (I := run_inv _ _ R).
  assert (NDo : NoDup order) by (eapply Permutation_NoDup; [symmetry; exact P | exact NDl]).
  assert (Mo : forall x, In x order <-> connected ops a x).
  { intros x. rewrite <- Ml. split; apply Permutation_in; [|symmetry]; assumption. }
  assert (Lo : forall x, In x order -> x < nlayers w).
  { intros x Hx. apply Mo in Hx. destruct (Nat.eq_dec a x) as [<-|N].
    - now rewrite <- (created_nlayers _ _ I).
    - eapply connected_bound; eauto. }
  assert (Names : forall x, In x order -> exists n, layer_name w x = Some n).
  { intros x Hx. apply (layer_name_total ops); [assumption|].
    rewrite (created_nlayers _ _ I). auto. }
  assert (Uniq : forall x y n, In x order -> In y order ->
             layer_name w x = Some n -> layer_name w y = Some n -> x = y).
  { intros x y n Hx Hy Nx Ny. destruct (Nat.eq_dec x y) as [|NE]; [assumption|]. exfalso.
    destruct (names_unique ops w x y R) as [n1 [n2 [E1 [E2 E3]]]]; [|assumption|congruence].
    eapply rst_trans; [apply rst_sym; now apply Mo | now apply Mo]. }
  assert (G : forall todo ar0 done,
     order = done ++ todo ->
     map (fun it => (Some (fst it), Some (fst (snd it)))) ar0
        = map (fun x => (layer_name w x, nth_error (created_types ops) x)) done ->
     NoDup (dkeys ar0) ->
     exists ar, fold_left (add_desc w) todo (Some ar0) = Some ar /\
       map (fun it => (Some (fst it), Some (fst (snd it)))) ar
          = map (fun x => (layer_name w x, nth_error (created_types ops) x)) (done ++ todo) /\
       NoDup (dkeys ar) /\
       Permutation (map Some (all_connections ar))
         (map Some (all_connections ar0) ++
          flat_map (fun a => map (fun x => match x with (o, i, b) => con_of (layer_name w) (a, o, i, b) end)
            (flat_map (fun x => match x with (a', o, i, b) =>
                   if a' =? a then [(o, i, b)] else [] end) (wirings ops))) todo)).
  { induction todo as [|x todo IH]; intros ar0 done Eo Em ND.
    - exists ar0. simpl. rewrite !app_nil_r. auto.
    - assert (Hx : In x order) by (rewrite Eo; apply in_or_app; right; now left).
      destruct (Names x Hx) as [nx Hnx].
      destruct (nth_error (w_layers w) x) as [lx|] eqn:Ex.
      2:{ apply nth_error_None in Ex. apply Lo in Hx. unfold nlayers in Hx. lia. }
      destruct (outgoing_description_spec ops w x lx nx I Ex Hnx) as [d [Hd Pd]].
      { intros o i b Hb. apply Names. apply Mo.
        apply (In_l_out _ _ _ _ _ _ _ I Ex) in Hb.
        eapply rst_trans; [apply Mo; exact Hx|]. apply rst_step. now exists o, i. }
      assert (Fresh : ~ In nx (dkeys ar0)).
      { intros Hin. apply in_map_iff in Hin. destruct Hin as [it [E Hit]].
        assert (Hy : In (Some nx, Some (fst (snd it)))
                  (map (fun x => (layer_name w x, nth_error (created_types ops) x)) done)).
        { rewrite <- Em, <- E. apply (in_map (fun it => (Some (fst it), Some (fst (snd it))))). exact Hit. }
        apply in_map_iff in Hy. destruct Hy as [y [Ey Hy]]. injection Ey as Ey _.
        assert (x = y).
        { eapply Uniq; eauto. rewrite Eo. apply in_or_app. now left. }
        subst y. rewrite Eo in NDo. apply NoDup_remove_2 in NDo. apply NDo, in_or_app. now left. }
      assert (Tx : nth_error (created_types ops) x = Some (l_type lx)).
      { rewrite <- (inv_type _ _ I), nth_error_map, Ex. reflexivity. }
      destruct (IH (ar0 ++ [(nx, (l_type lx, d))]) (done ++ [x])) as [ar [H1 [H2 [H3 H4]]]].
      + rewrite Eo, <- app_assoc. reflexivity.
      + rewrite !map_app, Em. simpl. now rewrite Hnx, Tx.
      + unfold dkeys. rewrite map_app. simpl. apply NoDup_app_intro; [assumption | repeat constructor; intros [] |].
        intros k Hk [<-|[]]. contradiction.
      + exists ar. cbn [fold_left].
        replace (add_desc w (Some ar0) x) with (Some (ar0 ++ [(nx, (l_type lx, d))])).
        2:{ unfold add_desc. rewrite Ex, Hnx, Hd. now rewrite dset_fresh. }
        split; [exact H1|]. split; [rewrite H2, <- app_assoc; reflexivity|].
        split; [exact H3|]. rewrite H4. unfold all_connections at 1. rewrite flat_map_app, map_app.
        simpl. rewrite app_nil_r. rewrite <- app_assoc. apply Permutation_app_head.
        rewrite Pd. rewrite (inv_out _ _ I x lx Ex). reflexivity. }
  destruct (G order [] [] eq_refl eq_refl (NoDup_nil _)) as [ar [H1 [H2 [H3 H4]]]].
  exists ar. split; [exact H1|]. split; [exact H2|]. split; [exact H3|].
  rewrite H4. exact (regroup (con_of (layer_name w)) order (wirings ops) NDo).
Qed.

(** ** Programs run *)
Definition wf_op (n : nat) (o : op) : Prop :=
  match o with
  | Create t None => is_valid_layer_name t = true
  | Create t (Some m) => is_valid_layer_name t = true /\ is_valid_layer_name m = true
  | Wire a _ _ b => a < n /\ b < n
  end.

(** Every operation has valid names resp. refers to layers created before it. *)
Definition wf_program (ops : list op) : Prop :=
  forall pre o post, ops = pre ++ o :: post -> wf_op (length (created pre)) o.

Lemma run_total ops : wf_program ops -> exists w, run ops empty_world = Some w.
Proof.
  induction ops as [|o ops IH] using rev_ind; intros WF; [simpl; eauto|].
  destruct IH as [w Hw].
  { intros pre o' post E. apply (WF pre o' (post ++ [o])). rewrite E, <- app_assoc. reflexivity. }
  specialize (WF ops o [] eq_refl).
  assert (I := run_inv _ _ Hw). rewrite run_app, Hw. simpl.
  destruct o as [t [n|]|a o i b]; simpl in *.
  - unfold create. destruct WF as [-> ->]. simpl. eauto.
  - unfold create. rewrite WF. simpl. eauto.
  - rewrite (created_nlayers _ _ I) in WF. destruct WF as [La Lb].
    destruct (wire a o i b w) as [w'|] eqn:E; [eauto|]. exfalso.
    unfold wire, update_layer in E.
    destruct (nth_error (w_layers w) a) as [la|] eqn:Ea.
    2:{ apply nth_error_None in Ea. unfold nlayers in La. lia. }
    cbn [w_layers w_scopes] in E. 
    destruct (nth_error (set_nth a (add_out (o, i, b) la) (w_layers w)) b) as [lb|] eqn:Eb.
    2:{ apply nth_error_None in Eb. rewrite set_nth_length in Eb. unfold nlayers in Lb. lia. }
    unfold merge_scopes in E. cbn [w_layers w_scopes] in E.
    set (ls := set_nth b (add_in (a, o, i) lb) (set_nth a (add_out (o, i, b) la) (w_layers w))) in E.
    assert (SC : forall x l, nth_error ls x = Some l -> exists l0, nth_error (w_layers w) x = Some l0 /\ l_scope l = l_scope l0).
    { intros x l. unfold ls. rewrite nth_error_set_nth, nth_error_set_nth.
      rewrite nth_error_set_nth in Eb.
      destruct (Nat.eqb_spec b x) as [Eq|Nb]; [subst x|].
      - rewrite Eb. intros [= <-]. revert Eb.
        destruct (Nat.eqb_spec a b) as [Eq|Na]; [subst b; rewrite Ea|];
          intros Eb; [injection Eb as <-|]; eauto.
      - destruct (Nat.eqb_spec a x) as [Eq|Na]; [subst x; rewrite Ea; intros [= <-]|];
          eauto. }
    assert (OK : forall x, x < nlayers w -> exists l d, nth_error ls x = Some l /\ nth_error (w_scopes w) (l_scope l) = Some d).
    { intros x Lx. destruct (nth_error ls x) as [l|] eqn:El.
      - destruct (SC _ _ El) as [l0 [E0 E1]].
        destruct (inv_good _ _ I x Lx) as [d [Hd _]]. exists l, d. split; [reflexivity|].
        unfold scope in Hd. rewrite E0 in Hd. congruence.
      - apply nth_error_None in El. unfold ls in El. rewrite !set_nth_length in El.
        unfold nlayers in Lx. lia. }
    destruct (OK a La) as [la' [da [H1 H2]]]. destruct (OK b Lb) as [lb' [db [H3 H4]]].
    rewrite H1, H3, H2, H4 in E. discriminate.
Qed.
