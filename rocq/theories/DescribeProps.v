(** Descriptions: C35. *)
From Coq Require Import String List Arith Bool ZArith QArith Lia.
From Verif Require Import PyBase PyFacts DescribeModel.
Import ListNotations.
Open Scope string_scope.
Open Scope list_scope.
Open Scope nat_scope.

(** ** Generalities *)
Section ValueInd.
  Variable P : value -> Prop.
  Hypothesis HNone : P VNone.
  Hypothesis HBool : forall b, P (VBool b).
  Hypothesis HInt : forall z, P (VInt z).
  Hypothesis HFloat : forall f, P (VFloat f).
  Hypothesis HStr : forall s, P (VStr s).
  Hypothesis HList : forall l, Forall P l -> P (VList l).
  Hypothesis HTuple : forall l, Forall P l -> P (VTuple l).
  Hypothesis HArr : forall l, P (VArr l).
  Hypothesis HDict : forall d, Forall (fun it => P (snd it)) d -> P (VDict d).
  Hypothesis HObj : forall c m, Forall (fun it => P (snd it)) m -> P (VObj c m).
  Hypothesis HOpaque : forall n, P (VOpaque n).
  Fixpoint value_ind' (v : value) : P v :=
    match v with
    | VNone => HNone | VBool b => HBool b | VInt z => HInt z | VFloat f => HFloat f | VStr s => HStr s
    | VList l => HList l ((fix go l : Forall P l := match l with [] => Forall_nil _ | a :: r => Forall_cons _ (value_ind' a) (go r) end) l)
    | VTuple l => HTuple l ((fix go l : Forall P l := match l with [] => Forall_nil _ | a :: r => Forall_cons _ (value_ind' a) (go r) end) l)
    | VArr l => HArr l
    | VDict d => HDict d ((fix go d : Forall (fun it => P (snd it)) d := match d with [] => Forall_nil _ | a :: r => Forall_cons _ (value_ind' (snd a)) (go r) end) d)
    | VObj c d => HObj c d ((fix go d : Forall (fun it => P (snd it)) d := match d with [] => Forall_nil _ | a :: r => Forall_cons _ (value_ind' (snd a)) (go r) end) d)
    | VOpaque n => HOpaque n
    end.
End ValueInd.
Section JsonInd.
  Variable P : json -> Prop.
  Hypothesis HNone : P JNone.
  Hypothesis HBool : forall b, P (JBool b).
  Hypothesis HInt : forall z, P (JInt z).
  Hypothesis HFloat : forall f, P (JFloat f).
  Hypothesis HStr : forall s, P (JStr s).
  Hypothesis HList : forall l, Forall P l -> P (JList l).
  Hypothesis HDict : forall d, Forall (fun it => P (snd it)) d -> P (JDict d).
  Fixpoint json_ind' (v : json) : P v :=
    match v with
    | JNone => HNone | JBool b => HBool b | JInt z => HInt z | JFloat f => HFloat f | JStr s => HStr s
    | JList l => HList l ((fix go l : Forall P l := match l with [] => Forall_nil _ | a :: r => Forall_cons _ (json_ind' a) (go r) end) l)
    | JDict d => HDict d ((fix go d : Forall (fun it => P (snd it)) d := match d with [] => Forall_nil _ | a :: r => Forall_cons _ (json_ind' (snd a)) (go r) end) d)
    end.
End JsonInd.
(** Conjunction over a list. *)
Definition every {A} (P : A -> Prop) : list A -> Prop :=
  fix go l := match l with [] => True | a :: r => P a /\ go r end.
Lemma every_Forall {A} (P : A -> Prop) l : every P l <-> Forall P l.
Proof. induction l as [|a l IH]; cbn; [split; auto; constructor|]. rewrite Forall_cons_iff. tauto. Qed.
Lemma map_opt_Forall2 {A B} (f : A -> option B) l l' : map_opt f l = Some l' <-> Forall2 (fun a b => f a = Some b) l l'.
Proof.
  revert l'. induction l as [|a l IH]; intros l'; cbn [map_opt].
  - split; [intros [= <-]; constructor | intros H; inversion H; reflexivity].
  - split.
    + intros H. destruct (f a) eqn:E; [|discriminate]. destruct (map_opt f l) eqn:E2; [|discriminate]. injection H as <-. constructor; [assumption | now apply IH].
    + intros H. inversion H as [|? b ? l2 H1 H2]; subst. apply IH in H2. now rewrite H1, H2.
Qed.
Lemma map_opt_exists {A B} (f : A -> option B) l : Forall (fun a => exists b, f a = Some b) l -> exists l', map_opt f l = Some l'.
Proof. induction 1 as [|a l [b Hb] _ [l' IH]]; cbn [map_opt]; [now exists []|]. exists (b :: l'). now rewrite Hb, IH. Qed.

Lemma dget_update {V} (e : dict V) : forall d x, NoDup (dkeys e) -> dget x (update d e) = match dget x e with Some v => Some v | None => dget x d end.
Proof.
  unfold update. induction e as [|[k v] e IH]; intros d x ND; cbn [fold_left fst snd]; [reflexivity|]. cbn [dkeys map fst] in ND. inversion ND as [|? ? N1 N2]; subst.
  rewrite IH by assumption. cbn [dget]. destruct (String.eqb_spec x k) as [E|N].
  - subst k. rewrite dget_dset_same. destruct (dget x e) eqn:E; [|reflexivity]. exfalso. apply N1. now apply dget_Some_key in E.
  - destruct (dget x e); [reflexivity|]. now apply dget_dset_other.
Qed.
Lemma update_nodup {V} (e : dict V) : forall d, NoDup (dkeys d) -> NoDup (dkeys (update d e)).
Proof.
  unfold update. induction e as [|[k v] e IH]; intros d ND; cbn [fold_left fst snd]; [assumption|]. apply IH.
  now apply NoDup_dset.
Qed.
Lemma merged_nodup {V} (l : list (dict V)) : forall d, NoDup (dkeys d) -> NoDup (dkeys (fold_left update l d)).
Proof. induction l as [|e l IH]; intros d H; cbn [fold_left]; [assumption|]. apply IH. now apply update_nodup. Qed.

Section Registry.
  Variable classes : list cls.
  Notation find_class := (find_class classes).
  Notation get_description := (get_description classes).
  Notation create_from_description := (create_from_description classes).
  Lemma und_nodup C : NoDup (dkeys (all_undescribed C)).
  Proof. apply merged_nodup. constructor. Qed.
  Lemma def_nodup C : NoDup (dkeys (all_default_values C)).
  Proof. apply merged_nodup. constructor. Qed.

  (** The nested list of an array, taken literally. *)
  Fixpoint plain (j : json) : value :=
    match j with
    | JNone => VNone | JBool b => VBool b | JInt z => VInt z | JFloat f => VFloat f | JStr s => VStr s
    | JList l => VList (map plain l)
    | JDict d => VDict (map (fun it => (fst it, plain (snd it))) d)
    end.
  Fixpoint dictless (j : json) : Prop :=
    match j with JList l => every dictless l | JDict _ => False | _ => True end.

  (** [restored v v']: [v'] is what remains of [v].  Tuples and arrays become lists.
      An object of the same class is first filled with
      - the initial values of undescribed members (their default, if there is one),
      - a restored copy of every described member,
      - the default for members equal to their default or missing,
      and then handed to __init_from_description__. *)
  Inductive restored : value -> value -> Prop :=
  | r_none : restored VNone VNone
  | r_bool b : restored (VBool b) (VBool b)
  | r_int z : restored (VInt z) (VInt z)
  | r_float f : restored (VFloat f) (VFloat f)
  | r_str s : restored (VStr s) (VStr s)
  | r_list l l' : Forall2 restored l l' -> restored (VList l) (VList l')
  | r_tuple l l' : Forall2 restored l l' -> restored (VTuple l) (VList l')
  | r_arr l : restored (VArr l) (VList (map plain l))
  | r_dict d d' : Forall2 (fun a b => fst a = fst b /\ restored (snd a) (snd b)) d d' -> restored (VDict d) (VDict d')
  | r_obj c C m m0 m' :
      find_class c = Some C ->
      (forall x i, dget x (all_undescribed C) = Some i ->
         dget x m0 = Some (match dget x (all_default_values C) with Some d => d | None => i end)) ->
      (forall x v, dget x (all_undescribed C) = None -> dget x m = Some v ->
         (forall d, dget x (all_default_values C) = Some d -> pyeq d v = false) ->
         exists v', dget x m0 = Some v' /\ restored v v') ->
      (forall x d, dget x (all_undescribed C) = None -> dget x (all_default_values C) = Some d ->
         (dget x m = None \/ exists v, dget x m = Some v /\ pyeq d v = true) -> dget x m0 = Some d) ->
      (forall x, dget x (all_undescribed C) = None -> dget x m = None -> dget x (all_default_values C) = None -> dget x m0 = None) ->
      NoDup (dkeys m0) ->
      c_hook C m0 = Some m' ->
      restored (VObj c m) (VObj c m').

  (** No name '@type' in dictionaries and objects, keys of dictionaries are unique,
      arrays contain numbers, and classes do not bring their own __describe__. *)
  Fixpoint describable (v : value) : Prop :=
    match v with
    | VList l => every describable l
    | VTuple l => every describable l
    | VArr l => every dictless l
    | VDict d => NoDup (dkeys d) /\ ~ In "@type" (dkeys d) /\ every (fun it => describable (snd it)) d
    | VObj c m => NoDup (dkeys m) /\ ~ In "@type" (dkeys m) /\ (forall C, find_class c = Some C -> c_describe C = None /\ every (fun it => omitted C (fst it) (snd it) = true \/ describable (snd it)) m)
    | _ => True
    end.

  Lemma create_plain j : dictless j -> create_from_description j = Some (plain j).
  Proof.
    induction j as [| | | | |l IH|d IH] using json_ind'; cbn [dictless DescribeModel.create_from_description plain]; intros H; try reflexivity; [|contradiction].
    apply every_Forall in H. assert (E : map_opt create_from_description l = Some (map plain l)).
    { apply map_opt_Forall2. revert H. induction IH as [|a l Ha _ IH]; intros H; cbn [map]; constructor; inversion H; subst; auto. }
    now rewrite E.
  Qed.

  Definition describe_members (C : cls) : list (string * value) -> option (list (string * json)) :=
    fix go m := match m with
                | [] => Some []
                | (member, v) :: r =>
                    if omitted C member v then go r
                    else match get_description v, go r with Some j, Some js => Some ((member, j) :: js) | _, _ => None end
                end.
  Lemma get_description_obj c m : get_description (VObj c m) =
    match find_class c with
    | None => None
    | Some C => match c_describe C with
                | Some f => f m
                | None => option_map (fun l => JDict (dset "@type" (JStr c) l)) (describe_members C m)
                end
    end.
  Proof. reflexivity. Qed.

  Lemma describe_members_keys C m : forall l, describe_members C m = Some l -> forall x, In x (dkeys l) -> In x (dkeys m).
  Proof.
    induction m as [|[k v] m IH]; intros l H x; cbn [describe_members] in H.
    - injection H as <-. auto.
    - destruct (omitted C k v).
      + intros Hx. right. now apply (IH l).
      + destruct (get_description v); [|discriminate]. destruct (describe_members C m) as [js|]; [|discriminate]. injection H as <-. cbn [dkeys map fst]. intros [<-|Hx]; [now left|]. right. now apply (IH js).
  Qed.
  Lemma describe_members_spec C m : forall l, NoDup (dkeys m) -> describe_members C m = Some l -> NoDup (dkeys l) /\
    (forall x, dget x l = match dget x m with Some v => if omitted C x v then None else get_description v | None => None end) /\
    forall x v, dget x m = Some v -> omitted C x v = false -> exists j, get_description v = Some j.
  Proof.
    induction m as [|[k v] m IH]; intros l ND H; cbn [describe_members] in H.
    - injection H as <-. split; [constructor|]. split; [reflexivity|]. discriminate.
    - cbn [dkeys map fst] in ND. inversion ND as [|? ? N1 N2]; subst. destruct (omitted C k v) eqn:O.
      + destruct (IH l N2 H) as [A [B D]]. split; [assumption|]. split.
        * intros x. rewrite B. cbn [dget]. destruct (String.eqb_spec x k) as [E|N]; [|reflexivity]. subst x. rewrite O.
          assert (E : dget k m = None) by now apply dget_None. now rewrite E.
        * intros x w. cbn [dget]. destruct (String.eqb_spec x k) as [E|N]; [|apply D]. subst x. congruence.
      + destruct (get_description v) as [j|] eqn:Ej; [|discriminate]. destruct (describe_members C m) as [js|] eqn:Em; [|discriminate]. injection H as <-.
        destruct (IH js N2 eq_refl) as [A [B D]]. split; [|split].
        * cbn [dkeys map fst]. constructor; [|assumption]. intros Q. apply N1. now apply (describe_members_keys C m js Em).
        * intros x. cbn [dget]. destruct (String.eqb_spec x k) as [E|N]; [subst x; rewrite O; congruence | apply B].
        * intros x w. cbn [dget]. destruct (String.eqb_spec x k) as [E|N]; [|apply D]. intros [= <-] _. eauto.
  Qed.
  Lemma describe_members_In C m : forall l, describe_members C m = Some l -> Forall (fun it => exists v, In (fst it, v) m /\ omitted C (fst it) v = false /\ get_description v = Some (snd it)) l.
  Proof.
    induction m as [|[k v] m IH]; intros l H; cbn [describe_members] in H.
    - injection H as <-. constructor.
    - destruct (omitted C k v) eqn:O.
      + specialize (IH l H). apply Forall_forall. rewrite Forall_forall in IH. intros it Hit. destruct (IH it Hit) as [w [A B]]. exists w. split; [now right | assumption].
      + destruct (get_description v) as [j|] eqn:Ej; [|discriminate]. destruct (describe_members C m) as [js|] eqn:Em; [|discriminate]. injection H as <-.
        specialize (IH js eq_refl). constructor; [exists v; repeat split; [now left | assumption | assumption]|].
        apply Forall_forall. rewrite Forall_forall in IH. intros it Hit. destruct (IH it Hit) as [w [A B]]. exists w. split; [now right | assumption].
  Qed.

  Notation keyed := (fun it : string * json => option_map (pair (fst it)) (create_from_description (snd it))).
  Lemma keyed_keys l l' : map_opt keyed l = Some l' -> dkeys l' = dkeys l.
  Proof.
    intros H. apply map_opt_Forall2 in H. induction H as [|a b l l' Hab _ IH]; [reflexivity|]. cbn [dkeys map].
    destruct (create_from_description (snd a)); [|discriminate]. injection Hab as <-. cbn [fst]. f_equal. exact IH.
  Qed.
  Lemma keyed_get l l' : map_opt keyed l = Some l' -> forall x, dget x l' = match dget x l with Some j => create_from_description j | None => None end.
  Proof.
    intros H. apply map_opt_Forall2 in H. induction H as [|[k j] [k' v] l l' Hab _ IH]; intros x; [reflexivity|]. cbn [fst snd] in Hab.
    destruct (create_from_description j) as [w|] eqn:E; [|discriminate]. injection Hab as <- <-. cbn [dget]. destruct (String.eqb x k); [congruence | apply IH].
  Qed.
  Lemma map_opt_app {A B} (f : A -> option B) l r : map_opt f (l ++ r) = match map_opt f l, map_opt f r with Some a, Some b => Some (a ++ b) | _, _ => None end.
  Proof.
    induction l as [|a l IH]; cbn [app map_opt]; [destruct (map_opt f r); reflexivity|]. rewrite IH. destruct (f a); [|reflexivity]. destruct (map_opt f l); [|reflexivity]. destruct (map_opt f r); reflexivity.
  Qed.
  Lemma create_obj c l : ~ In "@type" (dkeys l) -> create_from_description (JDict (dset "@type" (JStr c) l)) =
    match map_opt keyed l with
    | None => None
    | Some l' => match find_class c with
                 | None => None
                 | Some C => option_map (VObj c) (c_hook C (update (update (update [] (all_undescribed C)) (all_default_values C)) l'))
                 end
    end.
  Proof.
    intros N. cbn [DescribeModel.create_from_description]. rewrite dget_dset_same. rewrite (dset_fresh "@type" (JStr c) l N), map_opt_app.
    destruct (map_opt keyed l) as [l'|] eqn:E; [|reflexivity]. cbn [map_opt fst snd DescribeModel.create_from_description option_map].
    destruct (find_class c) as [C|]; [|reflexivity]. do 3 f_equal. rewrite filter_app. cbn [filter fst]. cbn [String.eqb Ascii.eqb Bool.eqb negb]. rewrite app_nil_r.
    apply keyed_keys in E. rewrite <- E in N. clear E. induction l' as [|[k v] l' IH]; [reflexivity|]. cbn [filter fst dkeys map] in *.
    destruct (String.eqb_spec k "@type") as [->|Ne]; [exfalso; apply N; now left|]. cbn [negb]. f_equal. apply IH. intros Q. apply N. now right.
  Qed.

  (** C35: the recreated object agrees with the original one. *)
  Theorem C35_restored : forall v j v', describable v -> get_description v = Some j -> create_from_description j = Some v' -> restored v v'.
  Proof.
    induction v as [| | | | |l IH|l IH|l|d IH|c m IH|] using value_ind'; intros j v' G D E.
    1-5: cbn [DescribeModel.get_description] in D; injection D as <-; cbn in E; injection E as <-; constructor.
    - cbn [DescribeModel.get_description] in D. destruct (map_opt get_description l) as [js|] eqn:Ej; [|discriminate]. injection D as <-. cbn [DescribeModel.create_from_description] in E.
      destruct (map_opt create_from_description js) as [l'|] eqn:El; [|discriminate]. injection E as <-. constructor. cbn [describable] in G. apply every_Forall in G.
      apply map_opt_Forall2 in Ej. apply map_opt_Forall2 in El. clear - IH Ej El G. revert l' El. induction Ej as [|a b l js Hab _ IHl]; intros l' El; inversion El as [|? v' ? l2 Hv H2]; subst; constructor.
      + inversion IH; inversion G; subst. eauto.
      + inversion IH; inversion G; subst. auto.
    - cbn [DescribeModel.get_description] in D. destruct (map_opt get_description l) as [js|] eqn:Ej; [|discriminate]. injection D as <-. cbn [DescribeModel.create_from_description] in E.
      destruct (map_opt create_from_description js) as [l'|] eqn:El; [|discriminate]. injection E as <-. constructor. cbn [describable] in G. apply every_Forall in G.
      apply map_opt_Forall2 in Ej. apply map_opt_Forall2 in El. clear - IH Ej El G. revert l' El. induction Ej as [|a b l js Hab _ IHl]; intros l' El; inversion El as [|? v' ? l2 Hv H2]; subst; constructor.
      + inversion IH; inversion G; subst. eauto.
      + inversion IH; inversion G; subst. auto.
    - cbn [DescribeModel.get_description] in D. injection D as <-. rewrite create_plain in E by exact G. injection E as <-. constructor.
    - cbn [DescribeModel.get_description] in D. destruct (map_opt _ d) as [js|] eqn:Ej; [|discriminate]. injection D as <-. cbn [describable] in G. destruct G as [ND [NT G]]. apply every_Forall in G.
      assert (Kj : dkeys js = dkeys d).
      { apply map_opt_Forall2 in Ej. clear - Ej. induction Ej as [|a b d js Hab _ IH]; [reflexivity|]. cbn [dkeys map]. destruct (get_description (snd a)); [|discriminate]. injection Hab as <-. cbn [fst]. f_equal. exact IH. }
      cbn [DescribeModel.create_from_description] in E. destruct (map_opt keyed js) as [d'|] eqn:Ed; [|discriminate].
      assert (Nt : dget "@type" js = None) by (apply dget_None; now rewrite Kj). rewrite Nt in E. injection E as <-. constructor.
      apply map_opt_Forall2 in Ej. apply map_opt_Forall2 in Ed. clear - IH Ej Ed G. revert d' Ed. induction Ej as [|a b d js Hab _ IHl]; intros d' Ed; inversion Ed as [|? v' ? l2 Hv H2]; subst; constructor.
      + inversion IH as [|? ? I1 I2]; inversion G as [|? ? G1 G2]; subst. destruct (get_description (snd a)) as [j|] eqn:E1; [|discriminate]. injection Hab as <-. cbn [fst snd] in Hv.
        destruct (create_from_description j) as [w|] eqn:E2; [|discriminate]. injection Hv as <-. cbn [fst snd]. split; [reflexivity|]. eapply I1; eauto.
      + inversion IH; inversion G; subst. auto.
    - rewrite get_description_obj in D. destruct (find_class c) as [C|] eqn:EC; [|discriminate]. cbn [describable] in G. destruct G as [ND [NT G]]. destruct (G C EC) as [Gd Gm]. clear G. rewrite Gd in D.
      destruct (describe_members C m) as [l|] eqn:El; [|discriminate]. injection D as <-. apply every_Forall in Gm.
      assert (Nl : ~ In "@type" (dkeys l)) by (intros Q; apply NT; now apply (describe_members_keys C m l El)). rewrite create_obj in E by assumption.
      destruct (map_opt keyed l) as [l'|] eqn:E'; [|discriminate]. rewrite EC in E. set (m0 := update (update (update [] (all_undescribed C)) (all_default_values C)) l') in E. destruct (c_hook C m0) as [m'|] eqn:Eh; [|discriminate]. injection E as <-.
      destruct (describe_members_spec C m l ND El) as [Nd [Hg _]].
      assert (M0 : forall x, dget x m0 = match dget x l with Some j => create_from_description j | None => match dget x (all_default_values C) with Some d => Some d | None => dget x (all_undescribed C) end end).
      { intros x. unfold m0. rewrite dget_update by (rewrite (keyed_keys _ _ E'); assumption). rewrite (keyed_get _ _ E'). rewrite dget_update by apply def_nodup. rewrite dget_update by apply und_nodup.
        destruct (dget x l) as [j|] eqn:Ex; [|destruct (dget x (all_default_values C)); [reflexivity | destruct (dget x (all_undescribed C)); reflexivity]].
        assert (Ec : exists w, create_from_description j = Some w).
        { apply dget_In in Ex. apply map_opt_Forall2 in E'. clear - E' Ex. induction E' as [|a b l l' Hab _ IH]; [contradiction|]. destruct Ex as [->|Ex]; [|auto]. cbn [snd] in Hab. destruct (create_from_description j); [eauto | discriminate]. }
        destruct Ec as [w Ew]. now rewrite Ew. }
      apply (r_obj c C m m0 m'); try assumption.
      + intros x i Hi. rewrite M0, Hg. assert (O : forall v, omitted C x v = true).
        { intros v. unfold omitted. apply Bool.orb_true_iff. left. apply smem_In. now apply dget_Some_key in Hi. }
        assert (E0 : match dget x m with Some v => if omitted C x v then None else get_description v | None => None end = None) by (destruct (dget x m); [now rewrite O | reflexivity]).
        rewrite E0. rewrite Hi. destruct (dget x (all_default_values C)); reflexivity.
      + intros x v Hu Hx Hd. assert (O : omitted C x v = false).
        { unfold omitted. apply Bool.orb_false_iff. split; [apply smem_false; now apply dget_None|]. destruct (dget x (all_default_values C)); auto. }
        rewrite M0, Hg, Hx, O. assert (Hin := Hx). apply dget_In in Hin. rewrite Forall_forall in Gm, IH. destruct (Gm _ Hin) as [Q|Gv]; cbn [fst snd] in *; [congruence|].
        destruct (describe_members_spec C m l ND El) as [_ [_ Hex]]. destruct (Hex x v Hx O) as [j Hj]. rewrite Hj.
        assert (Hw : exists w, create_from_description j = Some w).
        { assert (Ex : dget x l = Some j) by (rewrite Hg, Hx, O; assumption). apply dget_In in Ex. apply map_opt_Forall2 in E'. clear - E' Ex. induction E' as [|a b l l' Hab _ IH]; [contradiction|]. destruct Ex as [->|Ex]; [|auto]. cbn [snd] in Hab. destruct (create_from_description j); [eauto | discriminate]. }
        destruct Hw as [w Ew]. exists w. split; [assumption|]. apply (IH _ Hin j w Gv Hj Ew).
      + intros x d Hu Hd Hx. rewrite M0, Hg. assert (E0 : match dget x m with Some v => if omitted C x v then None else get_description v | None => None end = None).
        { destruct Hx as [->|[v [-> Hv]]]; [reflexivity|]. unfold omitted. rewrite Hd, Hv. now rewrite Bool.orb_true_r. }
        now rewrite E0, Hd.
      + intros x Hu Hx Hd. now rewrite M0, Hg, Hx, Hd, Hu.
      + unfold m0. do 3 apply update_nodup. constructor.
    - discriminate.
  Qed.

  (** ... it can be recreated, unless some __init_from_description__ raises. *)
  Theorem C35_recreatable : forall v j, (forall C m, In C classes -> c_hook C m <> None) -> describable v -> get_description v = Some j ->
    exists v', create_from_description j = Some v'.
  Proof.
    intros v j HH. revert j. induction v as [| | | | |l IH|l IH|l|d IH|c m IH|] using value_ind'; intros j G D.
    1-5: cbn [DescribeModel.get_description] in D; injection D as <-; cbn; eexists; reflexivity.
    - cbn [DescribeModel.get_description] in D. destruct (map_opt get_description l) as [js|] eqn:Ej; [|discriminate]. injection D as <-. cbn [DescribeModel.create_from_description]. cbn [describable] in G. apply every_Forall in G.
      destruct (map_opt_exists create_from_description js) as [l' ->]; [|eexists; reflexivity].
      apply map_opt_Forall2 in Ej. clear - IH Ej G. induction Ej as [|a b l js Hab _ IHl]; constructor; inversion IH; inversion G; subst; auto.
    - cbn [DescribeModel.get_description] in D. destruct (map_opt get_description l) as [js|] eqn:Ej; [|discriminate]. injection D as <-. cbn [DescribeModel.create_from_description]. cbn [describable] in G. apply every_Forall in G.
      destruct (map_opt_exists create_from_description js) as [l' ->]; [|eexists; reflexivity].
      apply map_opt_Forall2 in Ej. clear - IH Ej G. induction Ej as [|a b l js Hab _ IHl]; constructor; inversion IH; inversion G; subst; auto.
    - cbn [DescribeModel.get_description] in D. injection D as <-. rewrite create_plain by exact G. eexists; reflexivity.
    - cbn [DescribeModel.get_description] in D. destruct (map_opt _ d) as [js|] eqn:Ej; [|discriminate]. injection D as <-. cbn [describable] in G. destruct G as [ND [NT G]]. apply every_Forall in G.
      assert (Kj : dkeys js = dkeys d).
      { apply map_opt_Forall2 in Ej. clear - Ej. induction Ej as [|a b d js Hab _ IH]; [reflexivity|]. cbn [dkeys map]. destruct (get_description (snd a)); [|discriminate]. injection Hab as <-. cbn [fst]. f_equal. exact IH. }
      cbn [DescribeModel.create_from_description]. assert (Nt : dget "@type" js = None) by (apply dget_None; now rewrite Kj). rewrite Nt.
      destruct (map_opt_exists keyed js) as [l' ->]; [|eexists; reflexivity].
      apply map_opt_Forall2 in Ej. clear - IH Ej G. induction Ej as [|a b l js Hab _ IHl]; constructor; inversion IH as [|? ? I1 I2]; inversion G; subst; auto.
      destruct (get_description (snd a)) as [j|] eqn:E1; [|discriminate]. injection Hab as <-. cbn [fst snd]. destruct (I1 j) as [w ->]; auto. eexists; reflexivity.
    - rewrite get_description_obj in D. destruct (find_class c) as [C|] eqn:EC; [|discriminate]. cbn [describable] in G. destruct G as [ND [NT G]]. destruct (G C EC) as [Gd Gm]. clear G. rewrite Gd in D.
      destruct (describe_members C m) as [l|] eqn:El; [|discriminate]. injection D as <-. apply every_Forall in Gm.
      assert (Nl : ~ In "@type" (dkeys l)) by (intros Q; apply NT; now apply (describe_members_keys C m l El)). rewrite create_obj by assumption.
      destruct (map_opt_exists keyed l) as [l' ->].
      { apply describe_members_In in El. apply Forall_forall. rewrite Forall_forall in El, IH, Gm. intros it Hit. destruct (El it Hit) as [v [Hin [O Hv]]].
        destruct (Gm _ Hin) as [Q|Gv]; cbn [fst snd] in *; [congruence|]. destruct (IH _ Hin (snd it) Gv Hv) as [w ->]. eexists; reflexivity. }
      rewrite EC. assert (HC : In C classes) by (apply find_some in EC; apply EC). match goal with |- context [c_hook C ?x] => specialize (HH C x HC); destruct (c_hook C x) end; [eexists; reflexivity | congruence].
    - discriminate.
  Qed.

  (** Equal JSON data: the order of dictionary entries does not matter. *)
  Inductive jeq : json -> json -> Prop :=
  | jeq_refl j : jeq j j
  | jeq_list l l' : Forall2 jeq l l' -> jeq (JList l) (JList l')
  | jeq_dict d d' : (forall x, dget x d = None <-> dget x d' = None) -> (forall x a b, dget x d = Some a -> dget x d' = Some b -> jeq a b) -> jeq (JDict d) (JDict d').

  (** What the classes have to guarantee: defaults are constants, and
      __init_from_description__ leaves described members alone. *)
  Definition constant (v : value) : Prop :=
    match v with VNone => True | VBool _ => True | VInt _ => True | VStr _ => True | VFloat f => f <> NaN | _ => False end.
  Definition well_behaved (C : cls) : Prop :=
    (forall x d, dget x (all_default_values C) = Some d -> constant d) /\
    (forall m m', c_hook C m = Some m' -> NoDup (dkeys m) -> NoDup (dkeys m') /\ forall x, dget x (all_undescribed C) = None -> dget x m' = dget x m).
  Lemma constant_refl v : constant v -> pyeq v v = true.
  Proof.
    destruct v as [|b|z|[q| | |]|t| | | | | |]; intros H; try reflexivity; try (unfold pyeq; cbn [numeric]; apply Qeq_bool_refl); try (exfalso; exact H).
    - exfalso. now apply H.
    - apply String.eqb_refl.
  Qed.
  Lemma pyeq_restored d v v' : constant d -> restored v v' -> pyeq d v = false -> pyeq d v' = false.
  Proof.
    intros Hd H E. inversion H; subst; try assumption; destruct d as [|[]| |[]| | | | | | |]; try reflexivity; contradiction.
  Qed.

  Lemma get_plain j : dictless j -> get_description (plain j) = Some j.
  Proof.
    induction j as [| | | | |l IH|d IH] using json_ind'; cbn [dictless DescribeModel.get_description plain]; intros H; try reflexivity; [|contradiction].
    apply every_Forall in H. assert (E : map_opt get_description (map plain l) = Some l).
    { apply map_opt_Forall2. revert H. induction IH as [|a l Ha _ IH]; intros H; cbn [map]; constructor; inversion H; subst; auto. }
    now rewrite E.
  Qed.

  (** Described again, the recreated object has the same description. *)
  Lemma describe_restored : (forall C, In C classes -> well_behaved C) -> forall v j v', describable v -> get_description v = Some j -> restored v v' ->
    exists j', get_description v' = Some j' /\ jeq j j'.
  Proof.
    intros WB. induction v as [| | | | |l IH|l IH|l|d IH|c m IH|] using value_ind'; intros j v' G D R.
    1-5: cbn [DescribeModel.get_description] in D; injection D as <-; inversion R; subst; cbn; eexists; split; [reflexivity | constructor].
    - cbn [DescribeModel.get_description] in D. destruct (map_opt get_description l) as [js|] eqn:Ej; [|discriminate]. injection D as <-. inversion R as [| | | | |? l' F| | | |]; subst.
      cbn [DescribeModel.get_description describable] in *. apply every_Forall in G. apply map_opt_Forall2 in Ej.
      assert (Q : exists js', map_opt get_description l' = Some js' /\ Forall2 jeq js js').
      { clear - IH G Ej F. revert l' F. induction Ej as [|a b l js Hab _ IHl]; intros l' F; inversion F as [|? v' ? l2 Hv H2]; subst; [exists []; split; [reflexivity | constructor]|].
        inversion IH as [|? ? I1 I2]; inversion G as [|? ? G1 G2]; subst. destruct (IHl I2 G2 l2 H2) as [js' [E1 E2]]. destruct (I1 b v' G1 Hab Hv) as [j' [E3 E4]].
        exists (j' :: js'). cbn [map_opt]. rewrite E3, E1. split; [reflexivity | now constructor]. }
      destruct Q as [js' [-> Q]]. eexists. split; [reflexivity | now constructor].
    - cbn [DescribeModel.get_description] in D. destruct (map_opt get_description l) as [js|] eqn:Ej; [|discriminate]. injection D as <-. inversion R as [| | | | | |? l' F| | |]; subst.
      cbn [DescribeModel.get_description describable] in *. apply every_Forall in G. apply map_opt_Forall2 in Ej.
      assert (Q : exists js', map_opt get_description l' = Some js' /\ Forall2 jeq js js').
      { clear - IH G Ej F. revert l' F. induction Ej as [|a b l js Hab _ IHl]; intros l' F; inversion F as [|? v' ? l2 Hv H2]; subst; [exists []; split; [reflexivity | constructor]|].
        inversion IH as [|? ? I1 I2]; inversion G as [|? ? G1 G2]; subst. destruct (IHl I2 G2 l2 H2) as [js' [E1 E2]]. destruct (I1 b v' G1 Hab Hv) as [j' [E3 E4]].
        exists (j' :: js'). cbn [map_opt]. rewrite E3, E1. split; [reflexivity | now constructor]. }
      destruct Q as [js' [-> Q]]. eexists. split; [reflexivity | now constructor].
    - inversion R; subst. cbn [DescribeModel.get_description] in D. injection D as <-. exists (JList l). split; [|constructor]. apply (get_plain (JList l)). exact G.
    - cbn [DescribeModel.get_description] in D. destruct (map_opt _ d) as [js|] eqn:Ej; [|discriminate]. injection D as <-. cbn [describable] in G. destruct G as [ND [NT G]]. apply every_Forall in G.
      inversion R as [| | | | | | | |? d' F|]; subst. apply map_opt_Forall2 in Ej.
      assert (Q : exists js', map_opt (fun it => option_map (pair (fst it)) (get_description (snd it))) d' = Some js' /\ (forall x, dget x js = None <-> dget x js' = None) /\ forall x a b, dget x js = Some a -> dget x js' = Some b -> jeq a b).
      { clear - IH G Ej F. revert d' F. induction Ej as [|a b l js Hab _ IHl]; intros l' F; inversion F as [|? v' ? l2 Hv H2]; subst; [exists []; split; [reflexivity|]; split; [tauto | discriminate]|].
        inversion IH as [|? ? I1 I2]; inversion G as [|? ? G1 G2]; subst. destruct (IHl I2 G2 l2 H2) as [js' [E1 [E2 E2']]]. destruct (get_description (snd a)) as [ja|] eqn:Ea; [|discriminate]. injection Hab as <-.
        destruct Hv as [K Hv]. destruct (I1 ja (snd v') G1 eq_refl Hv) as [j' [E3 E4]].
        exists ((fst a, j') :: js'). cbn [map_opt]. rewrite E3, E1, <- K. cbn [option_map]. split; [reflexivity|]. split.
        - intros x. cbn [dget]. destruct (String.eqb x (fst a)); [split; discriminate | apply E2].
        - intros x p q. cbn [dget]. destruct (String.eqb x (fst a)); [intros [= <-] [= <-]; assumption | apply E2']. }
      destruct Q as [js' [E [Q1 Q2]]]. cbn [DescribeModel.get_description]. rewrite E. eexists. split; [reflexivity|]. now constructor.
    - rewrite get_description_obj in D. inversion R as [| | | | | | | | |c0 C m0' m0 m' EC Ru Rd Rf Rn Nm0 Rh]; subst. rewrite EC in D. cbn [describable] in G. destruct G as [ND [NT G]]. destruct (G C EC) as [Gd Gm]. clear G. rewrite Gd in D.
      destruct (describe_members C m) as [l|] eqn:El; [|discriminate]. injection D as <-. apply every_Forall in Gm.
      assert (HC : In C classes) by (apply find_some in EC; apply EC). destruct (WB C HC) as [Wd Wh]. destruct (Wh m0 m' Rh Nm0) as [Nm' Wk].
      destruct (describe_members_spec C m l ND El) as [Nl [Hl Hx]].
      (* what the described members of the copy are *)
      assert (Key : forall x, dget x (all_undescribed C) = None ->
        (forall v, dget x m = Some v -> omitted C x v = false -> exists v' j j', dget x m' = Some v' /\ omitted C x v' = false /\ get_description v = Some j /\ get_description v' = Some j' /\ jeq j j') /\
        ((forall v, dget x m = Some v -> omitted C x v = true) -> forall v', dget x m' = Some v' -> omitted C x v' = true)).
      { intros x Hu. assert (Om : forall v, omitted C x v = match dget x (all_default_values C) with Some d => pyeq d v | None => false end).
        { intros v. unfold omitted, dmem. apply dget_None in Hu. apply smem_false in Hu. now rewrite Hu. }
        split.
        - intros v Hv O. rewrite Om in O. destruct (Rd x v Hu Hv) as [v' [E1 E2]]; [intros d Hd; rewrite Hd in O; exact O|].
          rewrite Forall_forall in Gm, IH. assert (Hin := Hv). apply dget_In in Hin. destruct (Gm _ Hin) as [Q|Gv]; cbn [fst snd] in *; [rewrite Om in Q; congruence|].
          destruct (Hx x v Hv) as [j Hj]; [now rewrite Om|]. destruct (IH _ Hin j v' Gv Hj E2) as [j' [E3 E4]].
          exists v', j, j'. rewrite (Wk x Hu). split; [assumption|]. split; [|auto]. rewrite Om. destruct (dget x (all_default_values C)) as [d|] eqn:Hd; [|reflexivity]. apply (pyeq_restored d v v'); auto. eapply Wd; eassumption.
        - intros Hv v' Hv'. rewrite (Wk x Hu) in Hv'. rewrite Om. destruct (dget x (all_default_values C)) as [d|] eqn:Hd.
          + rewrite (Rf x d Hu Hd) in Hv'; [injection Hv' as <-; apply constant_refl; eapply Wd; eassumption|]. destruct (dget x m) as [v|] eqn:E; [right; exists v; split; [reflexivity|]; specialize (Hv v eq_refl); now rewrite Om in Hv | now left].
          + destruct (dget x m) as [v|] eqn:E; [specialize (Hv v eq_refl); rewrite Om in Hv; discriminate|]. rewrite (Rn x Hu E Hd) in Hv'. discriminate. }
      assert (Und : forall x v, dget x (all_undescribed C) <> None -> omitted C x v = true).
      { intros x v Hu. unfold omitted, dmem. destruct (dget x (all_undescribed C)) eqn:E; [|congruence]. apply dget_Some_key in E. apply smem_In in E. now rewrite E. }
      assert (Ex : exists l', describe_members C m' = Some l').
      { assert (A : Forall (fun it => omitted C (fst it) (snd it) = true \/ exists j, get_description (snd it) = Some j) m').
        { apply Forall_forall. intros [x v'] Hin. cbn [fst snd]. apply In_dget in Hin; [|assumption]. destruct (omitted C x v') eqn:O; [now left|]. right.
          assert (Hu : dget x (all_undescribed C) = None) by (destruct (dget x (all_undescribed C)) eqn:E; [|reflexivity]; rewrite Und in O by congruence; discriminate).
          destruct (Key x Hu) as [K1 K2]. destruct (dget x m) as [v|] eqn:Em.
          - destruct (omitted C x v) eqn:Ov.
            + rewrite (K2) in O; [discriminate | | assumption]. intros w [= <-]. assumption.
            + destruct (K1 v eq_refl Ov) as [w [j [j' [E1 [_ [_ [E2 _]]]]]]]. assert (w = v') by congruence. subst w. eauto.
          - rewrite K2 in O; [discriminate | | assumption]. discriminate. }
        clear - A. induction A as [|[x v] m' H _ [l' IH]]; cbn [describe_members]; [now exists []|]. cbn [fst snd] in H. destruct (omitted C x v); [now exists l'|]. destruct H as [H|[j Hj]]; [discriminate|]. rewrite Hj, IH. eauto. }
      destruct Ex as [l' El']. rewrite get_description_obj, EC, Gd, El'. eexists. split; [reflexivity|].
      destruct (describe_members_spec C m' l' Nm' El') as [Nl' [Hl' _]].
      assert (Eq : forall x, (dget x l = None <-> dget x l' = None) /\ forall a b, dget x l = Some a -> dget x l' = Some b -> jeq a b).
      { intros x. rewrite Hl, Hl'. destruct (dget x (all_undescribed C)) eqn:Hu.
        - assert (O : forall v, omitted C x v = true) by (intros w; apply Und; congruence). destruct (dget x m); destruct (dget x m'); rewrite ?O; split; try tauto; discriminate.
        - destruct (Key x Hu) as [K1 K2]. destruct (dget x m) as [v|] eqn:Em.
          + destruct (omitted C x v) eqn:Ov.
            * destruct (dget x m') as [v'|] eqn:Em'; [|split; [tauto | discriminate]]. rewrite (K2) with (v' := v'); [split; [tauto | discriminate] | | reflexivity]. intros w [= <-]. assumption.
            * destruct (K1 v eq_refl Ov) as [w [j [j' [E1 [E2 [E3 [E4 E5]]]]]]]. rewrite E1, E2, E3, E4. split; [split; discriminate|]. congruence.
          + destruct (dget x m') as [v'|] eqn:Em'; [|split; [tauto | discriminate]]. rewrite (K2) with (v' := v'); [split; [tauto | discriminate] | | reflexivity]. discriminate. }
      constructor.
      + intros x. destruct (String.eqb_spec x "@type") as [->|N]; [rewrite !dget_dset_same; split; discriminate|]. rewrite !dget_dset_other by assumption. apply Eq.
      + intros x a b. destruct (String.eqb_spec x "@type") as [->|N]; [rewrite !dget_dset_same; intros [= <-] [= <-]; constructor|]. rewrite !dget_dset_other by assumption. apply Eq.
    - discriminate.
  Qed.
  Theorem C35_same_description : (forall C, In C classes -> well_behaved C) -> forall v j v', describable v -> get_description v = Some j ->
    create_from_description j = Some v' -> exists j', get_description v' = Some j' /\ jeq j j'.
  Proof. intros WB v j v' G D E. apply (describe_restored WB v j v' G D). now apply (C35_restored v j v'). Qed.
End Registry.
Print Assumptions C35_restored.
Print Assumptions C35_recreatable.
Print Assumptions C35_same_description.

(** ** The library *)
Definition without_uniform : list cls := filter (fun C => negb (String.eqb (c_name C) "Uniform")) library.
Lemma seedable_ok name und defs d : dget "rnd" (fold_left update und []) <> None -> (forall x v, dget x (fold_left update defs []) = Some v -> constant v) -> well_behaved (mkCls name und defs d seedable_hook).
Proof.
  intros Hr Hd. split; [exact Hd|]. cbn [c_hook]. intros m m' [= <-] ND. split; [now apply NoDup_dset|]. intros x Hx. apply dget_dset_other. intros ->. apply Hr. exact Hx.
Qed.
Lemma no_hook_ok name und defs d : (forall x v, dget x (fold_left update defs []) = Some v -> constant v) -> well_behaved (mkCls name und defs d no_hook).
Proof. intros Hd. split; [exact Hd|]. cbn [c_hook]. intros m m' [= <-] ND. split; [assumption|]. reflexivity. Qed.
(** All classes but Uniform keep what C35_same_description asks for, and none of
    their hooks raises. *)
Theorem C35_library : (forall C, In C without_uniform -> well_behaved C) /\ (forall C m, In C without_uniform -> c_hook C m <> None).
Proof.
  split.
  - intros C HC. cbn in HC.
    repeat (destruct HC as [<-|HC]; [first [apply seedable_ok | apply no_hook_ok]; [try discriminate..]; intros x v; cbn [fold_left update dget fst snd dset String.eqb Ascii.eqb Bool.eqb rat];
      repeat match goal with |- context [String.eqb x ?y] => destruct (String.eqb x y) end; intros [= <-]; cbn; (exact I || discriminate)|]). contradiction.
  - intros C m HC. cbn in HC. repeat (destruct HC as [<-|HC]; [discriminate|]). contradiction.
Qed.
Print Assumptions C35_library.

Definition gaussian : value := VObj "Gaussian" [("rnd", VOpaque 7); ("std", rat 1 2); ("mean", VInt 0)].
Definition nested : value :=
  VDict [("a", VObj "SparseInputs" [("rnd", VOpaque 8); ("sub_initializer", gaussian); ("connections", VInt 3)]);
         ("b", VTuple [VInt 1; VNone; VArr [JList [JInt 1; JInt 2]]])].
Example C35_case : describable without_uniform nested /\
  get_description without_uniform nested = Some (JDict
    [("a", JDict [("sub_initializer", JDict [("std", JFloat (Fin (1 # 2))); ("@type", JStr "Gaussian")]); ("connections", JInt 3); ("@type", JStr "SparseInputs")]);
     ("b", JList [JInt 1; JNone; JList [JList [JInt 1; JInt 2]]])]) /\
  create_from_description without_uniform (JDict
    [("a", JDict [("sub_initializer", JDict [("std", JFloat (Fin (1 # 2))); ("@type", JStr "Gaussian")]); ("connections", JInt 3); ("@type", JStr "SparseInputs")]);
     ("b", JList [JInt 1; JNone; JList [JList [JInt 1; JInt 2]]])]) = Some (VDict
    [("a", VObj "SparseInputs" [("rnd", VOpaque 0); ("sub_initializer", VObj "Gaussian" [("rnd", VOpaque 0); ("mean", rat 0 1); ("std", rat 1 2)]); ("connections", VInt 3)]);
     ("b", VList [VInt 1; VNone; VList [VList [VInt 1; VInt 2]]])]).
Proof.
  split; [|split; reflexivity]. cbn [describable every nested dkeys map fst snd In dictless gaussian]. 
  repeat match goal with
         | |- _ /\ _ => split
         | |- NoDup _ => repeat (apply NoDup_cons; [cbn; intuition discriminate|]); apply NoDup_nil
         | |- ~ _ => cbn; intuition discriminate
         | |- forall C, _ -> _ => intros C HC; cbv in HC; injection HC as <-; cbn [every fst snd]
         | |- True => exact I
         | |- c_describe _ = None => reflexivity
         | |- omitted _ _ _ = true \/ _ => first [left; reflexivity | right; cbn [describable every dkeys map fst snd In]]
         end.
  exact I.
Qed.

(** Uniform: a new object has no random state, so it cannot be used for
    initialisation (evaluate_initializer calls initializer.rnd.set_seed); the
    described one had one. *)
Theorem C35_uniform_refuted : exists m j m',
  get_description library (VObj "Uniform" m) = Some j /\ create_from_description library j = Some (VObj "Uniform" m') /\
  dget "rnd" m = Some (VOpaque 7) /\ dget "rnd" m' = Some VNone /\
  forall m1 j1 m1', get_description library (VObj "Gaussian" m1) = Some j1 -> create_from_description library j1 = Some (VObj "Gaussian" m1') -> dget "rnd" m1' = Some (VOpaque 0).
Proof.
  exists [("rnd", VOpaque 7); ("low", rat (-1) 10); ("high", rat 1 10)]. do 2 eexists. split; [reflexivity|]. split; [reflexivity|]. split; [reflexivity|]. split; [reflexivity|].
  intros m1 j1 m1' D E. rewrite get_description_obj in D. change (find_class library "Gaussian") with (Some (initializer_class "Gaussian" [("mean", rat 0 1)])) in D. cbn [c_describe initializer_class] in D.
  destruct (describe_members _ _ m1) as [l|]; [|discriminate]. injection D as <-. cbn [create_from_description] in E. destruct (map_opt _ _) as [d'|]; [|discriminate]. rewrite dget_dset_same in E.
  change (find_class library "Gaussian") with (Some (initializer_class "Gaussian" [("mean", rat 0 1)])) in E. cbn [c_hook initializer_class seedable_hook option_map] in E. injection E as <-. apply dget_dset_same.
Qed.
Print Assumptions C35_uniform_refuted.

(** An array initializer inside another object comes back as a list, which
    evaluate_initializer does not accept. *)
Theorem C35_array_refuted : exists m j m',
  get_description library (VObj "LstmOptInit" m) = Some j /\ create_from_description library j = Some (VObj "LstmOptInit" m') /\
  dget "input_gate" m = Some (VObj "ArrayInitializer" [("rnd", VOpaque 7); ("array", VArr [JInt 1; JInt 2])]) /\
  dget "input_gate" m' = Some (VList [VInt 1; VInt 2]).
Proof.
  exists [("rnd", VOpaque 6); ("block_input", VInt 0); ("input_gate", VObj "ArrayInitializer" [("rnd", VOpaque 7); ("array", VArr [JInt 1; JInt 2])])].
  do 2 eexists. split; [reflexivity|]. split; [reflexivity|]. split; reflexivity.
Qed.
Print Assumptions C35_array_refuted.

(** Plain data with a key '@type' is taken for an object. *)
Theorem C35_type_key_refuted : exists d j, get_description library (VDict d) = Some j /\ create_from_description library j = None.
Proof. exists [("@type", VInt 1)]. eexists. split; reflexivity. Qed.
Print Assumptions C35_type_key_refuted.
