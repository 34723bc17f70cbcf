(** Proofs for ViewRefsModel.v: C07 (wildcards) and C08 (resolution). *)
From Coq Require Import String Ascii List Arith Bool Lia.
From Verif Require Import PyBase PyFacts UtilsModel UtilsProofs NamesModel ArchModel ArchProofs ViewRefsModel.
Import ListNotations.
Open Scope string_scope.
Open Scope list_scope.
Open Scope nat_scope.

(** ** Specification of wildcards: [expands ref key], key is obtained from ref
    by replacing every star by a run of identifier characters. *)
Inductive expands : string -> string -> Prop :=
| ex_nil : expands "" ""
| ex_lit c r k : c <> "*"%char -> expands r k -> expands (String c r) (String c k)
| ex_star r run k : (forall d, In d (chars run) -> In d identifier_chars) ->
    expands r k -> expands (String "*" r) (run ++ k)%string.

(** What a reference matches: an expansion, possibly followed by a newline. *)
Definition glob (ref key : string) : Prop :=
  exists k, expands ref k /\ (key = k \/ key = (k ++ String newline "")%string).

Lemma ref_match_spec ref key : ref_match ref key = true <-> glob ref key.
Proof.
  unfold glob. revert key. induction ref as [|c r IH]; intros key; simpl.
  - rewrite orb_true_iff, !String.eqb_eq. split.
    + intros H. exists "". split; [constructor | exact H].
    + intros [k [E H]]. inversion E; subst. exact H.
  - destruct (Ascii.eqb_spec c "*") as [->|N].
    + assert (S : forall key, (fix star (key : string) : bool :=
                 ref_match r key || match key with "" => false | String d k => ident_char d && star k end) key = true
               <-> exists run k, key = (run ++ k)%string /\
                    (forall d, In d (chars run) -> In d identifier_chars) /\ ref_match r k = true).
      { clear key. induction key as [|d key IHk].
        - rewrite orb_true_iff. split.
          + intros [H|H]; [|discriminate]. exists "", "". repeat split; [intros d [] | assumption].
          + intros [run [k [E [_ H]]]]. destruct run; [|discriminate]. simpl in E. subst k. now left.
        - rewrite orb_true_iff, andb_true_iff, IHk, ident_char_spec, existsb_ascii. split.
          + intros [H|[Hd [run [k [-> [F H]]]]]].
            * exists "", (String d key). repeat split; [intros x [] | assumption].
            * exists (String d run), k. repeat split; [|assumption].
              intros x [<-|Hx]; [assumption | auto].
          + intros [run [k [E [F H]]]]. destruct run as [|d' run]; simpl in E.
            * subst k. now left.
            * injection E as <- ->. right. split; [apply F; now left|].
              exists run, k. repeat split; [|assumption]. intros x Hx. apply F. now right. }
      rewrite S. split.
      * intros [run [k [-> [F H]]]]. apply IH in H. destruct H as [k' [E H]].
        exists (run ++ k')%string. split; [now constructor|].
        destruct H as [->| ->]; [now left | right; now rewrite string_app_assoc].
      * intros [k [E H]]. inversion E as [| |? run k' F E']; subst; [congruence|].
        exists run. destruct H as [->| ->].
        -- exists k'. repeat split; [assumption|]. apply IH. exists k'. auto.
        -- exists (k' ++ String newline "")%string. rewrite string_app_assoc. repeat split; [assumption|].
           apply IH. exists k'. auto.
    + destruct key as [|d key].
      * split; [discriminate|]. intros [k [E H]]. inversion E; subst; [|congruence].
        destruct H as [H|H]; discriminate.
      * rewrite andb_true_iff, Ascii.eqb_eq, IH. split.
        -- intros [<- [k [E H]]]. exists (String c k). split; [now constructor|].
           destruct H as [->| ->]; [now left | now right].
        -- intros [k [E H]]. inversion E as [|? ? k' _ E'|]; subst; [|congruence].
           destruct H as [H|H]; injection H as <- ->; (split; [reflexivity|]); exists k'; auto.
Qed.

Lemma glob_identifier ref key :
  (forall c, In c (chars key) -> In c identifier_chars) -> (glob ref key <-> expands ref key).
Proof.
  intros F. unfold glob. split.
  - intros [k [E [->| ->]]]; [assumption|]. exfalso.
    assert (H : In newline identifier_chars).
    { apply F. rewrite chars_app. apply in_or_app. right. now left. }
    apply existsb_ascii in H. discriminate.
  - intros E. exists key. auto.
Qed.

Lemma identifier_all_chars s : identifier s -> forall c, In c (chars s) -> In c identifier_chars.
Proof.
  intros [c [r [E [Hc F]]]] x Hx. rewrite E in Hx. destruct Hx as [<-|Hx]; [|auto].
  unfold identifier_chars. apply in_or_app. now left.
Qed.

(** ** The mapping *)
Definition ordinary (ref : string) : Prop := ref <> "default" /\ ref <> "fallback".

Lemma special_false ref : special ref = false <-> ordinary ref.
Proof.
  unfold special, ordinary. rewrite orb_false_iff, !String.eqb_neq. reflexivity.
Qed.

Definition no_match (references : list string) (key : string) : Prop :=
  forall ref, In ref references -> ordinary ref -> ~ glob ref key.

Lemma references_of_spec references key ref :
  In ref (references_of references key) <->
  (In ref references /\ ordinary ref /\ glob ref key) \/
  (ref = "default" /\ In "default" references /\ no_match references key).
Proof.
  unfold references_of.
  assert (M : forall x, In x (filter (fun ref => negb (special ref) && ref_match ref key) references)
               <-> In x references /\ ordinary x /\ glob x key).
  { intros x. now rewrite filter_In, andb_true_iff, negb_true_iff, special_false, ref_match_spec. }
  destruct (filter (fun ref => negb (special ref) && ref_match ref key) references) as [|y l] eqn:E.
  - assert (NM : no_match references key).
    { intros x Hx Ox Gx. apply (proj2 (M x)). auto. }
    destruct (smem "default" references) eqn:D.
    + apply smem_In in D. split.
      * intros [<-|[]]. right. auto.
      * intros [H|[-> _]]; [exfalso; apply (NM ref); tauto | now left].
    + apply smem_false in D. split; [intros []|].
      intros [H|[_ [H _]]]; [exfalso; apply (NM ref); tauto | contradiction].
  - rewrite M. split; [now left|]. intros [H|[-> [_ NM]]]; [assumption|]. exfalso.
    assert (Hy : In y (y :: l)) by now left. apply M in Hy. apply (NM y); tauto.
Qed.

Lemma references_of_nil references key :
  references_of references key = [] <-> no_match references key /\ ~ In "default" references.
Proof.
  split.
  - intros E. split.
    + intros ref Hr Or Gr. assert (In ref (references_of references key)).
      { apply references_of_spec. auto. } rewrite E in H. destruct H.
    + intros D. destruct (existsb (fun ref => negb (special ref) && ref_match ref key) references) eqn:X.
      * apply existsb_exists in X. destruct X as [x [Hx X]].
        rewrite andb_true_iff, negb_true_iff, special_false, ref_match_spec in X.
        assert (In x (references_of references key)) by (apply references_of_spec; tauto).
        rewrite E in H. destruct H.
      * assert (In "default" (references_of references key)).
        { apply references_of_spec. right. repeat split; auto. intros x Hx Ox Gx.
          assert (existsb (fun ref => negb (special ref) && ref_match ref key) references = true); [|congruence].
          apply existsb_exists. exists x. split; [assumption|].
          now rewrite andb_true_iff, negb_true_iff, special_false, ref_match_spec. }
        rewrite E in H. destruct H.
  - intros [NM D]. destruct (references_of references key) as [|x l] eqn:E; [reflexivity|]. exfalso.
    assert (H : In x (references_of references key)) by (rewrite E; now left).
    apply references_of_spec in H. destruct H as [[H1 [H2 H3]]|[_ [H _]]]; [|contradiction].
    exact (NM x H1 H2 H3).
Qed.

Lemma check_references_None keys references :
  check_references keys references = None <->
  forall ref, In ref references -> ordinary ref ->
    valid_reference ref = true /\ exists key, In key keys /\ glob ref key.
Proof.
  induction references as [|r l IH]; simpl; [split; [intros _ ? [] | reflexivity]|].
  destruct (special r) eqn:S.
  - rewrite IH. split; intros H ref Hr Or.
    + destruct Hr as [<-|Hr]; [apply special_false in Or; congruence | auto].
    + apply H; auto.
  - destruct (valid_reference r) eqn:V; simpl.
    + destruct (existsb (ref_match r) keys) eqn:X.
      * rewrite IH. apply existsb_exists in X. destruct X as [k [Hk X]]. apply ref_match_spec in X.
        split; intros H ref Hr Or; [destruct Hr as [<-|Hr]; eauto | apply H; auto].
      * split; [discriminate|]. intros H. exfalso.
        apply special_false in S. destruct (H r (or_introl eq_refl) S) as [_ [k [Hk G]]].
        assert (existsb (ref_match r) keys = true); [|congruence].
        apply existsb_exists. exists k. split; [assumption | now apply ref_match_spec].
    + split; [discriminate|]. intros H. apply special_false in S.
      destruct (H r (or_introl eq_refl) S). congruence.
Qed.

Lemma mapping_spec keys references m :
  get_key_to_references_mapping keys references = Ok m ->
  dkeys m = keys /\
  forall key rs, In (key, rs) m -> forall ref,
    In ref rs <-> (In ref references /\ ordinary ref /\ glob ref key) \/
                  (ref = "default" /\ In "default" references /\ no_match references key).
Proof.
  unfold get_key_to_references_mapping. destruct (check_references keys references); [discriminate|].
  intros [= <-]. split.
  - unfold dkeys. rewrite map_map. apply map_id.
  - intros key rs H ref. apply in_map_iff in H. destruct H as [k [[= <- <-] _]].
    apply references_of_spec.
Qed.

Lemma mapping_error keys references :
  (exists e, get_key_to_references_mapping keys references = Err e) <->
  exists ref, In ref references /\ ordinary ref /\
    (valid_reference ref = false \/ forall key, In key keys -> ~ glob ref key).
Proof.
  unfold get_key_to_references_mapping.
  assert (D : forall ref, (exists key, In key keys /\ glob ref key) \/ (forall key, In key keys -> ~ glob ref key)).
  { intros ref. destruct (existsb (ref_match ref) keys) eqn:X.
    - left. apply existsb_exists in X. destruct X as [k [Hk X]]. apply ref_match_spec in X. eauto.
    - right. intros key Hk G. assert (existsb (ref_match ref) keys = true); [|congruence].
      apply existsb_exists. exists key. split; [assumption | now apply ref_match_spec]. }
  split.
  - intros [e H]. destruct (check_references keys references) as [e'|] eqn:C; [|discriminate].
    clear H. induction references as [|r l IH]; [discriminate|]. simpl in C.
    destruct (special r) eqn:S.
    + destruct (IH C) as [x [H1 H2]]. exists x. split; [now right | assumption].
    + apply special_false in S. destruct (valid_reference r) eqn:V; simpl in C.
      * destruct (existsb (ref_match r) keys) eqn:X.
        -- destruct (IH C) as [x [H1 H2]]. exists x. split; [now right | assumption].
        -- exists r. split; [now left|]. split; [assumption|]. right. intros key Hk G.
           assert (existsb (ref_match r) keys = true); [|congruence].
           apply existsb_exists. exists key. split; [assumption | now apply ref_match_spec].
      * exists r. split; [now left|]. split; [assumption | now left].
  - intros [ref [H1 [H2 H3]]].
    destruct (check_references keys references) as [e|] eqn:C; [eauto|]. exfalso.
    rewrite check_references_None in C. destruct (C ref H1 H2) as [V [k [Hk G]]].
    destruct H3 as [H3|H3]; [congruence | exact (H3 k Hk G)].
Qed.

(** ** Specification of the resolution *)

(** [selects R p v]: value v is selected for the view with path p: at every
    level follow a matching reference, or 'default' if none matches. *)
Inductive selects : refs -> list string -> nat -> Prop :=
| sel_val l p v : In v l -> selects (DLeaf l) p v
| sel_ref d ref R k p v : In (ref, R) d -> ordinary ref -> glob ref k ->
    selects R p v -> selects (DDict d) (k :: p) v
| sel_default d R k p v : In ("default", R) d -> no_match (dkeys d) k ->
    selects R p v -> selects (DDict d) (k :: p) v.

(** The entry [key] ('default' or 'fallback') of a dictionary, or the
    inherited one. *)
Definition current (key : string) (d : list (string * refs)) (cur : option refs) : option refs :=
  match dget key d with Some x => Some x | None => cur end.

(** [inherits key R cur p v]: v is (in) the innermost enclosing entry [key]
    found on the way to the view p. *)
Inductive inherits (key : string) : refs -> option refs -> list string -> nat -> Prop :=
| inh_val l l' p v : In v l' -> inherits key (DLeaf l) (Some (DLeaf l')) p v
| inh_none d cur k p l' v : no_match (dkeys d) k -> ~ In "default" (dkeys d) ->
    current key d cur = Some (DLeaf l') -> In v l' -> inherits key (DDict d) cur (k :: p) v
| inh_ref d ref R cur k p v : In (ref, R) d -> ordinary ref -> glob ref k ->
    inherits key R (current key d cur) p v -> inherits key (DDict d) cur (k :: p) v
| inh_def d R cur k p v : In ("default", R) d -> no_match (dkeys d) k ->
    inherits key R (current key d cur) p v -> inherits key (DDict d) cur (k :: p) v.

(** ** Proof *)
Lemma set_add_In s v x : In x (set_add s v) <-> In x s \/ In x v.
Proof.
  unfold set_add. rewrite in_app_iff, filter_In, nodup_In, negb_true_iff, nmem_false.
  destruct (in_dec Nat.eq_dec x s); tauto.
Qed.

Lemma set_add_NoDup s v : NoDup s -> NoDup (set_add s v).
Proof.
  intros ND. unfold set_add.
  assert (G : forall l1 l2, NoDup l1 -> NoDup l2 -> (forall x : nat, In x l1 -> ~ In x l2) -> NoDup (l1 ++ l2)).
  { induction 1 as [|x l1 Hx N1 IH]; simpl; intros N2 D; [assumption|]. constructor.
    - rewrite in_app_iff. intros [H|H]; [contradiction | exact (D x (or_introl eq_refl) H)].
    - apply IH; [assumption|]. intros y Hy. apply D. now right. }
  apply G; [assumption | apply NoDup_filter, NoDup_nodup |].
  intros x Hx Hf. apply filter_In in Hf. destruct Hf as [_ Hf].
  apply negb_true_iff, nmem_false in Hf. contradiction.
Qed.

Definition opt_vals (o : option refs) (v : nat) : Prop :=
  exists l, o = Some (DLeaf l) /\ In v l.

(** Node n' arises from n by adding the given sets. *)
Definition node_adds (n n' : vnode) (C D F : nat -> Prop) : Prop :=
  (forall v, In v (content n') <-> In v (content n) \/ C v) /\
  (forall v, In v (defaults n') <-> In v (defaults n) \/ D v) /\
  (forall v, In v (fallbacks n') <-> In v (fallbacks n) \/ F v) /\
  (NoDup (defaults n) -> NoDup (defaults n')) /\
  (NoDup (content n) -> NoDup (content n')).

Lemma add_opt_spec s o s' : add_opt s o = Ok s' ->
  (forall v, In v s' <-> In v s \/ opt_vals o v) /\ (NoDup s -> NoDup s').
Proof.
  unfold add_opt, opt_vals. destruct o as [[l|d]|]; simpl; intros H.
  - injection H as <-. split; [|apply set_add_NoDup]. intros v. rewrite set_add_In. split.
    + intros [H|H]; [now left | right; eauto].
    + intros [H|[l' [[= <-] H]]]; auto.
  - discriminate.
  - injection H as <-. split; [|auto]. intros v. split; [now left|].
    intros [H|[l' [H _]]]; [assumption | discriminate].
Qed.

Lemma update_node_spec n c d f n' : update_node n (DLeaf c) d f = Ok n' ->
  node_adds n n' (fun v => In v c) (opt_vals d) (opt_vals f).
Proof.
  unfold update_node. simpl.
  destruct (add_opt (defaults n) d) as [d'|] eqn:E1; [|discriminate].
  destruct (add_opt (fallbacks n) f) as [f'|] eqn:E2; [|discriminate].
  intros [= <-]. apply add_opt_spec in E1, E2. unfold node_adds. simpl.
  split; [intros v; apply set_add_In|]. assert (X := fun H => set_add_NoDup (content n) c H). tauto.
Qed.

Lemma map_res_dget {A B} (f : string * A -> res (string * B)) items items' k t :
  (forall it b, f it = Ok b -> fst b = fst it) ->
  map_res f items = Ok items' -> dget k items = Some t ->
  exists t', dget k items' = Some t' /\ f (k, t) = Ok (k, t').
Proof.
  intros Hf. revert items'. induction items as [|[k0 t0] items IH]; simpl; intros items' H G; [discriminate|].
  destruct (f (k0, t0)) as [[k1 t1]|] eqn:E; [|discriminate].
  destruct (map_res f items) as [r|] eqn:Er; [|discriminate]. injection H as <-.
  assert (Hk := Hf _ _ E). simpl in Hk. subst k1. simpl.
  destruct (String.eqb_spec k k0) as [->|N].
  - injection G as <-. exists t1. auto.
  - now apply IH.
Qed.

Lemma append_spec t c d f t' p n :
  append_to_all_leaves t (DLeaf c) d f = Ok t' ->
  get_by_parts t p = Some (DLeaf n) ->
  exists n', get_by_parts t' p = Some (DLeaf n') /\
             node_adds n n' (fun v => In v c) (opt_vals d) (opt_vals f).
Proof.
  revert t' p. induction t as [m|items IH] using dtree_ind'; intros t' p H G.
  - cbn [append_to_all_leaves] in H. destruct p as [|x p]; [|discriminate].
    simpl in G. injection G as ->.
    destruct (update_node n (DLeaf c) d f) as [n'|] eqn:E; [|discriminate]. injection H as <-.
    exists n'. split; [reflexivity | now apply update_node_spec].
  - cbn [append_to_all_leaves] in H. destruct p as [|x p]; [discriminate|].
    match type of H with context[map_res ?F items] => set (g := F) in H end.
    destruct (map_res g items) as [items'|] eqn:E; [|discriminate]. injection H as <-.
    simpl in G. destruct (dget x items) as [tx|] eqn:Ex; [|discriminate].
    destruct (map_res_dget g items items' x tx) as [t'' [D1 D2]]; try assumption.
    { intros [k0 t0] b. unfold g. simpl. destruct (append_to_all_leaves t0 (DLeaf c) d f); [|discriminate].
      now intros [= <-]. }
    unfold g in D2. simpl in D2. destruct (append_to_all_leaves tx (DLeaf c) d f) as [tt|] eqn:Et; [|discriminate].
    injection D2 as ->. rewrite Forall_forall in IH.
    destruct (IH (x, tx) (dget_In _ _ _ Ex) _ _ Et G) as [n' [H1 H2]].
    exists n'. split; [|assumption]. simpl. rewrite D1. exact H1.
Qed.

(** The inner loop of apply_refs over the references of one key. *)
Definition go_refs (rs : list string) (cd cf : option refs) :=
  fix go (d0 : list (string * refs)) (acc : dtree vnode) {struct d0} : res (dtree vnode) :=
    match d0 with
    | [] => Ok acc
    | (ref, R') :: r =>
        if smem ref rs then
          match apply_refs R' acc cd cf with
          | Ok acc' => go r acc'
          | Err e => Err e
          end
        else go r acc
    end.
Definition apply_key (d : list (string * refs)) (cd cf : option refs) (it : string * dtree vnode)
  : res (string * dtree vnode) :=
  let rs := references_of (dkeys d) (fst it) in
  match
    match rs with
    | [] => append_to_all_leaves (snd it) (DLeaf []) cd cf
    | _ => go_refs rs cd cf d (snd it)
    end
  with
  | Ok t' => Ok (fst it, t')
  | Err e => Err e
  end.
Lemma apply_refs_dict d items pd pf :
  apply_refs (DDict d) (DDict items) pd pf =
  match check_references (dkeys items) (dkeys d) with
  | Some e => Err e
  | None => match map_res (apply_key d (current "default" d pd) (current "fallback" d pf)) items with
            | Ok items' => Ok (DDict items')
            | Err e => Err e
            end
  end.
Proof. reflexivity. Qed.

Definition applied (R : refs) : Prop := forall t pd pf t' p n,
  apply_refs R t pd pf = Ok t' -> get_by_parts t p = Some (DLeaf n) ->
  exists n', get_by_parts t' p = Some (DLeaf n') /\
    node_adds n n' (selects R p) (inherits "default" R pd p) (inherits "fallback" R pf p).

Lemma go_refs_spec rs cd cf d0 :
  Forall (fun it => applied (snd it)) d0 ->
  forall acc t' p n, go_refs rs cd cf d0 acc = Ok t' -> get_by_parts acc p = Some (DLeaf n) ->
  exists n', get_by_parts t' p = Some (DLeaf n') /\
    node_adds n n' (fun v => exists ref R, In (ref, R) d0 /\ In ref rs /\ selects R p v)
      (fun v => exists ref R, In (ref, R) d0 /\ In ref rs /\ inherits "default" R cd p v)
      (fun v => exists ref R, In (ref, R) d0 /\ In ref rs /\ inherits "fallback" R cf p v).
Proof.
  induction 1 as [|[ref R] d0 HR F IH]; intros acc t' p n H G; simpl in H.
  - injection H as <-. exists n. split; [assumption|].
    assert (X : forall v (P : Prop) , (In v (content n) <-> In v (content n) \/ P) <-> (P -> In v (content n))) by tauto.
    repeat split; try (now left); try (intros [?|[? [? [[] _]]]]; assumption); auto.
  - destruct (smem ref rs) eqn:S.
    + apply smem_In in S. destruct (apply_refs R acc cd cf) as [acc'|] eqn:E; [|discriminate].
      destruct (HR _ _ _ _ _ _ E G) as [n1 [G1 [A1 [A2 [A3 [A4 A5]]]]]].
      destruct (IH _ _ _ _ H G1) as [n2 [G2 [B1 [B2 [B3 [B4 B5]]]]]].
      exists n2. split; [assumption|].
      assert (K : forall (P1 P2 : nat -> Prop) v (Q : refs -> nat -> Prop),
        (In v (content n2) <-> In v (content n2)) ->
        ((Q R v \/ exists r R0, In (r, R0) d0 /\ In r rs /\ Q R0 v) <->
         exists r R0, In (r, R0) ((ref, R) :: d0) /\ In r rs /\ Q R0 v)).
      { intros P1 P2 v Q _. split.
        - intros [H0|[r [R0 [H1 [H2 H3]]]]]; [exists ref, R | exists r, R0]; simpl; auto.
        - intros [r [R0 [[H1|H1] [H2 H3]]]]; [injection H1 as <- <-; now left | right; eauto]. }
      repeat split; auto.
      * intros Hv. apply B1 in Hv. rewrite A1 in Hv.
        destruct Hv as [[Hv|Hv]|[r [R0 [H1 [H2 H3]]]]]; [now left | right; exists ref, R | right; exists r, R0]; simpl; auto.
      * intros Hv. apply B1. rewrite A1. destruct Hv as [Hv|[r [R0 [[H1|H1] [H2 H3]]]]].
        -- auto.
        -- injection H1 as <- <-. auto.
        -- right. eauto.
      * intros Hv. apply B2 in Hv. rewrite A2 in Hv.
        destruct Hv as [[Hv|Hv]|[r [R0 [H1 [H2 H3]]]]]; [now left | right; exists ref, R | right; exists r, R0]; simpl; auto.
      * intros Hv. apply B2. rewrite A2. destruct Hv as [Hv|[r [R0 [[H1|H1] [H2 H3]]]]].
        -- auto.
        -- injection H1 as <- <-. auto.
        -- right. eauto.
      * intros Hv. apply B3 in Hv. rewrite A3 in Hv.
        destruct Hv as [[Hv|Hv]|[r [R0 [H1 [H2 H3]]]]]; [now left | right; exists ref, R | right; exists r, R0]; simpl; auto.
      * intros Hv. apply B3. rewrite A3. destruct Hv as [Hv|[r [R0 [[H1|H1] [H2 H3]]]]].
        -- auto.
        -- injection H1 as <- <-. auto.
        -- right. eauto.
    + apply smem_false in S. destruct (IH _ _ _ _ H G) as [n2 [G2 [B1 [B2 [B3 [B4 B5]]]]]].
      exists n2. split; [assumption|].
      assert (K : forall Q : refs -> Prop, (exists r R0, In (r, R0) d0 /\ In r rs /\ Q R0) <->
                  (exists r R0, In (r, R0) ((ref, R) :: d0) /\ In r rs /\ Q R0)).
      { intros Q. split; intros [r [R0 [H1 [H2 H3]]]]; exists r, R0; [simpl; auto|].
        destruct H1 as [H1|H1]; [|auto]. injection H1 as <- <-. contradiction. }
      repeat split; auto; intros Hv.
      * apply B1 in Hv. destruct Hv as [Hv|Hv]; [now left|]. right. now apply K in Hv.
      * apply B1. destruct Hv as [Hv|Hv]; [now left|]. right. now apply K.
      * apply B2 in Hv. destruct Hv as [Hv|Hv]; [now left|]. right. now apply K in Hv.
      * apply B2. destruct Hv as [Hv|Hv]; [now left|]. right. now apply K.
      * apply B3 in Hv. destruct Hv as [Hv|Hv]; [now left|]. right. now apply K in Hv.
      * apply B3. destruct Hv as [Hv|Hv]; [now left|]. right. now apply K.
Qed.

Lemma node_adds_ext n n' C D F C' D' F' :
  (forall v, C v <-> C' v) -> (forall v, D v <-> D' v) -> (forall v, F v <-> F' v) ->
  node_adds n n' C D F -> node_adds n n' C' D' F'.
Proof.
  intros H1 H2 H3 [A1 [A2 [A3 [A4 A5]]]]. repeat split; auto; intros Hv.
  - apply A1 in Hv. now rewrite H1 in Hv.
  - apply A1. now rewrite H1.
  - apply A2 in Hv. now rewrite H2 in Hv.
  - apply A2. now rewrite H2.
  - apply A3 in Hv. now rewrite H3 in Hv.
  - apply A3. now rewrite H3.
Qed.

Lemma In_dkeys {V} k (v : V) d : In (k, v) d -> In k (dkeys d).
Proof. intros H. change k with (fst (k, v)). now apply in_map. Qed.

Lemma apply_key_fst d cd cf it b : apply_key d cd cf it = Ok b -> fst b = fst it.
Proof.
  unfold apply_key. cbv zeta.
  match goal with |- context[match ?X with Ok _ => _ | Err _ => _ end = _] => destruct X end; [|discriminate].
  now intros [= <-].
Qed.

Lemma apply_refs_spec R : applied R.
Proof.
  induction R as [l|d IH] using dtree_ind'; intros t pd pf t' p n H G.
  - cbn [apply_refs] in H. destruct (append_spec _ _ _ _ _ _ _ H G) as [n' [G' A]].
    exists n'. split; [assumption|]. revert A. apply node_adds_ext; intros v.
    + split; [now constructor | now inversion 1].
    + unfold opt_vals. split; [intros [l' [-> Hv]]; now constructor | inversion 1; subst; eauto].
    + unfold opt_vals. split; [intros [l' [-> Hv]]; now constructor | inversion 1; subst; eauto].
  - destruct t as [m|items].
    + simpl in H. discriminate.
    + rewrite apply_refs_dict in H. destruct (check_references (dkeys items) (dkeys d)); [discriminate|].
      destruct (map_res (apply_key d (current "default" d pd) (current "fallback" d pf)) items)
        as [items'|] eqn:E; [|discriminate]. injection H as <-.
      destruct p as [|k p]; [discriminate|]. simpl in G.
      destruct (dget k items) as [tk|] eqn:Ek; [|discriminate].
      destruct (map_res_dget (apply_key d (current "default" d pd) (current "fallback" d pf))
                  items items' k tk (apply_key_fst d _ _) E Ek) as [t'' [D1 D2]].
      unfold apply_key, refs in D2. cbn [fst snd] in D2.
      assert (RS := references_of_spec (dkeys d) k).
      destruct (references_of (dkeys d) k) as [|r0 rs0] eqn:ER.
      * apply references_of_nil in ER. destruct ER as [NM ND].
        destruct (append_to_all_leaves tk (DLeaf []) (current "default" d pd) (current "fallback" d pf))
          as [tt|] eqn:Et; [|discriminate]. injection D2 as ->.
        destruct (append_spec _ _ _ _ _ _ _ Et G) as [n' [G' A]].
        exists n'. split; [simpl; now rewrite D1|]. revert A. apply node_adds_ext; intros v.
        -- split; [intros []|]. inversion 1 as [|? ref R ? ? ? H1 H2 H3|? R ? ? ? H1]; subst.
           ++ exfalso. eapply NM; eauto. eapply In_dkeys; eauto.
           ++ exfalso. apply ND. eapply In_dkeys; eauto.
        -- unfold opt_vals. split.
           ++ intros [l' [Hc Hv]]. eapply inh_none; eauto.
           ++ inversion 1 as [|? ? ? ? l' ? ? ? Hc Hv|? ref R ? ? ? ? H1 H2 H3|? R ? ? ? ? H1]; subst.
              ** eauto.
              ** exfalso. eapply NM; eauto. eapply In_dkeys; eauto.
              ** exfalso. apply ND. eapply In_dkeys; eauto.
        -- unfold opt_vals. split.
           ++ intros [l' [Hc Hv]]. eapply inh_none; eauto.
           ++ inversion 1 as [|? ? ? ? l' ? ? ? Hc Hv|? ref R ? ? ? ? H1 H2 H3|? R ? ? ? ? H1]; subst.
              ** eauto.
              ** exfalso. eapply NM; eauto. eapply In_dkeys; eauto.
              ** exfalso. apply ND. eapply In_dkeys; eauto.
      * set (rs := r0 :: rs0) in *.
        assert (NE : ~ (no_match (dkeys d) k /\ ~ In "default" (dkeys d))).
        { intros X. apply references_of_nil in X. rewrite ER in X. discriminate. }
        destruct (go_refs rs (current "default" d pd) (current "fallback" d pf) d tk) as [tt|] eqn:Et; [|discriminate].
        injection D2 as ->.
        destruct (go_refs_spec _ _ _ _ IH _ _ _ _ Et G) as [n' [G' A]].
        exists n'. split; [simpl; now rewrite D1|]. revert A. apply node_adds_ext; intros v.
        -- split.
           ++ intros [ref [R [H1 [H2 H3]]]]. apply RS in H2.
              destruct H2 as [[_ [H4 H5]]|[-> [_ H4]]]; [eapply sel_ref; eauto | eapply sel_default; eauto].
           ++ inversion 1 as [|? ref R ? ? ? H1 H2 H3 H4|? R ? ? ? H1 H2 H3]; subst.
              ** exists ref, R. repeat split; auto. apply RS. left. repeat split; auto; try apply H2. eapply In_dkeys; eauto.
              ** exists "default", R. repeat split; auto. apply RS. right. repeat split; auto. eapply In_dkeys; eauto.
        -- split.
           ++ intros [ref [R [H1 [H2 H3]]]]. apply RS in H2.
              destruct H2 as [[_ [H4 H5]]|[-> [_ H4]]]; [eapply inh_ref; eauto | eapply inh_def; eauto].
           ++ inversion 1 as [|? ? ? ? l' ? H1 H2 Hc Hv|? ref R ? ? ? ? H1 H2 H3 H4|? R ? ? ? ? H1 H2 H3]; subst.
              ** exfalso. apply NE. auto.
              ** exists ref, R. repeat split; auto. apply RS. left. repeat split; auto; try apply H2. eapply In_dkeys; eauto.
              ** exists "default", R. repeat split; auto. apply RS. right. repeat split; auto. eapply In_dkeys; eauto.
        -- split.
           ++ intros [ref [R [H1 [H2 H3]]]]. apply RS in H2.
              destruct H2 as [[_ [H4 H5]]|[-> [_ H4]]]; [eapply inh_ref; eauto | eapply inh_def; eauto].
           ++ inversion 1 as [|? ? ? ? l' ? H1 H2 Hc Hv|? ref R ? ? ? ? H1 H2 H3 H4|? R ? ? ? ? H1 H2 H3]; subst.
              ** exfalso. apply NE. auto.
              ** exists ref, R. repeat split; auto. apply RS. left. repeat split; auto; try apply H2. eapply In_dkeys; eauto.
              ** exists "default", R. repeat split; auto. apply RS. right. repeat split; auto. eapply In_dkeys; eauto.
Qed.

Lemma empty_dict_get {V} (t : dtree V) p x :
  get_by_parts t p = Some (DLeaf x) -> get_by_parts (empty_dict_from t) p = Some (DLeaf (mkNode [] [] [])).
Proof.
  revert p. induction t as [v|d IH] using dtree_ind'; intros [|k p] H; simpl in *; try discriminate; [reflexivity|].
  rewrite Forall_forall in IH.
  destruct (dget k d) as [t|] eqn:E; [|discriminate].
  assert (X : dget k (map (fun it => (fst it, empty_dict_from (snd it))) d) = Some (empty_dict_from t)).
  { clear IH H. induction d as [|[k0 t0] d IHd]; simpl in *; [discriminate|].
    destruct (String.eqb k k0); [congruence | auto]. }
  rewrite X. apply (IH (k, t) (dget_In _ _ _ E)). exact H.
Qed.

Lemma evaluate_get t t' p n :
  evaluate_defaults t = Ok t' -> get_by_parts t p = Some (DLeaf n) ->
  exists l, get_by_parts t' p = Some (DLeaf l) /\
    ((content n <> [] /\ l = content n) \/ (content n = [] /\ l = defaults n /\ length l <= 1)).
Proof.
  revert t' p. induction t as [m|d IH] using dtree_ind'; intros t' [|k p] H G; simpl in G; try discriminate.
  - injection G as ->. cbn [evaluate_defaults] in H. destruct (content n) as [|c0 cr] eqn:E.
    + destruct (length (defaults n) <=? 1) eqn:L; [|discriminate]. injection H as <-.
      apply Nat.leb_le in L. exists (defaults n). auto.
    + injection H as <-. exists (c0 :: cr). split; [reflexivity|]. left. split; [discriminate | reflexivity].
  - rewrite Forall_forall in IH. destruct (dget k d) as [tk|] eqn:E; [|discriminate].
    cbn [evaluate_defaults] in H. match type of H with context[map_res ?F d] => set (g := F) in H end.
    destruct (map_res g d) as [items'|] eqn:Em; [|discriminate]. injection H as <-.
    destruct (map_res_dget g d items' k tk) as [t'' [D1 D2]]; try assumption.
    { intros [k0 t0] b. unfold g. simpl. destruct (evaluate_defaults t0); [|discriminate]. now intros [= <-]. }
    unfold g in D2. simpl in D2. destruct (evaluate_defaults tk) as [tt|] eqn:Et; [|discriminate].
    injection D2 as ->. destruct (IH (k, tk) (dget_In _ _ _ E) _ _ Et G) as [l [H1 H2]].
    exists l. split; [simpl; now rewrite D1 | assumption].
Qed.

Lemma fallbacks_get t p n :
  get_by_parts t p = Some (DLeaf n) -> get_by_parts (get_fallbacks t) p = Some (DLeaf (fallbacks n)).
Proof.
  revert p. induction t as [m|d IH] using dtree_ind'; intros [|k p] G; simpl in *; try discriminate.
  - now injection G as ->.
  - rewrite Forall_forall in IH. destruct (dget k d) as [t|] eqn:E; [|discriminate].
    assert (X : dget k (map (fun it => (fst it, get_fallbacks (snd it))) d) = Some (get_fallbacks t)).
    { clear IH G. induction d as [|[k0 t0] d IHd]; simpl in *; [discriminate|].
      destruct (String.eqb k k0); [congruence | auto]. }
    rewrite X. apply (IH (k, t) (dget_In _ _ _ E)). exact G.
Qed.

Lemma resolve_spec {V} (s : dtree V) R r fb p x :
  resolve_references s R = Ok (r, fb) -> get_by_parts s p = Some (DLeaf x) ->
  exists l lf, get_by_parts r p = Some (DLeaf l) /\ get_by_parts fb p = Some (DLeaf lf) /\
    (forall v, In v lf <-> inherits "fallback" R None p v) /\
    ((exists v, selects R p v) -> forall v, In v l <-> selects R p v) /\
    ((forall v, ~ selects R p v) ->
       (forall v, In v l <-> inherits "default" R None p v) /\ length l <= 1).
Proof.
  unfold resolve_references. destruct (apply_refs R (empty_dict_from s) None None) as [t|] eqn:E; [|discriminate].
  destruct (evaluate_defaults t) as [r0|] eqn:Ev; [|discriminate]. intros [= <- <-] G.
  destruct (apply_refs_spec R _ _ _ _ _ _ E (empty_dict_get _ _ _ G)) as [n [Gn [A1 [A2 [A3 [A4 A5]]]]]].
  destruct (evaluate_get _ _ _ _ Ev Gn) as [l [Gl Hl]].
  exists l, (fallbacks n). split; [assumption|]. split; [now apply fallbacks_get|]. simpl in *.
  split; [intros v; rewrite A3; tauto|]. split.
  - intros [v0 S0]. destruct Hl as [[_ ->]|[E0 _]].
    + intros v. rewrite A1. tauto.
    + exfalso. assert (In v0 (content n)) by (apply A1; now right). rewrite E0 in H. destruct H.
  - intros NS. destruct Hl as [[N ->]|[_ [-> L]]].
    + exfalso. destruct (content n) as [|v cr] eqn:Ec; [congruence|].
      apply (NS v). assert (H : In v (v :: cr)) by now left. apply A1 in H. destruct H as [[]|H]. assumption.
    + split; [|assumption]. intros v. rewrite A2. tauto.
Qed.

Lemma resolve_nodup {V} (s : dtree V) R r fb p x l :
  resolve_references s R = Ok (r, fb) -> get_by_parts s p = Some (DLeaf x) -> get_by_parts r p = Some (DLeaf l) -> NoDup l.
Proof.
  unfold resolve_references. destruct (apply_refs R (empty_dict_from s) None None) as [t|] eqn:E; [|discriminate].
  destruct (evaluate_defaults t) as [r0|] eqn:Ev; [|discriminate]. intros [= <- <-] G Gl.
  destruct (apply_refs_spec R _ _ _ _ _ _ E (empty_dict_get _ _ _ G)) as [n [Gn [A1 [A2 [A3 [A4 A5]]]]]].
  destruct (evaluate_get _ _ _ _ Ev Gn) as [l' [Gl' Hl]]. rewrite Gl in Gl'. injection Gl' as <-. simpl in *.
  destruct Hl as [[_ ->]|[_ [-> _]]]; [apply A5 | apply A4]; constructor.
Qed.

(** ** When the resolution fails *)

(** References that fit a structure: every reference is valid and matches a
    key, dictionaries only where the structure has dictionaries, and
    'default'/'fallback' entries are not dictionaries. *)
Inductive fits : refs -> dtree vnode -> Prop :=
| fits_val l t : fits (DLeaf l) t
| fits_dict d items :
    check_references (dkeys items) (dkeys d) = None ->
    (forall x, dget "default" d = Some x -> exists l, x = DLeaf l) ->
    (forall x, dget "fallback" d = Some x -> exists l, x = DLeaf l) ->
    (forall ref R k t, In (ref, R) d -> In (k, t) items -> ref = "default" \/ (ordinary ref /\ glob ref k) ->
       fits R t) ->
    fits (DDict d) (DDict items).

Definition leafy (o : option refs) : Prop := forall x, o = Some x -> exists l, x = DLeaf l.

Lemma map_res_total {A B} (f : A -> res B) l :
  (forall a, In a l -> exists b, f a = Ok b) -> exists l', map_res f l = Ok l'.
Proof.
  induction l as [|a l IH]; intros H; simpl; [eauto|].
  destruct (H a (or_introl eq_refl)) as [b ->].
  destruct IH as [l' ->]; [|eauto]. intros x Hx. apply H. now right.
Qed.

(** Two trees with the same keys everywhere. *)
Inductive same_keys_tree : dtree vnode -> dtree vnode -> Prop :=
| sk_leaf n m : same_keys_tree (DLeaf n) (DLeaf m)
| sk_dict d e : Forall2 (fun x y => fst x = fst y /\ same_keys_tree (snd x) (snd y)) d e ->
    same_keys_tree (DDict d) (DDict e).

Lemma map_res_Forall2 {A B} (f : A -> res B) (P : A -> B -> Prop) l l' :
  (forall a b, In a l -> f a = Ok b -> P a b) -> map_res f l = Ok l' -> Forall2 P l l'.
Proof.
  revert l'. induction l as [|a l IH]; simpl; intros l' H E.
  - injection E as <-. constructor.
  - destruct (f a) as [b|] eqn:Ea; [|discriminate]. destruct (map_res f l) as [bs|]; [|discriminate].
    injection E as <-. constructor; [now apply H; [left|]|]. apply IH; [|reflexivity].
    intros x y Hx. apply H. now right.
Qed.

Lemma append_total t c d f : leafy d -> leafy f ->
  exists t', append_to_all_leaves t (DLeaf c) d f = Ok t' /\ same_keys_tree t t'.
Proof.
  intros Hd Hf. induction t as [n|items IH] using dtree_ind'.
  - cbn [append_to_all_leaves]. unfold update_node. simpl.
    assert (X : forall s o, leafy o -> exists s', add_opt s o = Ok s').
    { intros s [x|] Ho; [|simpl; eauto]. destruct (Ho x eq_refl) as [l ->]. simpl. eauto. }
    destruct (X (defaults n) d Hd) as [d' ->]. destruct (X (fallbacks n) f Hf) as [f' ->].
    eexists. split; [reflexivity | constructor].
  - cbn [append_to_all_leaves]. match goal with |- context[map_res ?F items] => set (g := F) end.
    rewrite Forall_forall in IH.
    destruct (map_res_total g items) as [items' E].
    { intros [k t] I. destruct (IH _ I) as [t' [E _]]. unfold g. simpl in *. rewrite E. eauto. }
    rewrite E. eexists. split; [reflexivity|]. constructor.
    eapply map_res_Forall2; [|exact E]. intros [k t] b I. unfold g. simpl.
    destruct (IH _ I) as [t' [E' S]]. simpl in E'. rewrite E'. intros [= <-]. simpl. auto.
Qed.

Lemma same_keys_refl t : same_keys_tree t t.
Proof.
  induction t as [n|d IH] using dtree_ind'; constructor.
  induction IH; constructor; auto.
Qed.
Lemma same_keys_trans t1 t2 t3 : same_keys_tree t1 t2 -> same_keys_tree t2 t3 -> same_keys_tree t1 t3.
Proof.
  revert t2 t3. induction t1 as [n|d IH] using dtree_ind'; intros t2 t3 H1 H2; inversion H1; subst; inversion H2; subst.
  - constructor.
  - constructor. rename e into d2, e0 into d3. clear H1 H2. revert d2 d3 H0 H3.
    induction IH as [|x d Hx F IHd]; intros d2 d3 F1 F2; inversion F1 as [|? y ? l [A B] F1']; subst;
      inversion F2 as [|? z ? l2 [C D] F2']; subst; constructor.
    + split; [congruence | eapply Hx; eauto].
    + eauto.
Qed.

Lemma same_keys_dkeys d e :
  Forall2 (fun x y => fst x = fst y /\ same_keys_tree (snd x) (snd y)) d e -> dkeys d = dkeys e.
Proof. induction 1 as [|x y d e [E _] F IH]; simpl; [reflexivity | congruence]. Qed.

Lemma fits_same R t t' : same_keys_tree t t' -> fits R t -> fits R t'.
Proof.
  revert t t'. induction R as [l|d IH] using dtree_ind'; intros t t' S F; [constructor|].
  inversion F as [|? items C Hd Hf Hs]; subst. inversion S as [|? items' F2]; subst.
  constructor; auto.
  - now rewrite <- (same_keys_dkeys _ _ F2).
  - intros ref R k t' I It' Hr. rewrite Forall_forall in IH.
    assert (X : exists t0, In (k, t0) items /\ same_keys_tree t0 t').
    { clear - F2 It'. induction F2 as [|[k1 t1] [k2 t2] d e [E S2] F2 IHF]; [destruct It'|].
      simpl in *. subst k2. destruct It' as [H|H].
      - injection H as -> ->. exists t1. auto.
      - destruct (IHF H) as [t0 [H1 H2]]. exists t0. auto. }
    destruct X as [t0 [I0 S0]]. eapply (IH (ref, R) I); [exact S0|]. simpl. eapply Hs; eauto.
Qed.

Lemma apply_total R : forall t pd pf, leafy pd -> leafy pf -> fits R t ->
  exists t', apply_refs R t pd pf = Ok t' /\ same_keys_tree t t'.
Proof.
  induction R as [l|d IH] using dtree_ind'; intros t pd pf Hpd Hpf F.
  - cbn [apply_refs]. now apply append_total.
  - inversion F as [|? items C Hd Hf Hs]; subst. rewrite apply_refs_dict, C.
    assert (Lcd : leafy (current "default" d pd)).
    { intros x. unfold current. destruct (dget (V := refs) "default" d) eqn:E; [intros [= <-]; auto | apply Hpd]. }
    assert (Lcf : leafy (current "fallback" d pf)).
    { intros x. unfold current. destruct (dget (V := refs) "fallback" d) eqn:E; [intros [= <-]; auto | apply Hpf]. }
    rewrite Forall_forall in IH.
    assert (K : forall it, In it items -> exists t', apply_key d (current "default" d pd) (current "fallback" d pf) it
                  = Ok (fst it, t') /\ same_keys_tree (snd it) t').
    { intros [k t] I. unfold apply_key, refs. simpl.
      assert (RS := references_of_spec (dkeys d) k).
      destruct (references_of (dkeys d) k) as [|r0 rs0] eqn:ER.
      - destruct (append_total t [] _ _ Lcd Lcf) as [t' [-> S]]. eauto.
      - set (rs := r0 :: rs0) in *. clearbody rs.
        assert (G : forall d0 acc, incl d0 d -> same_keys_tree t acc ->
                 exists t', go_refs rs (current "default" d pd) (current "fallback" d pf) d0 acc = Ok t' /\ same_keys_tree t t').
        { induction d0 as [|[ref R] d0 IHd]; intros acc Inc S; simpl; [eauto|].
          destruct (smem ref rs) eqn:Sm.
          - apply smem_In, RS in Sm.
            assert (Fr : fits R acc).
            { eapply fits_same; [exact S|]. apply (Hs ref R k t); [apply Inc; now left | assumption|].
              destruct Sm as [[_ [H1 H2]]|[-> _]]; auto. }
            destruct (IH (ref, R) (Inc _ (or_introl eq_refl)) acc _ _ Lcd Lcf Fr) as [acc' [E S']].
            simpl in E. rewrite E. apply IHd; [intros x Hx; apply Inc; now right|].
            eapply same_keys_trans; eauto.
          - apply IHd; [intros x Hx; apply Inc; now right | assumption]. }
        destruct (G d t (incl_refl _) (same_keys_refl t)) as [t' [-> S]]. eauto. }
    destruct (map_res_total (apply_key d (current "default" d pd) (current "fallback" d pf)) items) as [items' E].
    { intros it I. destruct (K it I) as [t' [-> _]]. eauto. }
    rewrite E. eexists. split; [reflexivity|]. constructor.
    eapply map_res_Forall2; [|exact E]. intros it b I Hb. destruct (K it I) as [t' [E' S]].
    rewrite E' in Hb. injection Hb as <-. simpl. auto.
Qed.

Lemma map_res_err {A B} (f : A -> res B) l e :
  map_res f l = Err e -> exists a, In a l /\ f a = Err e.
Proof.
  induction l as [|a l IH]; simpl; [discriminate|]. destruct (f a) as [b|e'] eqn:E.
  - change (fix go (l : list A) : res (list B) :=
      match l with [] => Ok [] | a :: r => match f a with Ok b => match go r with Ok bs => Ok (b :: bs) | Err e1 => Err e1 end | Err e1 => Err e1 end end)
      with (map_res f).
    destruct (map_res f l) as [bs|e']; [discriminate|]. intros [= ->].
    destruct IH as [x [H1 H2]]; [reflexivity|]. exists x. auto.
  - intros [= ->]. exists a. auto.
Qed.

(** Paths are looked up by key, so the keys of the structure are distinct. *)
Inductive nodup_tree {V} : dtree V -> Prop :=
| nt_leaf v : nodup_tree (DLeaf v)
| nt_dict d : NoDup (dkeys d) -> (forall k t, In (k, t) d -> nodup_tree t) -> nodup_tree (DDict d).

Lemma evaluate_err t e : nodup_tree t -> evaluate_defaults t = Err e ->
  e = EDefaults /\ exists p n, get_by_parts t p = Some (DLeaf n) /\ content n = [] /\ 2 <= length (defaults n).
Proof.
  induction t as [n|d IH] using dtree_ind'; intros W H.
  - cbn [evaluate_defaults] in H. destruct (content n) eqn:E; [|discriminate].
    destruct (length (defaults n) <=? 1) eqn:L; [discriminate|]. injection H as <-.
    apply Nat.leb_gt in L. split; [reflexivity|]. exists [], n. auto.
  - inversion W as [|? ND W']; subst. cbn [evaluate_defaults] in H.
    rewrite Forall_forall in IH.
    assert (X : exists it, In it d /\ evaluate_defaults (snd it) = Err e).
    { match type of H with context[map_res ?F d] => destruct (map_res F d) eqn:Em end; [discriminate|].
      injection H as <-. apply map_res_err in Em. destruct Em as [it [I Em]]. exists it. split; [assumption|].
      destruct (evaluate_defaults (snd it)); [discriminate | congruence]. }
    destruct X as [[k t] [I E]]. destruct (IH (k, t) I (W' k t I) E) as [-> [p [n [G H2]]]].
    split; [reflexivity|]. exists (k :: p), n. split; [|assumption]. simpl. now rewrite (In_dget _ _ _ ND I).
Qed.

Lemma nodup_empty {V} (t : dtree V) : nodup_tree t -> nodup_tree (empty_dict_from t).
Proof.
  induction t as [v|d IH] using dtree_ind'; intros W; simpl; constructor; inversion W as [|? ND W']; subst.
  - unfold dkeys in *. rewrite map_map. exact ND.
  - intros k t I. apply in_map_iff in I. destruct I as [[k0 t0] [[= <- <-] I]].
    rewrite Forall_forall in IH. apply (IH (k0, t0) I). now apply (W' k0).
Qed.

Lemma nodup_same t t' : same_keys_tree t t' -> nodup_tree t -> nodup_tree t'.
Proof.
  revert t'. induction t as [v|d IH] using dtree_ind'; intros t' S W; inversion S as [|? e F2]; subst; constructor;
    inversion W as [|? ND W']; subst.
  - now rewrite <- (same_keys_dkeys _ _ F2).
  - intros k t' I. rewrite Forall_forall in IH. clear S W ND.
    induction F2 as [|[k1 t1] [k2 t2] d e [E S2] F2 IHF]; [destruct I|]. simpl in *.
    destruct I as [H|H].
    + injection H as -> ->. apply (IH (k1, t1) (or_introl eq_refl)); [assumption|]. apply (W' k1). now left.
    + apply IHF; [intros x Hx; apply IH; now right | intros k0 t0 I0; apply (W' k0); now right | assumption].
Qed.

Lemma get_same t t' p n : same_keys_tree t t' -> get_by_parts t' p = Some (DLeaf n) ->
  exists m, get_by_parts t p = Some (DLeaf m).
Proof.
  revert t'. revert p. induction t as [v|d IH] using dtree_ind'; intros [|k p] t' S G; inversion S as [? m|? e F2]; subst;
    simpl in *; try discriminate; [eauto|].
  rewrite Forall_forall in IH. destruct (dget k e) as [te|] eqn:Ee; [|discriminate].
  assert (X : exists td, dget k d = Some td /\ same_keys_tree td te /\ In (k, td) d).
  { clear - F2 Ee. induction F2 as [|[k1 t1] [k2 t2] d e [E S2] F2 IHF]; simpl in *; [discriminate|]. subst k2.
    destruct (String.eqb_spec k k1) as [->|N].
    - injection Ee as <-. exists t1. auto.
    - destruct (IHF Ee) as [td [H1 [H2 H3]]]. exists td. auto. }
  destruct X as [td [-> [S' I]]]. eapply (IH (k, td) I); eauto.
Qed.

Lemma empty_get_inv {V} (t : dtree V) p n : get_by_parts (empty_dict_from t) p = Some (DLeaf n) ->
  n = mkNode [] [] [] /\ exists x, get_by_parts t p = Some (DLeaf x).
Proof.
  revert p. induction t as [v|d IH] using dtree_ind'; intros [|k p] H; simpl in *; try discriminate.
  - injection H as <-. eauto.
  - rewrite Forall_forall in IH.
    assert (X : dget k (map (fun it => (fst it, empty_dict_from (snd it))) d) =
                match dget k d with Some t => Some (empty_dict_from t) | None => None end).
    { clear. induction d as [|[k0 t0] d IHd]; simpl; [reflexivity|]. destruct (String.eqb k k0); auto. }
    rewrite X in H. destruct (dget k d) as [t|] eqn:E; [|discriminate].
    exact (IH (k, t) (dget_In _ _ _ E) p H).
Qed.

Lemma resolve_total {V} (s : dtree V) R :
  nodup_tree s -> fits R (empty_dict_from s) ->
  (exists r fb, resolve_references s R = Ok (r, fb)) \/
  (resolve_references s R = Err EDefaults /\
   exists p x v1 v2, get_by_parts s p = Some (DLeaf x) /\ (forall v, ~ selects R p v) /\
     inherits "default" R None p v1 /\ inherits "default" R None p v2 /\ v1 <> v2).
Proof.
  intros W F. unfold resolve_references.
  destruct (apply_total R (empty_dict_from s) None None) as [t [E S]]; try assumption; try (intros x; discriminate).
  rewrite E. destruct (evaluate_defaults t) as [r|e] eqn:Ev; [left; eauto|].
  right. apply evaluate_err in Ev; [|eapply nodup_same; [exact S | now apply nodup_empty]].
  destruct Ev as [-> [p [n [G [C L]]]]]. split; [reflexivity|].
  destruct (get_same _ _ _ _ S G) as [m Gm]. destruct (empty_get_inv _ _ _ Gm) as [-> [x Gx]].
  destruct (apply_refs_spec R _ _ _ _ _ _ E Gm) as [n' [Gn [A1 [A2 [A3 [A4 A5]]]]]].
  rewrite G in Gn. injection Gn as <-. simpl in *.
  assert (ND : NoDup (defaults n)) by (apply A4; constructor).
  destruct (defaults n) as [|v1 [|v2 l]] eqn:Ed; simpl in L; try lia.
  exists p, x, v1, v2. split; [assumption|]. repeat split.
  - intros v Sv. assert (In v (content n)) by (apply A1; now right). rewrite C in H. destruct H.
  - destruct (proj1 (A2 v1)) as [[]|H]; [now left | assumption].
  - destruct (proj1 (A2 v2)) as [[]|H]; [right; now left | assumption].
  - intros ->. inversion ND as [|? ? X]. apply X. now left.
Qed.

(** ** Pruning *)
Definition lookup2 {V} (l v : string) (r : list (string * list (string * V))) : option V :=
  match dget l r with None => None | Some d => dget v d end.

Lemma dget_filter {V} (f : V -> bool) k (d : list (string * V)) :
  NoDup (dkeys d) ->
  dget k (filter (fun it => f (snd it)) d) =
  match dget k d with Some v => if f v then Some v else None | None => None end.
Proof.
  induction d as [|[k0 v0] d IH]; simpl; intros ND; [reflexivity|].
  inversion ND as [|? ? H1 H2]; subst. specialize (IH H2).
  destruct (String.eqb_spec k k0) as [->|N].
  - destruct (f v0) eqn:E; simpl.
    + now rewrite String.eqb_refl.
    + rewrite IH. destruct (dget k0 d) eqn:Ed; [|reflexivity].
      exfalso. apply H1. eapply dget_Some_key; eauto.
  - destruct (f v0); simpl; [|assumption].
    destruct (String.eqb_spec k k0); [contradiction | assumption].
Qed.

Lemma dget_map_snd {V W} (g : V -> W) k (d : list (string * V)) :
  dget k (map (fun it => (fst it, g (snd it))) d) = match dget k d with Some v => Some (g v) | None => None end.
Proof. induction d as [|[k0 v0] d IH]; simpl; [reflexivity|]. destruct (String.eqb k k0); auto. Qed.

Lemma prune_spec r l v :
  NoDup (dkeys r) -> (forall k d, In (k, d) r -> NoDup (dkeys d)) ->
  lookup2 l v (prune_view_references r) =
  match lookup2 l v r with Some [] => None | x => x end.
Proof.
  intros ND W. unfold lookup2, prune_view_references.
  set (g := fun d : list (string * list nat) => filter (fun v => match snd v with [] => false | _ => true end) d).
  assert (E : dget l (filter (fun it : string * list (string * list nat) => match snd it with [] => false | _ => true end)
               (map (fun it => (fst it, g (snd it))) r)) =
              match dget l r with Some d => match g d with [] => None | x => Some x end | None => None end).
  { rewrite (dget_filter (fun d : list (string * list nat) => match d with [] => false | _ => true end)).
    - rewrite dget_map_snd. unfold dict in *. destruct (dget l r) as [d|]; [|reflexivity]. now destruct (g d).
    - unfold dkeys in *. rewrite map_map. exact ND. }
  fold g. unfold dict in *. rewrite E. destruct (dget l r) as [d|] eqn:El; [|reflexivity].
  assert (X : dget v (g d) = match dget v d with Some [] => None | x => x end).
  { unfold g. rewrite (dget_filter (fun s : list nat => match s with [] => false | _ => true end)).
    - destruct (dget v d) as [[|a s]|]; reflexivity.
    - apply (W l). now apply dget_In. }
  destruct (g d) as [|y g0] eqn:Eg.
  - rewrite <- X. reflexivity.
  - exact X.
Qed.

(** ** An explicit name *)
Lemma In_unique {V} k (v w : V) d : NoDup (dkeys d) -> In (k, v) d -> In (k, w) d -> v = w.
Proof. intros ND H1 H2. apply (In_dget _ _ _ ND) in H1, H2. congruence. Qed.

Lemma explicit_name {V} (s : dtree V) d dv layer view x vals ref1 ref2 r fb :
  NoDup (dkeys d) -> NoDup (dkeys dv) -> vals <> [] ->
  resolve_references s (DDict d) = Ok (r, fb) ->
  get_by_parts s [layer; view] = Some (DLeaf x) ->
  In (ref1, DDict dv) d -> ordinary ref1 -> glob ref1 layer ->
  (forall ref, In ref (dkeys d) -> ordinary ref -> glob ref layer -> ref = ref1) ->
  In (ref2, DLeaf vals) dv -> ordinary ref2 -> glob ref2 view ->
  (forall ref, In ref (dkeys dv) -> ordinary ref -> glob ref view -> ref = ref2) ->
  exists l, get_by_parts r [layer; view] = Some (DLeaf l) /\ forall v, In v l <-> In v vals.
Proof.
  intros ND1 ND2 NE E G I1 O1 G1 U1 I2 O2 G2 U2.
  destruct (resolve_spec _ _ _ _ _ _ E G) as [l [lf [Gl [_ [_ [HS _]]]]]].
  assert (K : forall v, selects (DDict d) [layer; view] v <-> In v vals).
  { intros v. split.
    - inversion 1 as [|? ref R ? ? ? H1 H2 H3 H4|? R ? ? ? H1 H2 H3]; subst.
      + assert (ref = ref1) by (apply U1; auto; eapply In_dkeys; eauto). subst ref.
        rewrite (In_unique _ _ _ _ ND1 H1 I1) in H4.
        inversion H4 as [|? ref R' ? ? ? K1 K2 K3 K4|? R' ? ? ? K1 K2 K3]; subst.
        * assert (ref = ref2) by (apply U2; auto; eapply In_dkeys; eauto). subst ref.
          rewrite (In_unique _ _ _ _ ND2 K1 I2) in K4. now inversion K4.
        * exfalso. apply (K2 ref2); auto. eapply In_dkeys; eauto.
      + exfalso. apply (H2 ref1); auto. eapply In_dkeys; eauto.
    - intros Hv. eapply sel_ref; eauto. eapply sel_ref; eauto. now constructor. }
  exists l. split; [assumption|]. intros v. rewrite HS; [apply K|].
  destruct vals as [|v0 vr]; [congruence|]. exists v0. apply K. now left.
Qed.
