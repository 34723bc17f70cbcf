(** Proofs for UtilsModel.v: C52 (paths) and C53 (nested containers). *)
From Coq Require Import String Ascii List Arith Bool Lia.
From Verif Require Import PyBase PyFacts UtilsModel.
Import ListNotations.
Open Scope string_scope.
Open Scope list_scope.
Open Scope nat_scope.

(** ** Paths *)

(** A component: non-empty, without dot and without at sign. *)
Definition component (s : string) : Prop :=
  s <> "" /\ ~ In "."%char (chars s) /\ ~ In "@"%char (chars s).

(** An argument: [ups] times ".." followed by dot-separated components. *)
Record parg := mkArg { ups : nat; names : list string }.
Fixpoint dotdots (n : nat) : string :=
  match n with 0 => "" | S m => (".." ++ dotdots m)%string end.
Definition render (a : parg) : string := (dotdots (ups a) ++ String.concat "." (names a))%string.
Definition wf_arg (a : parg) : Prop := names a <> [] /\ Forall component (names a).

(** Directory-like semantics on the list of components (None: above the root). *)
Fixpoint go_up (n : nat) (l : list string) : option (list string) :=
  match n with
  | 0 => Some l
  | S m => match rev l with [] => None | _ :: r => go_up m (rev r) end
  end.
Fixpoint walk (cur : list string) (args : list parg) : option (list string) :=
  match args with
  | [] => Some cur
  | a :: r => match go_up (ups a) cur with
              | None => None
              | Some c => walk (c ++ names a) r
              end
  end.

Fixpoint ats (n : nat) : string :=
  match n with 0 => "" | S m => String "@" (ats m) end.

Lemma has_char_In x s : has_char x s = true <-> In x (chars s).
Proof.
  induction s as [|c s IH]; simpl; [split; [discriminate | tauto]|].
  rewrite orb_true_iff, Ascii.eqb_eq, IH. intuition congruence.
Qed.

Lemma concat_cons s x l : String.concat s (x :: l) =
  match l with [] => x | _ => (x ++ s ++ String.concat s l)%string end.
Proof. destruct l; reflexivity. Qed.

Lemma string_app_nil_r s : (s ++ "")%string = s.
Proof. induction s as [|c s IH]; simpl; congruence. Qed.

(** Strings that do not start with a dot and contain no two adjacent dots. *)
Fixpoint no_dotdot (s : string) : bool :=
  match s with
  | "" => true
  | String c r =>
      match r with
      | String c2 _ => negb (Ascii.eqb c "." && Ascii.eqb c2 ".") && no_dotdot r
      | "" => true
      end
  end.

Lemma replace_id s : no_dotdot s = true -> replace_dotdot s = s.
Proof.
  assert (G : forall n s, String.length s <= n -> no_dotdot s = true -> replace_dotdot s = s).
  { induction n as [|n IH]; intros [|c s0] L H; simpl in L; try reflexivity; [lia|].
    destruct s0 as [|c2 r]; [reflexivity|].
    cbn [no_dotdot] in H. apply andb_true_iff in H. destruct H as [H1 H2].
    apply negb_true_iff in H1. cbn [replace_dotdot]. rewrite H1. f_equal.
    apply (IH (String c2 r)); [simpl in *; lia | exact H2]. }
  intros H. now apply (G (String.length s)).
Qed.

Lemma replace_dotdots n s : replace_dotdot (dotdots n ++ s)%string = (ats n ++ replace_dotdot s)%string.
Proof. induction n as [|n IH]; simpl; [reflexivity | now rewrite IH]. Qed.

Lemma no_dotdot_app c s t :
  ~ In "."%char (chars s) -> s <> "" ->
  c <> "."%char ->
  no_dotdot (s ++ String "." (String c t))%string = no_dotdot (String c t).
Proof.
  intros Hd Hn Hc. induction s as [|x s IH]; [congruence|].
  assert (Hx : x <> "."%char) by (intros ->; apply Hd; now left).
  destruct s as [|y s].
  - cbn [append no_dotdot]. destruct (Ascii.eqb_spec x "."); [contradiction|].
    destruct (Ascii.eqb_spec c "."); [contradiction|]. rewrite !andb_false_r. simpl.
    destruct (Ascii.eqb_spec c "."); [contradiction|]. reflexivity.
  - cbn [append no_dotdot] in *. destruct (Ascii.eqb_spec x "."); [contradiction|].
    cbn [andb negb]. apply IH; [|discriminate]. intros H. apply Hd. now right.
Qed.

Lemma no_dotdot_nodot s : ~ In "."%char (chars s) -> no_dotdot s = true.
Proof.
  induction s as [|x s IH]; simpl; intros H; [reflexivity|].
  destruct s as [|y s]; [reflexivity|].
  destruct (Ascii.eqb_spec x "."); [exfalso; apply H; now left|]. simpl.
  apply IH. intros I. apply H. now right.
Qed.

Lemma concat_head l : Forall component l -> l <> [] ->
  exists c t, String.concat "." l = String c t /\ c <> "."%char /\ c <> "@"%char.
Proof.
  intros F N. destruct l as [|x l]; [congruence|]. inversion F as [|? ? [H1 [H2 H3]] _]; subst.
  destruct x as [|c x]; [congruence|]. rewrite concat_cons.
  assert (c <> "."%char) by (intros ->; apply H2; now left).
  assert (c <> "@"%char) by (intros ->; apply H3; now left).
  destruct l; simpl; eauto.
Qed.

Lemma concat_no_dotdot l : Forall component l -> no_dotdot (String.concat "." l) = true.
Proof.
  induction l as [|x l IH]; intros F; [reflexivity|].
  inversion F as [|? ? [H1 [H2 H3]] F2]; subst. rewrite concat_cons.
  destruct l as [|y l]; [now apply no_dotdot_nodot|].
  destruct (concat_head (y :: l) F2) as [c [t [E [Hc _]]]]; [discriminate|].
  specialize (IH F2). rewrite E in *. simpl append.
  change (x ++ String "." (String c t))%string with (x ++ String "." (String c t))%string.
  rewrite no_dotdot_app; assumption.
Qed.

Lemma split_dot_nodot s : ~ In "."%char (chars s) -> split_dot s = [s].
Proof.
  induction s as [|c s IH]; simpl; intros H; [reflexivity|].
  destruct (Ascii.eqb_spec c "."); [exfalso; apply H; now left|].
  rewrite IH; [reflexivity|]. intros I. apply H. now right.
Qed.

Lemma split_dot_app s t : ~ In "."%char (chars s) ->
  split_dot (s ++ String "." t)%string = s :: split_dot t.
Proof.
  induction s as [|c s IH]; simpl; intros H; [reflexivity|].
  destruct (Ascii.eqb_spec c "."); [exfalso; apply H; now left|].
  rewrite IH; [reflexivity|]. intros I. apply H. now right.
Qed.

Lemma split_concat l : Forall component l -> l <> [] -> split_dot (String.concat "." l) = l.
Proof.
  induction l as [|x l IH]; intros F N; [congruence|].
  inversion F as [|? ? [H1 [H2 H3]] F2]; subst. rewrite concat_cons.
  destruct l as [|y l]; [now apply split_dot_nodot|].
  change (x ++ "." ++ String.concat "." (y :: l))%string
    with (x ++ String "." (String.concat "." (y :: l)))%string.
  rewrite split_dot_app by assumption. f_equal. apply IH; [assumption | discriminate].
Qed.

Lemma ats_no_dot n : ~ In "."%char (chars (ats n)).
Proof. induction n as [|n IH]; simpl; [tauto | intuition discriminate]. Qed.

Lemma split_render a : wf_arg a ->
  split_dot (replace_dotdot (render a)) =
  match names a with [] => [] | x :: r => (ats (ups a) ++ x)%string :: r end.
Proof.
  intros [N F]. unfold render. rewrite replace_dotdots, replace_id by now apply concat_no_dotdot.
  assert (G : forall n, split_dot (ats n ++ String.concat "." (names a))%string =
              match names a with [] => [] | x :: r => (ats n ++ x)%string :: r end); [|apply G].
  induction n as [|n IH]; simpl.
  - rewrite split_concat by assumption. now destruct (names a).
  - rewrite IH. destruct (names a); [congruence | reflexivity].
Qed.

Lemma strip_ats_component x rp : component x -> strip_ats x rp = Some (x, rp).
Proof.
  intros [_ [_ H]]. destruct x as [|c x]; [reflexivity|]. simpl.
  destruct (Ascii.eqb_spec c "@"); [exfalso; apply H; now left | reflexivity].
Qed.

Lemma strip_ats_ats n x rp : component x ->
  strip_ats (ats n ++ x)%string rp =
  match go_up n (rev rp) with None => None | Some l => Some (x, rev l) end.
Proof.
  intros C. revert rp. induction n as [|n IH]; intros rp; simpl.
  - rewrite strip_ats_component by assumption. now rewrite rev_involutive.
  - rewrite rev_involutive. destruct rp as [|y rp]; [reflexivity|]. apply IH.
Qed.

Lemma normalize_parts_app l1 l2 rp :
  normalize_parts (l1 ++ l2) rp =
  match normalize_parts l1 rp with
  | None => None
  | Some l => normalize_parts l2 (rev l)
  end.
Proof.
  revert rp. induction l1 as [|p l1 IH]; intros rp; simpl.
  - now rewrite rev_involutive.
  - destruct (strip_ats p rp) as [[p' rp']|]; [apply IH | reflexivity].
Qed.

Lemma normalize_components l rp : Forall component l ->
  normalize_parts l rp = Some (rev rp ++ l).
Proof.
  intros F. revert rp. induction F as [|x l C F IH]; intros rp; simpl.
  - now rewrite app_nil_r.
  - rewrite strip_ats_component by assumption. rewrite IH. simpl. now rewrite <- app_assoc.
Qed.

Lemma normalize_walk args cur : Forall wf_arg args ->
  normalize_parts (flat_map (fun a => split_dot (replace_dotdot (render a))) args) (rev cur)
  = walk cur args.
Proof.
  intros F. revert cur. induction F as [|a args W F IH]; intros cur; simpl.
  - now rewrite rev_involutive.
  - rewrite normalize_parts_app. rewrite split_render by assumption. destruct W as [N FC].
    destruct (names a) as [|x r] eqn:E; [congruence|]. inversion FC as [|? ? Cx Cr]; subst.
    simpl. rewrite strip_ats_ats by assumption. rewrite rev_involutive.
    destruct (go_up (ups a) cur) as [c|]; [|reflexivity].
    rewrite normalize_components by assumption. simpl. rewrite rev_involutive, <- app_assoc. apply IH.
Qed.

Lemma in_chars_concat c l : In c (chars (String.concat "." l)) ->
  c = "."%char \/ exists x, In x l /\ In c (chars x).
Proof.
  induction l as [|x l IH]; [intros []|]. rewrite concat_cons. destruct l as [|y l].
  - intros H. right. exists x. split; [now left | assumption].
  - rewrite chars_app. intros H. apply in_app_or in H. destruct H as [H|[H|H]].
    + right. exists x. split; [now left | assumption].
    + left. now symmetry.
    + destruct (IH H) as [|[z [Hz Hc]]]; [now left|]. right. exists z. split; [now right | assumption].
Qed.

Lemma render_no_at a : wf_arg a -> has_char "@" (render a) = false.
Proof.
  intros [_ F]. destruct (has_char "@" (render a)) eqn:E; [|reflexivity]. exfalso.
  apply has_char_In in E. unfold render in E. rewrite chars_app in E. apply in_app_or in E.
  destruct E as [E|E].
  - assert (G : forall n, ~ In "@"%char (chars (dotdots n))).
    { induction n as [|n IH]; simpl; [tauto | intuition discriminate]. }
    now apply G in E.
  - apply in_chars_concat in E. destruct E as [E|[x [Hx E]]]; [discriminate|].
    rewrite Forall_forall in F. now apply (F x Hx).
Qed.

Lemma normalized_path_spec args : Forall wf_arg args ->
  get_normalized_path (map render args) =
  match walk [] args with
  | None => PathIndexError
  | Some l => PathOk (String.concat "." l)
  end.
Proof.
  intros F. unfold get_normalized_path.
  assert (E1 : existsb (has_char "@") (map render args) = false).
  { destruct (existsb (has_char "@") (map render args)) eqn:E; [|reflexivity]. exfalso.
    apply existsb_exists in E. destruct E as [s [H1 H2]]. apply in_map_iff in H1.
    destruct H1 as [a [<- Ha]]. rewrite Forall_forall in F. rewrite render_no_at in H2; [discriminate | auto]. }
  rewrite E1.
  assert (E2 : flat_map (fun a => split_dot (replace_dotdot a)) (map render args)
               = flat_map (fun a => split_dot (replace_dotdot (render a))) args).
  { clear. induction args as [|a l IH]; simpl; [reflexivity | now rewrite IH]. }
  rewrite E2.
  assert (E3 : smem "" (flat_map (fun a => split_dot (replace_dotdot (render a))) args) = false).
  { apply smem_false. intros H. apply in_flat_map in H. destruct H as [a [Ha H]].
    rewrite Forall_forall in F. assert (W := F a Ha). rewrite split_render in H by assumption.
    destruct W as [N FC]. destruct (names a) as [|x r]; [destruct H|].
    inversion FC as [|? ? Cx Cr]; subst. destruct H as [H|H].
    - destruct Cx as [Nx _]. destruct (ups a); simpl in H; [congruence | discriminate].
    - rewrite Forall_forall in Cr. destruct (Cr _ H) as [Q _]. now apply Q. }
  rewrite E3. change ([] : list string) with (rev ([] : list string)) at 1.
  rewrite normalize_walk by assumption. reflexivity.
Qed.

Lemma go_up_components n l l' : Forall component l -> go_up n l = Some l' -> Forall component l'.
Proof.
  revert l. induction n as [|n IH]; intros l F; simpl; [now intros [= <-]|].
  destruct (rev l) as [|x r] eqn:E; [discriminate|]. apply IH.
  assert (Forall component (rev l)) by now apply Forall_rev. rewrite E in H.
  inversion H; subst. now apply Forall_rev.
Qed.

Lemma walk_components cur args l : Forall component cur -> Forall wf_arg args ->
  walk cur args = Some l -> Forall component l.
Proof.
  intros FC F. revert cur FC. induction F as [|a args [N Fa] F IH]; intros cur FC; simpl.
  - now intros [= <-].
  - destruct (go_up (ups a) cur) as [c|] eqn:E; [|discriminate]. apply IH.
    apply Forall_app. split; [eapply go_up_components; eauto | assumption].
Qed.

Lemma walk_nonempty cur args l : args <> [] -> Forall wf_arg args -> walk cur args = Some l -> l <> [].
Proof.
  intros N F. revert cur. induction F as [|a args [Na Fa] F IH]; intros cur; [congruence|]. simpl.
  destruct (go_up (ups a) cur) as [c|]; [|discriminate].
  destruct args as [|b args].
  - simpl. intros [= <-]. destruct (names a); [congruence|]. destruct c; discriminate.
  - apply IH. discriminate.
Qed.

Lemma normalized_idempotent args s : args <> [] -> Forall wf_arg args ->
  get_normalized_path (map render args) = PathOk s -> get_normalized_path [s] = PathOk s.
Proof.
  intros N F. rewrite normalized_path_spec by assumption.
  destruct (walk [] args) as [l|] eqn:E; [|discriminate]. intros [= <-].
  assert (Fl : Forall component l) by (eapply walk_components; eauto).
  assert (Nl : l <> []) by (eapply walk_nonempty; eauto).
  change [String.concat "." l] with (map render [mkArg 0 l]).
  rewrite normalized_path_spec; [reflexivity|]. repeat constructor; assumption.
Qed.

(** ** Nested containers *)
Fixpoint same_shape {A B} (x : nested A) (y : nested B) : Prop :=
  match x, y with
  | Leaf _, Leaf _ => True
  | Node l, Node m =>
      (fix go l m := match l, m with
                     | [], [] => True
                     | a :: l, b :: m => same_shape a b /\ go l m
                     | _, _ => False
                     end) l m
  | _, _ => False
  end.
Fixpoint same_shapes {A B} (l : list (nested A)) (m : list (nested B)) : Prop :=
  match l, m with
  | [], [] => True
  | a :: l, b :: m => same_shape a b /\ same_shapes l m
  | _, _ => False
  end.

Section NestedInd.
  Variable A : Type.
  Variable P : nested A -> Prop.
  Hypothesis HLeaf : forall a, P (Leaf a).
  Hypothesis HNode : forall l, Forall P l -> P (Node l).
  Fixpoint nested_ind' (x : nested A) : P x :=
    match x with
    | Leaf a => HLeaf a
    | Node l => HNode l ((fix go l : Forall P l :=
                            match l with
                            | [] => Forall_nil P
                            | y :: r => Forall_cons y (nested_ind' y) (go r)
                            end) l)
    end.
End NestedInd.

Lemma nest1_node {A} (l : list (nested A)) i :
  nest1 (Node l) i = (Node (fst (nest_list l i)), snd (nest_list l i)).
Proof.
  simpl.
  assert (G : forall l i, (fix go (l : list (nested A)) (i : nat) {struct l} :=
     match l with
     | [] => ([], i)
     | y :: r => let (y', i1) := nest1 y i in
                 let (r', i2) := go r i1 in (y' :: r', i2)
     end) l i = nest_list l i).
  { induction l0 as [|y r IH]; intros j; simpl; [reflexivity|].
    destruct (nest1 y j) as [y' i1]. now rewrite IH. }
  rewrite G. destruct (nest_list l i). reflexivity.
Qed.

Lemma nest_list_of {A} (l : list (nested A)) :
  Forall (fun x => forall i, flatten1 (fst (nest1 x i)) = seq i (length (flatten1 x)) /\
                             snd (nest1 x i) = i + length (flatten1 x) /\
                             same_shape x (fst (nest1 x i))) l ->
  forall i, flatten (fst (nest_list l i)) = seq i (length (flatten l)) /\
            snd (nest_list l i) = i + length (flatten l) /\
            same_shapes l (fst (nest_list l i)).
Proof.
  unfold flatten. induction 1 as [|x l Hx F IH]; intros i; simpl; [repeat split; lia|].
  destruct (Hx i) as [H1 [H2 H3]]. destruct (nest1 x i) as [x' i1]. simpl in *. subst i1.
  destruct (IH (i + length (flatten1 x))) as [H4 [H5 H6]].
  destruct (nest_list l (i + length (flatten1 x))) as [l' i2]. simpl in *.
  rewrite H1, H4, app_length, seq_app. repeat split; try assumption. lia.
Qed.

Lemma nest1_spec {A} (x : nested A) : forall i,
  flatten1 (fst (nest1 x i)) = seq i (length (flatten1 x)) /\
  snd (nest1 x i) = i + length (flatten1 x) /\
  same_shape x (fst (nest1 x i)).
Proof.
  induction x as [a|l F] using nested_ind'; intros i.
  - simpl. repeat split. lia.
  - rewrite nest1_node. cbn [fst snd]. destruct (nest_list_of l F i) as [H1 [H2 H3]].
    unfold flatten in *. cbn [flatten1]. split; [exact H1|]. split; [exact H2|].
    simpl. clear - H3. revert H3. generalize (fst (nest_list l i)) as m.
    induction l as [|a l IH]; intros [|b m]; simpl; try tauto.
    intros [H1 H2]. split; [assumption | now apply IH].
Qed.

Lemma convert_spec {A} (c : list (nested A)) :
  flatten (convert_to_nested_indices c) = seq 0 (length (flatten c)) /\
  same_shapes c (convert_to_nested_indices c).
Proof.
  unfold convert_to_nested_indices.
  assert (F : Forall (fun x => forall i, flatten1 (fst (nest1 x i)) = seq i (length (flatten1 x)) /\
                             snd (nest1 x i) = i + length (flatten1 x) /\
                             same_shape x (fst (nest1 x i))) c).
  { apply Forall_forall. intros x _. apply nest1_spec. }
  destruct (nest_list_of c F 0) as [H1 [_ H3]]. auto.
Qed.

(** Leaves of a nested container addressed by position paths. *)
Inductive leaf_pos {A} : list (nested A) -> list nat -> A -> Prop :=
| lp_leaf c n a : nth_error c n = Some (Leaf a) -> leaf_pos c [n] a
| lp_node c n l p a : nth_error c n = Some (Node l) -> leaf_pos l p a -> leaf_pos c (n :: p) a.

(** The index stored at a position is the rank of the element in flatten. *)
Lemma leaf_pos_index {A} (c : list (nested A)) p a i0 :
  leaf_pos c p a ->
  exists i, leaf_pos (fst (nest_list c i0)) p (i0 + i) /\ nth_error (flatten c) i = Some a.
Proof.
  intros H. revert i0. induction H as [c n a H|c n l p a H L IH]; intros i0.
  - revert n i0 H. induction c as [|x c IHc]; intros [|n] i0 H; simpl in H; try discriminate.
    + injection H as ->. exists 0. simpl. destruct (nest_list c (S i0)) eqn:E. simpl.
      split; [constructor; simpl; now rewrite Nat.add_0_r | reflexivity].
    + simpl. destruct (nest1_spec x i0) as [_ [H2 _]]. destruct (nest1 x i0) as [x' i1]. simpl in H2. subst i1.
      destruct (IHc n (i0 + length (flatten1 x)) H) as [i [L1 L2]].
      destruct (nest_list c (i0 + length (flatten1 x))) as [r' i2]. simpl in *.
      exists (length (flatten1 x) + i). split.
      * constructor. simpl. rewrite Nat.add_assoc. inversion L1; subst; [assumption|].
        match goal with K : leaf_pos _ [] _ |- _ => inversion K end.
      * unfold flatten in *. simpl. rewrite nth_error_app2 by lia. now rewrite Nat.add_comm, Nat.add_sub.
  - revert n i0 H. induction c as [|x c IHc]; intros [|n] i0 H; simpl in H; try discriminate.
    + injection H as ->. destruct (IH i0) as [i [L1 L2]]. exists i. cbn [nest_list].
      rewrite nest1_node. destruct (nest_list c (snd (nest_list l i0))) eqn:E. cbn [fst]. split.
      * econstructor; [reflexivity | exact L1].
      * unfold flatten in *. simpl. rewrite nth_error_app1; [assumption|].
        apply nth_error_Some. congruence.
    + simpl. destruct (nest1_spec x i0) as [_ [H2 _]]. destruct (nest1 x i0) as [x' i1]. simpl in H2. subst i1.
      destruct (IHc n (i0 + length (flatten1 x)) H) as [i [L1 L2]].
      destruct (nest_list c (i0 + length (flatten1 x))) as [r' i2]. simpl in *.
      exists (length (flatten1 x) + i). split.
      * rewrite Nat.add_assoc. inversion L1; subst.
        -- inversion L.
        -- econstructor; [simpl; eassumption | assumption].
      * unfold flatten in *. simpl. rewrite nth_error_app2 by lia. now rewrite Nat.add_comm, Nat.add_sub.
Qed.

Lemma convert_positions {A} (c : list (nested A)) p a :
  leaf_pos c p a ->
  exists i, leaf_pos (convert_to_nested_indices c) p i /\ nth_error (flatten c) i = Some a.
Proof. intros H. exact (leaf_pos_index c p a 0 H). Qed.

(** ** Nested dictionaries *)
Inductive leaf_at {V} : dtree V -> list string -> V -> Prop :=
| la_leaf d k v : In (k, DLeaf v) d -> leaf_at (DDict d) [k] v
| la_dict d k d' p v : In (k, DDict d') d -> leaf_at (DDict d') p v -> leaf_at (DDict d) (k :: p) v.

(** All keys are dot-free (non-empty or not) and no key occurs twice. *)
Inductive wf_tree {V} : dtree V -> Prop :=
| wf_leaf v : wf_tree (DLeaf v)
| wf_dict d : NoDup (dkeys d) ->
    (forall k t, In (k, t) d -> ~ In "."%char (chars k) /\ wf_tree t) -> wf_tree (DDict d).

Section DtreeInd.
  Variable V : Type.
  Variable P : dtree V -> Prop.
  Hypothesis HLeaf : forall a, P (DLeaf a).
  Hypothesis HDict : forall l, Forall (fun it => P (snd it)) l -> P (DDict l).
  Fixpoint dtree_ind' (x : dtree V) : P x :=
    match x with
    | DLeaf a => HLeaf a
    | DDict l => HDict l ((fix go l : Forall (fun it => P (snd it)) l :=
                            match l with
                            | [] => Forall_nil _
                            | y :: r => Forall_cons y (dtree_ind' (snd y)) (go r)
                            end) l)
    end.
End DtreeInd.

Lemma leaf_at_nonempty {V} (t : dtree V) p v : leaf_at t p v -> p <> [].
Proof. destruct 1; discriminate. Qed.

Lemma flatten_keys_spec {V} (t : dtree V) s :
  In s (flatten_keys t) <-> exists p v, leaf_at t p v /\ s = String.concat "." p.
Proof.
  unfold flatten_keys. revert s. induction t as [v|d F] using dtree_ind'; intros s.
  - simpl. split; [tauto|]. intros [p [v' [H _]]]. inversion H.
  - cbn [flatten_keys_items]. rewrite in_flat_map. rewrite Forall_forall in F. split.
    + intros [[k t] [I H]]. simpl in H. destruct t as [v|d'].
      * destruct H as [<-|[]]. exists [k], v. split; [now constructor | reflexivity].
      * apply in_map_iff in H. destruct H as [x [<- H]].
        apply (F (k, DDict d') I) in H. destruct H as [p [v [L ->]]].
        exists (k :: p), v. split; [econstructor; eauto|].
        rewrite concat_cons. apply leaf_at_nonempty in L. destruct p; [congruence | reflexivity].
    + intros [p [v [L ->]]]. inversion L as [? k ? I|? k d' p' ? I L']; subst.
      * exists (k, DLeaf v). split; [assumption | now left].
      * exists (k, DDict d'). split; [assumption|]. simpl snd. simpl fst.
        apply in_map_iff. exists (String.concat "." p'). split.
        -- rewrite concat_cons. apply leaf_at_nonempty in L'. destruct p'; [congruence | reflexivity].
        -- apply (F (k, DDict d') I). eauto.
Qed.

Lemma get_by_path_leaf {V} (t : dtree V) p v :
  wf_tree t -> leaf_at t p v -> get_by_path t (String.concat "." p) = Some (DLeaf v).
Proof.
  intros W L. unfold get_by_path. revert W. induction L as [d k v I|d k d' p v I L IH]; intros W.
  - inversion W as [|? ND H]; subst. destruct (H _ _ I) as [Hk _].
    simpl. rewrite split_dot_nodot by assumption. simpl.
    now rewrite (In_dget _ _ _ ND I).
  - inversion W as [|? ND H]; subst. destruct (H _ _ I) as [Hk Wd].
    rewrite concat_cons. assert (N := leaf_at_nonempty _ _ _ L). destruct p as [|x p]; [congruence|].
    change (k ++ "." ++ String.concat "." (x :: p))%string with (k ++ String "." (String.concat "." (x :: p)))%string.
    rewrite split_dot_app by assumption. cbn [get_by_parts].
    rewrite (In_dget _ _ _ ND I). apply IH, Wd.
Qed.
