(** Proofs for LayoutModel.v: the layout of the backward buffers mirrors the
    layout of the forward buffers (C12). *)
From Coq Require Import String Ascii List Arith Bool Lia Permutation Relations Sorted.
From Verif Require Import PyBase PyFacts UtilsModel UtilsProofs HubModel HubProofs LayoutModel.
Import ListNotations.
Open Scope string_scope.
Open Scope list_scope.
Open Scope nat_scope.

(** ** Paths *)
Lemma split_path3 a b c : component a -> component b -> component c ->
  split_dot (path3 a b c) = [a; b; c].
Proof. intros A B C. unfold path3. apply split_concat; [auto | discriminate]. Qed.
Lemma split2_path3 a b c : component a -> component b -> component c ->
  split2 (path3 a b c) = Some (a, b, c).
Proof. intros A B C. unfold split2. now rewrite split_path3. Qed.
Lemma path3_inj a b c a' b' c' : component a -> component b -> component c ->
  component a' -> component b' -> component c' ->
  path3 a b c = path3 a' b' c' -> a = a' /\ b = b' /\ c = c'.
Proof.
  intros. assert (X : split2 (path3 a b c) = split2 (path3 a' b' c')) by congruence.
  rewrite !split2_path3 in X by assumption. injection X; auto.
Qed.

Definition categories := ["inputs"; "outputs"; "parameters"; "internals"; "input_deltas"; "output_deltas"; "gradients"].
Lemma dec_component s :
  negb (String.eqb s "") && forallb (fun c => negb (Ascii.eqb c "."%char) && negb (Ascii.eqb c "@"%char)) (chars s) = true ->
  component s.
Proof.
  intros H. apply andb_true_iff in H. destruct H as [H1 H2]. rewrite forallb_forall in H2.
  split; [intros ->; discriminate|]. split; intros X; specialize (H2 _ X); discriminate.
Qed.
Lemma category_component c : In c categories -> component c.
Proof. intros H. apply dec_component. simpl in H. intuition subst; reflexivity. Qed.
Local Hint Resolve category_component : core.
Ltac cat := apply category_component; simpl; tauto.

Lemma npath3 a b c : component a -> component b -> component c ->
  npath [a; b; c] = LOk (path3 a b c).
Proof.
  intros A B C. unfold npath.
  assert (X := normalized_path_spec [mkArg 0 [a]; mkArg 0 [b]; mkArg 0 [c]]).
  cbn [map] in X. unfold render in X. simpl in X. rewrite X; [reflexivity|].
  repeat constructor; try discriminate; simpl; intros; apply A || apply B || apply C.
Qed.
(** [output_name] = "..category.x" *)
Definition dotdot_path (category x : string) : string := (".." ++ category ++ "." ++ x)%string.
Lemma npath_dotdot a b c x : component a -> component b -> component c -> component x ->
  npath [a; b; dotdot_path c x] = LOk (path3 a c x).
Proof.
  intros A B C X. unfold npath.
  assert (Y := normalized_path_spec [mkArg 0 [a]; mkArg 0 [b]; mkArg 1 [c; x]]).
  cbn [map] in Y. unfold render in Y. simpl in Y. unfold dotdot_path. simpl. rewrite Y; [reflexivity|].
  repeat constructor; try discriminate; simpl; intros; apply A || apply B || apply C || apply X.
Qed.

(** ** Specification side *)
(** The buffer a connection starts from, as (category, name). *)
Inductive out_ref : string -> string * string -> Prop :=
| out_output x : component x -> out_ref x ("outputs", x)
| out_internal x : component x -> out_ref (dotdot_path "internals" x) ("internals", x)
| out_parameter x : component x -> out_ref (dotdot_path "parameters" x) ("parameters", x).

Definition names_ok (d : list (string * lstruct)) : Prop :=
  NoDup (map fst d) /\ Forall component (map fst d).
Definition category_of (l : layer) (c : string) : list (string * lstruct) :=
  if String.eqb c "inputs" then l_in l
  else if String.eqb c "outputs" then l_out l
  else if String.eqb c "parameters" then l_params l
  else if String.eqb c "internals" then l_int l else [].

(** Layers as they come from instantiate_layers_from_architecture. *)
Record wf_layers (layers : list layer) : Prop := {
  wf_names : NoDup (map l_name layers);
  wf_name : forall l, In l layers -> component (l_name l);
  wf_in : forall l, In l layers -> names_ok (l_in l);
  wf_out : forall l, In l layers -> names_ok (l_out l);
  wf_params : forall l, In l layers -> names_ok (l_params l);
  wf_int : forall l, In l layers -> names_ok (l_int l);
  (* connections leave their layer from an existing buffer and end at an
     existing input *)
  wf_conn : forall l c, In l layers -> In c (l_outgoing l) ->
    c_start c = l_name l /\
    (exists cat x, out_ref (c_output c) (cat, x) /\ In x (map fst (category_of l cat))) /\
    (exists l', In l' layers /\ c_end c = l_name l' /\ In (c_input c) (map fst (l_in l')));
  (* if the internal X is connected, then its delta buffer dX has the same
     shape and is not itself connected as a forward buffer *)
  wf_delta : forall l c x st, In l layers -> In c (l_outgoing l) ->
    out_ref (c_output c) ("internals", x) -> In (x, st) (l_int l) ->
    component ("d" ++ x)%string /\
    (forall st', In (("d" ++ x)%string, st') (l_int l) -> ls_btype st' = ls_btype st /\ ls_feat st' = ls_feat st) /\
    forall c', In c' (l_outgoing l) -> ~ out_ref (c_output c') ("internals", ("d" ++ x)%string)
}.

(** The delta buffer of a forward buffer. *)
Definition mirror (s : string) : string :=
  match split2 s with
  | Some (a, b, c) =>
      if String.eqb b "internals" then path3 a b ("d" ++ c)
      else match back_buffer_name b with Some b' => path3 a b' c | None => s end
  | None => "gradients"
  end.
Definition mirror_node (n : node) : node :=
  match n with Single s => Single (mirror s) | Group l => Group (map mirror l) end.

Lemma mirror_inputs a x : component a -> component x -> mirror (path3 a "inputs" x) = path3 a "input_deltas" x.
Proof. intros A X. unfold mirror. rewrite split2_path3 by (assumption || cat). reflexivity. Qed.
Lemma mirror_outputs a x : component a -> component x -> mirror (path3 a "outputs" x) = path3 a "output_deltas" x.
Proof. intros A X. unfold mirror. rewrite split2_path3 by (assumption || cat). reflexivity. Qed.
Lemma mirror_parameters a x : component a -> component x -> mirror (path3 a "parameters" x) = path3 a "gradients" x.
Proof. intros A X. unfold mirror. rewrite split2_path3 by (assumption || cat). reflexivity. Qed.
Lemma mirror_internals a x : component a -> component x -> mirror (path3 a "internals" x) = path3 a "internals" ("d" ++ x).
Proof. intros A X. unfold mirror. rewrite split2_path3 by (assumption || cat). reflexivity. Qed.
Lemma mirror_root : mirror "parameters" = "gradients".
Proof. reflexivity. Qed.

Lemma path3_not_root a b c r : component a -> component b -> component c ->
  split2 r = None -> path3 a b c <> r.
Proof. intros A B C R <-. rewrite split2_path3 in R by assumption. discriminate. Qed.

(** ** Collecting *)
Lemma collect_ok {A B} (f : A -> lres (list B)) (g : A -> list B) l :
  (forall x, In x l -> f x = LOk (g x)) -> collect f l = LOk (flat_map g l).
Proof.
  induction l as [|x l IH]; intros H; simpl; [reflexivity|].
  rewrite H by now left. rewrite IH; [reflexivity|]. intros y Hy. apply H. now right.
Qed.
Lemma collect_inv {A B} (f : A -> lres (list B)) l ys : collect f l = LOk ys ->
  forall y, In y ys <-> exists x zs, In x l /\ f x = LOk zs /\ In y zs.
Proof.
  revert ys. induction l as [|x l IH]; simpl; intros ys H y.
  - injection H as <-. split; [intros [] | intros [x [_ [[] _]]]].
  - destruct (f x) as [zs|] eqn:E; [|discriminate]. destruct (collect f l) as [rs|]; [|discriminate].
    injection H as <-. rewrite in_app_iff, (IH rs eq_refl). split.
    + intros [H|[x' [zs' [H1 H2]]]]; [exists x, zs; auto | exists x', zs'; auto].
    + intros [x' [zs' [[<-|H1] [H2 H3]]]]; [left; congruence | right; eauto].
Qed.
Lemma collect_each {A B} (f : A -> lres (list B)) l ys : collect f l = LOk ys ->
  forall x, In x l -> exists zs, f x = LOk zs.
Proof.
  revert ys. induction l as [|a l IH]; simpl; intros ys H x Hx; [destruct Hx|].
  destruct (f a) as [zs|] eqn:E; [|discriminate]. destruct (collect f l) as [rs|]; [|discriminate].
  destruct Hx as [<-|Hx]; eauto.
Qed.

Lemma flat_map_single {A B} (g : A -> B) l : flat_map (fun x => [g x]) l = map g l.
Proof. induction l as [|x l IH]; simpl; [reflexivity | now rewrite IH]. Qed.

(** ** Order of paths *)
Lemma ascii_compare_refl c : Ascii.compare c c = Eq.
Proof. unfold Ascii.compare. apply BinNat.N.compare_refl. Qed.
Lemma string_leb_prefix p a b : String.leb (p ++ a)%string (p ++ b)%string = String.leb a b.
Proof.
  unfold String.leb. replace (String.compare (p ++ a) (p ++ b)) with (String.compare a b); [reflexivity|].
  induction p as [|c p IH]; simpl; [reflexivity|]. now rewrite ascii_compare_refl.
Qed.
Lemma string_leb_layers l k x y : l <> k -> ~ In "."%char (chars l) -> ~ In "."%char (chars k) ->
  String.leb (l ++ "." ++ x)%string (k ++ "." ++ y)%string = String.leb (l ++ ".")%string (k ++ ".")%string.
Proof.
  unfold String.leb. intros N Dl Dk.
  replace (String.compare (l ++ "." ++ x) (k ++ "." ++ y)) with (String.compare (l ++ ".") (k ++ ".")); [reflexivity|].
  revert k N Dk. induction l as [|c l IH]; intros [|d k] N Dk; simpl; try congruence.
  - destruct (Ascii.compare "." d) eqn:E; try reflexivity. apply Ascii.compare_eq_iff in E. subst d.
    exfalso. apply Dk. now left.
  - destruct (Ascii.compare c ".") eqn:E; try reflexivity. apply Ascii.compare_eq_iff in E. subst c.
    exfalso. apply Dl. now left.
  - destruct (Ascii.compare c d) eqn:E; try reflexivity. apply Ascii.compare_eq_iff in E. subst d.
    apply IH; [intros H; apply Dl; now right | congruence | intros H; apply Dk; now right].
Qed.
Lemma path3_app a b c : path3 a b c = (a ++ "." ++ b ++ "." ++ c)%string.
Proof. reflexivity. Qed.

Lemma strings_leb_refl l : strings_leb l l = true.
Proof. induction l as [|x l IH]; simpl; [reflexivity|]. now rewrite String.eqb_refl. Qed.
Lemma strings_leb_total a b : strings_leb a b = true \/ strings_leb b a = true.
Proof.
  revert b. induction a as [|x a IH]; intros [|y b]; simpl; auto.
  destruct (String.eqb_spec x y) as [->|N].
  - rewrite String.eqb_refl. apply IH.
  - destruct (String.eqb_spec y x) as [->|_]; [congruence|]. apply String.leb_total.
Qed.
Lemma string_leb_antisym x y : String.leb x y = true -> String.leb y x = true -> x = y.
Proof. apply String.leb_antisym. Qed.
Lemma strings_leb_trans a b c : strings_leb a b = true -> strings_leb b c = true -> strings_leb a c = true.
Proof.
  revert b c. induction a as [|x a IH]; intros [|y b] [|z c]; simpl; try congruence; auto.
  destruct (String.eqb_spec x y) as [->|N1].
  - destruct (String.eqb_spec y z) as [->|N2]; [apply IH | auto].
  - destruct (String.eqb_spec y z) as [->|N2].
    + destruct (String.eqb_spec x z); [congruence | auto].
    + intros H1 H2. destruct (String.eqb_spec x z) as [->|N3].
      * exfalso. apply N1. now apply string_leb_antisym.
      * eapply string_leb_trans; eauto.
Qed.
Lemma strings_leb_antisym a b : strings_leb a b = true -> strings_leb b a = true -> a = b.
Proof.
  revert b. induction a as [|x a IH]; intros [|y b]; simpl; try congruence.
  destruct (String.eqb_spec x y) as [->|N].
  - rewrite String.eqb_refl. intros. f_equal. auto.
  - destruct (String.eqb_spec y x) as [->|_]; [congruence|]. intros H1 H2. exfalso. apply N.
    now apply string_leb_antisym.
Qed.

(** Sorting commutes with order-preserving maps. *)
Lemma isort_map_in {A B} (f : A -> B) (la : A -> A -> bool) (lb : B -> B -> bool) l :
  (forall x y, In x l -> In y l -> lb (f x) (f y) = la x y) ->
  isort lb (map f l) = map f (isort la l).
Proof.
  intros H. unfold isort. induction l as [|x l IH]; simpl; [reflexivity|].
  rewrite IH by (intros; apply H; now right).
  assert (P : forall y, In y (fold_right (insert la) [] l) -> In y l).
  { intros y. apply (isort_In la). }
  revert P. generalize (fold_right (insert la) [] l) as m. intros m P.
  induction m as [|y m IHm]; simpl; [reflexivity|].
  rewrite H; [|now left | right; apply P; now left].
  destruct (la x y); [reflexivity|]. simpl. f_equal. apply IHm. intros z Hz. apply P. now right.
Qed.
(** Sorting by a total order: the result only depends on the elements. *)
Lemma isort_nodes_perm l1 l2 : same_kind l1 -> Permutation l1 l2 -> isort node_leb l1 = isort node_leb l2.
Proof.
  intros K P.
  assert (T : forall l, StronglySorted (fun a b => node_leb a b = true) (isort node_leb l)).
  { intros l. apply isort_sorted; unfold node_leb; intros; [apply strings_leb_total | eapply strings_leb_trans; eauto]. }
  assert (E : map node_flat (isort node_leb l1) = map node_flat (isort node_leb l2)).
  { apply (sorted_unique strings_leb).
    - intros x y. apply strings_leb_antisym.
    - clear - T. specialize (T l1). induction T as [|a r S IH F]; simpl; constructor; [assumption|].
      rewrite Forall_forall in *. intros y Hy. apply in_map_iff in Hy. destruct Hy as [z [<- Hz]]. now apply F.
    - clear - T. specialize (T l2). induction T as [|a r S IH F]; simpl; constructor; [assumption|].
      rewrite Forall_forall in *. intros y Hy. apply in_map_iff in Hy. destruct Hy as [z [<- Hz]]. now apply F.
    - apply Permutation_map. rewrite !isort_perm. exact P. }
  assert (Hk : forall a b, In a (isort node_leb l1) -> In b (isort node_leb l2) -> node_flat a = node_flat b -> a = b).
  { intros a b Ha Hb Ef. apply (proj1 (isort_In _ _ _)) in Ha. apply (proj1 (isort_In _ _ _)) in Hb.
    apply (Permutation_in _ (Permutation_sym P)) in Hb.
    destruct K as [K|K]; assert (Ka := K a Ha); assert (Kb := K b Hb); destruct a, b; simpl in *; congruence. }
  revert E Hk. generalize (isort node_leb l1) (isort node_leb l2). clear.
  induction l as [|a l IH]; intros [|b m] E Hk; try discriminate; [reflexivity|]. simpl in E. injection E as E1 E2.
  f_equal; [apply Hk; [now left | now left | assumption]|]. apply IH; [assumption|].
  intros x y Hx Hy. apply Hk; now right.
Qed.

Lemma find_ext {A} (f g : A -> bool) l : (forall x, In x l -> f x = g x) -> find f l = find g l.
Proof.
  induction l as [|x l IH]; intros H; simpl; [reflexivity|]. rewrite H by now left.
  destruct (g x); [reflexivity|]. apply IH. intros y Hy. apply H. now right.
Qed.

Lemma NoDup_flat_map_tag {A B C} (f : A -> list B) (tag : B -> C) (ta : A -> C) l :
  NoDup (map ta l) -> (forall x, In x l -> NoDup (f x)) ->
  (forall x y, In x l -> In y (f x) -> tag y = ta x) -> NoDup (flat_map f l).
Proof.
  induction l as [|x l IH]; simpl; intros N F T; [constructor|]. inversion N as [|? ? N1 N2]; subst.
  assert (R : NoDup (flat_map f l)) by (apply IH; [assumption | intros; apply F; now right | intros; apply T; [now right | assumption]]).
  assert (D : forall y, In y (f x) -> ~ In y (flat_map f l)).
  { intros y H1 H2. apply in_flat_map in H2. destruct H2 as [z [Hz H2]]. apply N1.
    rewrite <- (T x y (or_introl eq_refl) H1), (T z y (or_intror Hz) H2). now apply in_map. }
  assert (Fx := F x (or_introl eq_refl)). induction Fx as [|y ys N3 N4 IHf]; simpl; [assumption|].
  constructor.
  - rewrite in_app_iff. intros [H|H]; [contradiction|]. apply (D y); [now left | assumption].
  - destruct (f x); (apply IHf || idtac); intros; apply D; now right.
Qed.

(** ** Connections *)
Section WF.
  Variable layers : list layer.
  Hypothesis W : wf_layers layers.

  Lemma name_comp l : In l layers -> component (l_name l).
  Proof. apply W. Qed.
  Lemma names_comp d x : names_ok d -> In x (map fst d) -> component x.
  Proof. intros [_ F]. rewrite Forall_forall in F. auto. Qed.

  (** Forward buffers: everything with a delta buffer. *)
  Inductive fwd : string -> Prop :=
  | fwd_in l x : In l layers -> In x (map fst (l_in l)) -> fwd (path3 (l_name l) "inputs" x)
  | fwd_out l x : In l layers -> In x (map fst (l_out l)) -> fwd (path3 (l_name l) "outputs" x)
  | fwd_par l x : In l layers -> In x (map fst (l_params l)) -> fwd (path3 (l_name l) "parameters" x)
  | fwd_int l c x : In l layers -> In c (l_outgoing l) -> out_ref (c_output c) ("internals", x) ->
      In x (map fst (l_int l)) -> fwd (path3 (l_name l) "internals" x).
  Definition fwd_sink (t : string) : Prop :=
    t = "parameters" \/ exists l x, In l layers /\ In x (map fst (l_in l)) /\ t = path3 (l_name l) "inputs" x.

  (** The forward connections. *)
  Inductive fcon : string * string -> Prop :=
  | fcon_con l c cat x : In l layers -> In c (l_outgoing l) -> out_ref (c_output c) (cat, x) ->
      fcon (path3 (l_name l) cat x, path3 (c_end c) "inputs" (c_input c))
  | fcon_par l x : In l layers -> In x (map fst (l_params l)) ->
      fcon (path3 (l_name l) "parameters" x, "parameters").

  Lemma out_ref_comp s cat x : out_ref s (cat, x) -> component x /\ In cat ["outputs"; "internals"; "parameters"].
  Proof. intros H. inversion H; subst; simpl; tauto. Qed.
  Lemma dotdot_component c x : ~ component (dotdot_path c x).
  Proof. intros [_ [H _]]. apply H. unfold dotdot_path. simpl. now left. Qed.
  Lemma string_app_inj_mid c c' x x' : component c -> component c' ->
    (c ++ "." ++ x = c' ++ "." ++ x')%string -> c = c' /\ x = x'.
  Proof.
    intros [_ [C _]] [_ [C' _]]. revert c' C'. induction c as [|a c IH]; intros [|b c'] C' H; simpl in H.
    - split; congruence.
    - exfalso. injection H as <- H. apply C'. now left.
    - exfalso. injection H as -> H. apply C. now left.
    - injection H as -> H. destruct (IH ltac:(intros X; apply C; now right) c' ltac:(intros X; apply C'; now right)) as [-> ->]; auto.
  Qed.
  Lemma out_ref_fun s p q : out_ref s p -> out_ref s q -> p = q.
  Proof.
    intros H1 H2. inversion H1 as [x Cx|x Cx|x Cx]; subst; inversion H2 as [y Cy E|y Cy E|y Cy E]; subst; try reflexivity;
      try (exfalso; eapply dotdot_component; eassumption);
      unfold dotdot_path in E; simpl in E; injection E as E;
      try (f_equal; congruence); try discriminate.
  Qed.

  Lemma fcon_fwd s t : fcon (s, t) -> fwd s /\ fwd_sink t.
  Proof.
    intros H. inversion H as [l c cat x Hl Hc Ho|l x Hl Hx]; subst.
    - destruct (wf_conn _ W l c Hl Hc) as [_ [[cat' [x' [Ho' Hx]]] [l' [Hl' [-> Hi]]]]].
      assert (X := out_ref_fun _ _ _ Ho Ho'). injection X as <- <-. split.
      + inversion Ho; subst; simpl in Hx.
        * now constructor.
        * econstructor; eauto.
        * now constructor.
      + right. eauto.
    - split; [now constructor | now left].
  Qed.

  Lemma get_connections_spec cns : get_connections layers = LOk cns ->
    forall s t, In (s, t) cns <-> fcon (s, t) \/ exists s' t', fcon (s', t') /\ s = mirror s' /\ t = mirror t'.
  Proof.
    unfold get_connections.
    destruct (collect _ layers) as [cs|] eqn:E1; [|discriminate].
    destruct (collect param_connections layers) as [ps|] eqn:E2; [|discriminate]. intros [= <-] s t.
    assert (Hps : forall y, In y ps <-> exists l x, In l layers /\ In x (map fst (l_params l)) /\
              (y = (path3 (l_name l) "parameters" x, "parameters") \/ y = (path3 (l_name l) "gradients" x, "gradients"))).
    { intros y. rewrite (collect_inv _ _ _ E2 y). split.
      - intros [l [zs [Hl [Hz Hy]]]]. unfold param_connections in Hz.
        rewrite (collect_inv _ _ _ Hz y) in Hy. destruct Hy as [[x st] [ws [Hx [Hw Hy]]]]. simpl in Hw.
        assert (Cx : component x).
        { apply (names_comp (l_params l)); [now apply W | now apply (in_map fst) in Hx]. }
        rewrite !npath3 in Hw by (assumption || cat || now apply name_comp). injection Hw as <-.
        exists l, x. split; [assumption|]. split; [now apply (in_map fst) in Hx|].
        destruct Hy as [<-|[<-|[]]]; auto.
      - intros [l [x [Hl [Hx Hy]]]]. exists l.
        destruct (collect_each _ _ _ E2 l Hl) as [zs Hz]. exists zs. split; [assumption|]. split; [assumption|].
        unfold param_connections in Hz. rewrite (collect_inv _ _ _ Hz y).
        assert (Cx : component x) by (apply (names_comp (l_params l)); [now apply W | assumption]).
        apply in_map_iff in Hx. destruct Hx as [[x' st] [<- Hx]]. simpl in Cx.
        eexists (x', st), _. split; [assumption|]. simpl.
        rewrite !npath3 by (assumption || cat || now apply name_comp). split; [reflexivity|].
        destruct Hy as [->| ->]; simpl; auto. }
    assert (Hcs : forall y, In y cs <-> exists l c cat x, In l layers /\ In c (l_outgoing l) /\ out_ref (c_output c) (cat, x) /\
              (y = (path3 (l_name l) cat x, path3 (c_end c) "inputs" (c_input c)) \/
               y = (mirror (path3 (l_name l) cat x), mirror (path3 (c_end c) "inputs" (c_input c))))).
    { assert (Hcon : forall l c cat x zs, In l layers -> In c (l_outgoing l) -> out_ref (c_output c) (cat, x) ->
                con_connections l c = LOk zs ->
                zs = [(path3 (l_name l) cat x, path3 (c_end c) "inputs" (c_input c));
                      (mirror (path3 (l_name l) cat x), mirror (path3 (c_end c) "inputs" (c_input c)))]).
      { intros l c cat x zs Hl Hc Ho H.
        destruct (wf_conn _ W l c Hl Hc) as [Es [_ [l' [Hl' [Ee Hi]]]]].
        assert (Cl := name_comp l Hl). assert (Cl' := name_comp l' Hl').
        assert (Ci : component (c_input c)) by (apply (names_comp (l_in l')); [now apply W | assumption]).
        destruct (out_ref_comp _ _ _ Ho) as [Cx Hcat].
        assert (Ccat : component cat) by (simpl in Hcat; intuition subst; cat).
        unfold con_connections in H. rewrite Es, Ee in H.
        assert (N : npath [l_name l; "outputs"; c_output c] = LOk (path3 (l_name l) cat x)).
        { inversion Ho as [y Cy E|y Cy E|y Cy E]; subst.
          - apply npath3; assumption || cat.
          - apply npath_dotdot; assumption || cat.
          - apply npath_dotdot; assumption || cat. }
        rewrite N, npath3 in H by (assumption || cat). unfold get_backward_connection in H.
        rewrite !split2_path3 in H by (assumption || cat). simpl in H.
        rewrite Ee. rewrite mirror_inputs by assumption. unfold mirror.
        rewrite split2_path3 by (assumption || cat).
        destruct (String.eqb cat "internals") eqn:Ei.
        - apply String.eqb_eq in Ei. subst cat.
          change (match dmem (String "d" x) (l_int l) with true => LOk (path3 (l_name l) "internals" (String "d" x), path3 (l_name l') "input_deltas" (c_input c)) | false => LErr EKey end)
            with (if dmem (String "d" x) (l_int l) then LOk (path3 (l_name l) "internals" (String "d" x), path3 (l_name l') "input_deltas" (c_input c)) else LErr EKey) in H.
          destruct (dmem (String "d" x) (l_int l)); [|discriminate]. injection H as <-. reflexivity.
        - destruct (back_buffer_name cat) as [b|]; [|discriminate]. injection H as <-. reflexivity. }
      intros y. rewrite (collect_inv _ _ _ E1 y). split.
      - intros [l [zs [Hl [Hz Hy]]]]. rewrite (collect_inv _ _ _ Hz y) in Hy.
        destruct Hy as [c [ws [Hc [Hw Hy]]]].
        destruct (wf_conn _ W l c Hl Hc) as [_ [[cat [x [Ho _]]] _]].
        rewrite (Hcon l c cat x ws Hl Hc Ho Hw) in Hy.
        exists l, c, cat, x. split; [assumption|]. split; [assumption|]. split; [assumption|].
        destruct Hy as [<-|[<-|[]]]; auto.
      - intros [l [c [cat [x [Hl [Hc [Ho Hy]]]]]]].
        destruct (collect_each _ _ _ E1 l Hl) as [zs Hz]. exists l, zs. split; [assumption|]. split; [assumption|].
        rewrite (collect_inv _ _ _ Hz y). destruct (collect_each _ _ _ Hz c Hc) as [ws Hw].
        exists c, ws. split; [assumption|]. split; [assumption|].
        rewrite (Hcon l c cat x ws Hl Hc Ho Hw). destruct Hy as [->| ->]; simpl; auto. }
    rewrite isort_In, in_app_iff, Hcs, Hps. split.
    - intros [[l [c [cat [x [Hl [Hc [Ho [E|E]]]]]]]]|[l [x [Hl [Hx [E|E]]]]]].
      + left. rewrite E. econstructor; eauto.
      + right. injection E as -> ->. eexists _, _. split; [eapply fcon_con; eauto | auto].
      + left. rewrite E. now constructor.
      + right. injection E as -> ->. exists (path3 (l_name l) "parameters" x), "parameters". split; [now constructor|].
        split; [|reflexivity]. rewrite mirror_parameters; [reflexivity | now apply name_comp|].
        apply (names_comp (l_params l)); [now apply W | assumption].
    - intros [H|[s' [t' [H [-> ->]]]]].
      + inversion H as [l c cat x Hl Hc Ho|l x Hl Hx]; subst.
        * left. exists l, c, cat, x. auto.
        * right. exists l, x. auto.
      + inversion H as [l c cat x Hl Hc Ho|l x Hl Hx]; subst.
        * left. exists l, c, cat, x. auto.
        * right. exists l, x. split; [assumption|]. split; [assumption|]. right.
          rewrite mirror_parameters; [reflexivity | now apply name_comp|].
          apply (names_comp (l_params l)); [now apply W | assumption].
  Qed.

  (** ** The mirror *)
  Lemma fwd_inv s : fwd s -> exists l cat x cat' x',
    In l layers /\ component x /\ component x' /\ s = path3 (l_name l) cat x /\
    mirror s = path3 (l_name l) cat' x' /\
    ((cat, cat') = ("inputs", "input_deltas") /\ x' = x /\ In x (map fst (l_in l)) \/
     (cat, cat') = ("outputs", "output_deltas") /\ x' = x /\ In x (map fst (l_out l)) \/
     (cat, cat') = ("parameters", "gradients") /\ x' = x /\ In x (map fst (l_params l)) \/
     (cat, cat') = ("internals", "internals") /\ x' = ("d" ++ x)%string /\ In x (map fst (l_int l)) /\
       exists c, In c (l_outgoing l) /\ out_ref (c_output c) ("internals", x)).
  Proof.
    intros H. inversion H as [l x Hl Hx|l x Hl Hx|l x Hl Hx|l c x Hl Hc Ho Hx]; subst.
    - assert (C : component x) by (apply (names_comp (l_in l)); [now apply W | assumption]).
      exists l, "inputs", x, "input_deltas", x. rewrite mirror_inputs by auto using name_comp.
      split; [assumption|]. split; [assumption|]. split; [assumption|]. split; [reflexivity|]. split; [reflexivity|]. tauto.
    - assert (C : component x) by (apply (names_comp (l_out l)); [now apply W | assumption]).
      exists l, "outputs", x, "output_deltas", x. rewrite mirror_outputs by auto using name_comp.
      split; [assumption|]. split; [assumption|]. split; [assumption|]. split; [reflexivity|]. split; [reflexivity|]. tauto.
    - assert (C : component x) by (apply (names_comp (l_params l)); [now apply W | assumption]).
      exists l, "parameters", x, "gradients", x. rewrite mirror_parameters by auto using name_comp.
      split; [assumption|]. split; [assumption|]. split; [assumption|]. split; [reflexivity|]. split; [reflexivity|]. tauto.
    - assert (C : component x) by (apply (names_comp (l_int l)); [now apply W | assumption]).
      assert (Hx' := Hx). apply in_map_iff in Hx'. destruct Hx' as [[y st] [E Hx']]. simpl in E. subst y.
      destruct (wf_delta _ W l c x st Hl Hc Ho Hx') as [Cd _].
      exists l, "internals", x, "internals", ("d" ++ x)%string. rewrite mirror_internals by auto using name_comp.
      split; [assumption|]. split; [assumption|]. split; [assumption|]. split; [reflexivity|]. split; [reflexivity|].
      right. right. right. split; [reflexivity|]. split; [reflexivity|]. split; [assumption|]. eauto.
  Qed.

  Lemma fwd_cats cat cat' (P1 P2 P3 P4 : Prop) :
    ((cat, cat') = ("inputs", "input_deltas") /\ P1 \/
     (cat, cat') = ("outputs", "output_deltas") /\ P2 \/
     (cat, cat') = ("parameters", "gradients") /\ P3 \/
     (cat, cat') = ("internals", "internals") /\ P4) -> component cat /\ component cat'.
  Proof.
    intros [[E _]|[[E _]|[[E _]|[E _]]]]; injection E as -> ->; split; cat.
  Qed.

  Lemma mirror_inj s s' : fwd s -> fwd s' -> mirror s = mirror s' -> s = s'.
  Proof.
    intros H1 H2 E.
    destruct (fwd_inv s H1) as [l [cat [x [cat' [x' [Hl [Cx [Cx' [-> [M D]]]]]]]]]].
    destruct (fwd_inv s' H2) as [k [dat [y [dat' [y' [Hk [Cy [Cy' [-> [M' D']]]]]]]]]].
    destruct (fwd_cats _ _ _ _ _ _ D) as [C1 C2]. destruct (fwd_cats _ _ _ _ _ _ D') as [C3 C4].
    rewrite M, M' in E. apply path3_inj in E; try assumption; try now apply name_comp.
    destruct E as [En [Ec Ex]]. rewrite En.
    destruct D as [[D [Q1 _]]|[[D [Q1 _]]|[[D [Q1 _]]|[D [Q1 _]]]]]; injection D as -> ->;
    destruct D' as [[D' [Q2 _]]|[[D' [Q2 _]]|[[D' [Q2 _]]|[D' [Q2 _]]]]]; injection D' as -> ->; rewrite Q1, Q2 in Ex; try discriminate; try congruence.
    injection Ex as ->. reflexivity.
  Qed.

  Lemma mirror_not_fwd s : fwd s -> ~ fwd (mirror s).
  Proof.
    intros H1 H2.
    destruct (fwd_inv s H1) as [l [cat [x [cat' [x' [Hl [Cx [Cx' [-> [M D]]]]]]]]]].
    destruct (fwd_inv _ H2) as [k [dat [y [dat' [y' [Hk [Cy [Cy' [E [M' D']]]]]]]]]].
    destruct (fwd_cats _ _ _ _ _ _ D) as [C1 C2]. destruct (fwd_cats _ _ _ _ _ _ D') as [C3 C4].
    rewrite M in E. apply path3_inj in E; try assumption; try now apply name_comp.
    destruct E as [En [Ec Ex]].
    destruct D as [[D [Q1 _]]|[[D [Q1 _]]|[[D [Q1 _]]|[D [Q1 [I1 [c [Hc Ho]]]]]]]]; injection D as -> ->;
    destruct D' as [[D' [Q2 _]]|[[D' [Q2 _]]|[[D' [Q2 _]]|[D' [Q2 [_ [c' [Hc' Ho']]]]]]]]; injection D' as -> ->; try discriminate.
    rewrite Q1 in Ex. assert (l = k).
    { clear - W Hl Hk En. assert (N := wf_names _ W). clear W. induction layers as [|a r IH]; [destruct Hl|].
      simpl in N. inversion N as [|? ? N1 N2]; subst.
      destruct Hl as [->|Hl], Hk as [->|Hk]; auto.
      - exfalso. apply N1. rewrite En. now apply in_map.
      - exfalso. apply N1. rewrite <- En. now apply in_map. }
    subst k. apply in_map_iff in I1. destruct I1 as [[z st] [Ez I1]]. simpl in Ez. subst z.
    destruct (wf_delta _ W l c x st Hl Hc Ho I1) as [_ [_ Nd]]. apply (Nd c' Hc'). congruence.
  Qed.

  Lemma fwd_sink_cases t : fwd_sink t -> t = "parameters" \/ fwd t.
  Proof. intros [->|[l [x [Hl [Hx ->]]]]]; [now left | right; now constructor]. Qed.
  Lemma fwd_not_root s r : fwd s -> split2 r = None -> s <> r /\ mirror s <> r.
  Proof.
    intros H R. destruct (fwd_inv s H) as [l [cat [x [cat' [x' [Hl [Cx [Cx' [E [M D]]]]]]]]]].
    destruct (fwd_cats _ _ _ _ _ _ D) as [C1 C2]. rewrite M, E.
    split; apply path3_not_root; try assumption; now apply name_comp.
  Qed.
  Lemma mirror_sink_inj t t' : fwd_sink t -> fwd_sink t' -> mirror t = mirror t' -> t = t'.
  Proof.
    intros H1 H2 E. destruct (fwd_sink_cases t H1) as [->|F1], (fwd_sink_cases t' H2) as [->|F2].
    - reflexivity.
    - rewrite mirror_root in E. destruct (fwd_not_root t' "gradients" F2 eq_refl). congruence.
    - rewrite mirror_root in E. destruct (fwd_not_root t "gradients" F1 eq_refl). congruence.
    - now apply mirror_inj.
  Qed.
  Lemma mirror_sink_not_fwd t : fwd_sink t -> ~ fwd_sink (mirror t).
  Proof.
    intros H1 H2. destruct (fwd_sink_cases t H1) as [->|F1], (fwd_sink_cases _ H2) as [E|F2].
    - discriminate.
    - now destruct (fwd_not_root _ "gradients" F2 eq_refl).
    - now destruct (fwd_not_root t "parameters" F1 eq_refl).
    - now apply (mirror_not_fwd t).
  Qed.

  (** ** Forced orders *)
  Lemma layer_unique l k : In l layers -> In k layers -> l_name l = l_name k -> l = k.
  Proof.
    intros Hl Hk En. assert (N := wf_names _ W). clear W. induction layers as [|a r IH]; [destruct Hl|].
    simpl in N. inversion N as [|? ? N1 N2]; subst.
    destruct Hl as [->|Hl], Hk as [->|Hk]; auto.
    - exfalso. apply N1. rewrite En. now apply in_map.
    - exfalso. apply N1. rewrite <- En. now apply in_map.
  Qed.

  Definition pgroup (l : layer) : list string := map (fun p => path3 (l_name l) "parameters" (fst p)) (l_params l).
  Definition ggroup (l : layer) : list string := map (fun p => path3 (l_name l) "gradients" (fst p)) (l_params l).

  Lemma param_comp l p : In l layers -> In p (l_params l) -> component (fst p).
  Proof. intros Hl Hp. apply (names_comp (l_params l)); [now apply W | now apply in_map]. Qed.

  Lemma ggroup_mirror l : In l layers -> ggroup l = map mirror (pgroup l).
  Proof.
    intros Hl. unfold ggroup, pgroup. rewrite map_map. apply map_ext_in. intros p Hp.
    rewrite mirror_parameters; [reflexivity | now apply name_comp | now apply (param_comp l)].
  Qed.
  Lemma pgroup_fwd l s : In l layers -> In s (pgroup l) -> fwd s.
  Proof.
    intros Hl Hs. apply in_map_iff in Hs. destruct Hs as [p [<- Hp]]. constructor; [assumption | now apply in_map].
  Qed.

  Variable fos : list (list string).
  Hypothesis Hfos : get_forced_orders layers = LOk fos.

  Lemma fos_eq : fos = nonempty_orders (map pgroup layers ++ map ggroup layers).
  Proof.
    assert (O : forall c g, In c categories -> (g = fun l => map (fun p => path3 (l_name l) c (fst p)) (l_params l)) ->
      collect (fun l => match get_order c l with LOk o => LOk [o] | LErr e => LErr e end) layers = LOk (map g layers)).
    { intros c g Hc ->. rewrite (collect_ok _ (fun l => [map (fun p => path3 (l_name l) c (fst p)) (l_params l)])).
      - now rewrite flat_map_single.
      - intros l Hl. unfold get_order.
        rewrite (collect_ok _ (fun p => [path3 (l_name l) c (fst p)])).
        + now rewrite flat_map_single.
        + intros p Hp. rewrite npath3; [reflexivity | now apply name_comp | auto | now apply (param_comp l)]. }
    revert Hfos. unfold get_forced_orders.
    rewrite (O "parameters" pgroup) by (simpl; auto). rewrite (O "gradients" ggroup) by (simpl; auto 10).
    destruct (disjoint_orders _); [|discriminate]. intros [= <-]. reflexivity.
  Qed.

  Lemma fos_In fo : In fo fos <-> fo <> [] /\ exists l, In l layers /\ (fo = pgroup l \/ fo = ggroup l).
  Proof.
    rewrite fos_eq. unfold nonempty_orders. rewrite filter_In, in_app_iff, !in_map_iff. split.
    - intros [[[l [<- Hl]]|[l [<- Hl]]] N]; (split; [intros E; rewrite E in N; discriminate|]); eauto.
    - intros [N [l [Hl [->| ->]]]].
      + split; [left; eauto|]. destruct (pgroup l); [congruence | reflexivity].
      + split; [right; eauto|]. destruct (ggroup l); [congruence | reflexivity].
  Qed.

  Lemma pgroup_name l s : In s (pgroup l) -> exists x, s = path3 (l_name l) "parameters" x /\ In x (map fst (l_params l)).
  Proof. intros H. apply in_map_iff in H. destruct H as [p [<- Hp]]. eauto using in_map. Qed.

  Lemma pgroup_unique s l k : In l layers -> In k layers -> In s (pgroup l) -> In s (pgroup k) -> l = k.
  Proof.
    intros Hl Hk H1 H2. destruct (pgroup_name _ _ H1) as [x [E1 X1]]. destruct (pgroup_name _ _ H2) as [y [E2 X2]].
    rewrite E1 in E2. apply path3_inj in E2; try cat; try now apply name_comp.
    - apply layer_unique; tauto.
    - apply (names_comp (l_params l)); [now apply W | assumption].
    - apply (names_comp (l_params k)); [now apply W | assumption].
  Qed.

  Lemma fos_disjoint fo fo' s : In fo fos -> In fo' fos -> In s fo -> In s fo' -> fo = fo'.
  Proof.
    intros H1 H2 S1 S2. apply fos_In in H1. apply fos_In in H2.
    destruct H1 as [_ [l [Hl E1]]], H2 as [_ [k [Hk E2]]].
    destruct E1 as [->| ->], E2 as [->| ->].
    - now rewrite (pgroup_unique s l k).
    - exfalso. rewrite ggroup_mirror in S2 by assumption. apply in_map_iff in S2. destruct S2 as [u [<- Hu]].
      apply (mirror_not_fwd u); [now apply (pgroup_fwd k) | now apply (pgroup_fwd l)].
    - exfalso. rewrite ggroup_mirror in S1 by assumption. apply in_map_iff in S1. destruct S1 as [u [<- Hu]].
      apply (mirror_not_fwd u); [now apply (pgroup_fwd l) | now apply (pgroup_fwd k)].
    - rewrite ggroup_mirror in S1, S2 by assumption. apply in_map_iff in S1. apply in_map_iff in S2.
      destruct S1 as [u [E1 Hu]], S2 as [v [E2 Hv]].
      assert (u = v) by (apply mirror_inj; [now apply (pgroup_fwd l) | now apply (pgroup_fwd k) | congruence]).
      subst v. now rewrite (pgroup_unique u l k).
  Qed.

  Lemma merge_group s fo : In fo fos -> In s fo -> merge_node fos s = Group fo.
  Proof.
    intros H1 H2. destruct (merge_node_cases fos s) as [[fo' [E [I1 I2]]]|[_ N]].
    - rewrite E. f_equal. now apply (fos_disjoint fo' fo s).
    - exfalso. now apply (N fo).
  Qed.
  Lemma merge_single s : (forall fo, In fo fos -> ~ In s fo) -> merge_node fos s = Single s.
  Proof.
    intros H. destruct (merge_node_cases fos s) as [[fo' [E [I1 I2]]]|[E _]]; [|assumption].
    exfalso. now apply (H fo').
  Qed.
  Lemma merge_flat s : In s (node_flat (merge_node fos s)).
  Proof. destruct (merge_node_cases fos s) as [[fo' [-> [I1 I2]]]|[-> _]]; simpl; auto. Qed.

  Lemma root_not_forced r fo : split2 r = None -> In fo fos -> ~ In r fo.
  Proof.
    intros R H S. apply fos_In in H. destruct H as [_ [l [Hl [->| ->]]]].
    - apply (pgroup_fwd l) in S; [|assumption]. now destruct (fwd_not_root r r S R).
    - rewrite ggroup_mirror in S by assumption. apply in_map_iff in S. destruct S as [u [E Hu]].
      apply (pgroup_fwd l) in Hu; [|assumption]. now destruct (fwd_not_root u r Hu R).
  Qed.

  (** A forward buffer in a forced order is a parameter. *)
  Lemma fwd_forced s fo : fwd s -> In fo fos -> In s fo -> exists l, In l layers /\ fo = pgroup l.
  Proof.
    intros F H S. apply fos_In in H. destruct H as [_ [l [Hl [->| ->]]]]; [eauto|]. exfalso.
    rewrite ggroup_mirror in S by assumption. apply in_map_iff in S. destruct S as [u [<- Hu]].
    apply (mirror_not_fwd u); [now apply (pgroup_fwd l) | assumption].
  Qed.

  Lemma merge_mirror s : fwd s -> merge_node fos (mirror s) = mirror_node (merge_node fos s).
  Proof.
    intros F. destruct (merge_node_cases fos s) as [[fo [E [I1 I2]]]|[E N]]; rewrite E.
    - destruct (fwd_forced s fo F I1 I2) as [l [Hl ->]]. simpl. rewrite <- ggroup_mirror by assumption.
      apply merge_group.
      + apply fos_In. split; [|eauto]. intros X. assert (Y := ggroup_mirror l Hl). rewrite X in Y.
        symmetry in Y. apply map_eq_nil in Y. rewrite Y in I2. destruct I2.
      + rewrite ggroup_mirror by assumption. now apply in_map.
    - apply merge_single. intros fo H S. apply fos_In in H. destruct H as [Nn [l [Hl [->| ->]]]].
      + apply (mirror_not_fwd s F). now apply (pgroup_fwd l).
      + rewrite ggroup_mirror in S by assumption. apply in_map_iff in S. destruct S as [u [Eu Hu]].
        assert (u = s) by (apply mirror_inj; [now apply (pgroup_fwd l) | assumption | assumption]). subst u.
        apply (N (pgroup l)); [|assumption]. apply fos_In. split; [|eauto].
        intros X. rewrite X in Hu. destruct Hu.
  Qed.

  Lemma merge_sink t : fwd_sink t -> merge_node fos t = Single t /\ merge_node fos (mirror t) = Single (mirror t).
  Proof.
    intros H.
    assert (E : merge_node fos t = Single t).
    { apply merge_single. intros fo Hf S. destruct H as [->|[l [x [Hl [Hx ->]]]]]; [now apply (root_not_forced "parameters" fo)|].
      destruct (fwd_forced _ fo (fwd_in l x Hl Hx) Hf S) as [k [Hk ->]]. destruct (pgroup_name _ _ S) as [y [E Hy]].
      apply path3_inj in E; try cat; try now apply name_comp.
      - now destruct E as [_ [E _]].
      - apply (names_comp (l_in l)); [now apply W | assumption].
      - apply (names_comp (l_params k)); [now apply W | assumption]. }
    split; [exact E|]. destruct (fwd_sink_cases t H) as [->|F].
    - apply merge_single. intros fo Hf. now apply root_not_forced.
    - rewrite merge_mirror by assumption. now rewrite E.
  Qed.

  (** ** Forward nodes *)
  Definition fnode (n : node) : Prop := exists s, fwd s /\ n = merge_node fos s.
  Lemma fnode_flat n x : fnode n -> In x (node_flat n) -> fwd x /\ merge_node fos x = n.
  Proof.
    intros [s [F ->]] H. destruct (merge_node_cases fos s) as [[fo [E [I1 I2]]]|[E N]]; rewrite E in *; simpl in H.
    - destruct (fwd_forced s fo F I1 I2) as [l [Hl ->]]. split; [now apply (pgroup_fwd l) | now apply merge_group].
    - destruct H as [<-|[]]. auto.
  Qed.
  Lemma mirror_flat n : node_flat (mirror_node n) = map mirror (node_flat n).
  Proof. destruct n; reflexivity. Qed.
  Lemma map_mirror_inj l1 l2 : (forall x, In x l1 -> fwd x) -> (forall x, In x l2 -> fwd x) ->
    map mirror l1 = map mirror l2 -> l1 = l2.
  Proof.
    revert l2. induction l1 as [|a l1 IH]; intros [|b l2] H1 H2 E; try discriminate; [reflexivity|].
    injection E as E1 E2. f_equal.
    - apply mirror_inj; [apply H1; now left | apply H2; now left | assumption].
    - apply IH; [intros x Hx; apply H1; now right | intros x Hx; apply H2; now right | assumption].
  Qed.
  Lemma mirror_node_inj n n' : fnode n -> fnode n' -> mirror_node n = mirror_node n' -> n = n'.
  Proof.
    intros F F' E.
    assert (Ef : node_flat n = node_flat n').
    { apply map_mirror_inj; [intros x Hx; now apply (fnode_flat n) | intros x Hx; now apply (fnode_flat n')|].
      rewrite <- !mirror_flat. congruence. }
    destruct n, n'; simpl in *; try discriminate; congruence.
  Qed.

  Variable cns : list (string * string).
  Hypothesis Hcns : get_connections layers = LOk cns.
  Notation M := (merge_connections cns fos).

  Lemma fcon_In s t : fcon (s, t) -> In (s, t) cns /\ In (mirror s, mirror t) cns.
  Proof.
    intros H. split; apply (get_connections_spec cns Hcns); [now left|].
    right. eauto.
  Qed.
  Lemma In_cns s t : In (s, t) cns -> fcon (s, t) \/ exists s' t', fcon (s', t') /\ s = mirror s' /\ t = mirror t'.
  Proof. intros H. now apply (get_connections_spec cns Hcns). Qed.

  Lemma M_In a t : In (a, t) M <-> exists s u, In (s, u) cns /\ a = merge_node fos s /\ t = Single u.
  Proof.
    unfold merge_connections. rewrite in_map_iff.
    assert (Sk : forall s u, In (s, u) cns -> merge_node fos u = Single u).
    { intros s u H. destruct (In_cns s u H) as [F|[s' [t' [F [-> ->]]]]];
        apply fcon_fwd in F; destruct F as [_ F]; now apply merge_sink in F. }
    split.
    - intros [[s u] [[= <- <-] H]]. exists s, u. split; [assumption|]. split; [reflexivity|]. eauto.
    - intros [s [u [H [-> ->]]]]. exists (s, u). split; [|assumption]. simpl. now rewrite (Sk s u H).
  Qed.

  (** The connections of forward and of mirrored nodes. *)
  Lemma M_fwd a t : fnode a -> In (a, t) M ->
    exists s u, fcon (s, u) /\ a = merge_node fos s /\ t = Single u.
  Proof.
    intros Fa H. apply M_In in H. destruct H as [s [u [H [E ->]]]]. exists s, u. split; [|auto].
    destruct (In_cns s u H) as [F|[s' [t' [F [-> ->]]]]]; [assumption|]. exfalso.
    assert (F' := fcon_fwd _ _ F). destruct F' as [F' _].
    assert (X : In (mirror s') (node_flat a)) by (rewrite E; apply merge_flat).
    apply (fnode_flat a _ Fa) in X. destruct X as [X _]. now apply (mirror_not_fwd s').
  Qed.
  Lemma M_mirror a t : fnode a -> In (mirror_node a, t) M ->
    exists s u, fcon (s, u) /\ a = merge_node fos s /\ t = Single (mirror u).
  Proof.
    intros Fa H. apply M_In in H. destruct H as [s [u [H [E ->]]]].
    assert (X : In s (node_flat (mirror_node a))) by (rewrite E; apply merge_flat).
    rewrite mirror_flat in X. apply in_map_iff in X. destruct X as [x [Ex Hx]].
    apply (fnode_flat a _ Fa) in Hx. destruct Hx as [Fx Mx].
    destruct (In_cns s u H) as [F|[s' [t' [F [Es ->]]]]].
    - exfalso. apply fcon_fwd in F. destruct F as [F _]. apply (mirror_not_fwd x Fx). congruence.
    - exists s', t'. split; [assumption|]. split; [|reflexivity].
      apply fcon_fwd in F. destruct F as [F _].
      assert (x = s') by (apply mirror_inj; congruence). subst x. congruence.
  Qed.
  Lemma sink_fwd b s u : fcon (s, u) -> In (b, Single u) M -> exists s2, fcon (s2, u) /\ b = merge_node fos s2.
  Proof.
    intros F H. apply M_In in H. destruct H as [s2 [u2 [H [-> E]]]]. injection E as <-.
    apply fcon_fwd in F. destruct F as [_ F].
    destruct (In_cns s2 u H) as [F2|[s' [t' [F2 [-> ->]]]]]; [eauto|]. exfalso.
    apply fcon_fwd in F2. destruct F2 as [_ F2]. now apply (mirror_sink_not_fwd t').
  Qed.
  Lemma sink_mirror b s u : fcon (s, u) -> In (b, Single (mirror u)) M ->
    exists s2, fcon (s2, u) /\ b = merge_node fos (mirror s2).
  Proof.
    intros F H. apply M_In in H. destruct H as [s2 [u2 [H [-> E]]]]. injection E as E.
    apply fcon_fwd in F. destruct F as [_ F].
    destruct (In_cns s2 u2 H) as [F2|[s' [t' [F2 [-> ->]]]]].
    - exfalso. apply fcon_fwd in F2. destruct F2 as [_ F2]. apply (mirror_sink_not_fwd u F). congruence.
    - exists s'. assert (F3 := fcon_fwd _ _ F2). destruct F3 as [_ F3].
      assert (u = t') by (apply mirror_sink_inj; assumption). subst t'. auto.
  Qed.
  Lemma fcon_fnode s u : fcon (s, u) -> fnode (merge_node fos s) /\ In (merge_node fos s, Single u) M /\
     In (mirror_node (merge_node fos s), Single (mirror u)) M.
  Proof.
    intros F. assert (F' := fcon_fwd _ _ F). destruct F' as [Fs _]. destruct (fcon_In _ _ F) as [I1 I2].
    split; [exists s; auto|]. split; apply M_In; [exists s, u; auto|].
    exists (mirror s), (mirror u). rewrite merge_mirror by assumption. auto.
  Qed.

  Lemma linked_fwd a b : fnode a -> linked M a b -> fnode b /\ linked M (mirror_node a) (mirror_node b).
  Proof.
    intros Fa [t [H1 H2]]. destruct (M_fwd a t Fa H1) as [s [u [F [-> ->]]]].
    destruct (sink_fwd b s u F H2) as [s2 [F2 ->]].
    destruct (fcon_fnode _ _ F) as [_ [_ X]]. destruct (fcon_fnode _ _ F2) as [Fb [_ Y]].
    split; [assumption|]. exists (Single (mirror u)). auto.
  Qed.
  Lemma linked_mirror a b : fnode a -> linked M (mirror_node a) b ->
    exists c, fnode c /\ b = mirror_node c /\ linked M a c.
  Proof.
    intros Fa [t [H1 H2]]. destruct (M_mirror a t Fa H1) as [s [u [F [-> ->]]]].
    destruct (sink_mirror b s u F H2) as [s2 [F2 ->]].
    destruct (fcon_fnode _ _ F) as [_ [X _]]. destruct (fcon_fnode _ _ F2) as [Fb [Y _]].
    exists (merge_node fos s2). split; [assumption|]. split.
    - apply merge_mirror. apply fcon_fwd in F2. tauto.
    - exists (Single u). auto.
  Qed.
  Lemma together_fwd a b : fnode a -> together M a b -> fnode b /\ together M (mirror_node a) (mirror_node b).
  Proof.
    intros Fa T. apply clos_rt_rt1n in T. induction T as [a|a b c H T IH].
    - split; [assumption | apply rt_refl].
    - destruct (linked_fwd a b Fa H) as [Fb L]. destruct (IH Fb) as [Fc T'].
      split; [assumption|]. eapply rt_trans; [apply rt_step; exact L | exact T'].
  Qed.
  Lemma together_mirror a b : fnode a -> together M (mirror_node a) b ->
    exists c, fnode c /\ b = mirror_node c /\ together M a c.
  Proof.
    intros Fa T. apply clos_rt_rtn1 in T. induction T as [|b c H T IH].
    - exists a. split; [assumption|]. split; [reflexivity | apply rt_refl].
    - destruct IH as [d [Fd [-> Td]]]. destruct (linked_mirror d c Fd H) as [e [Fe [-> L]]].
      exists e. split; [assumption|]. split; [reflexivity|]. eapply rt_trans; [exact Td | now apply rt_step].
  Qed.

  (** The component of a mirrored node is the mirrored component. *)
  Lemma component_mirror n src snk src' snk' : fnode n ->
    component_of M n src snk -> component_of M (mirror_node n) src' snk' ->
    (forall a, In a src -> fnode a) /\
    Permutation src' (map mirror_node src) /\
    (forall t, In t snk -> exists u, t = Single u /\ fwd_sink u) /\
    Permutation snk' (map mirror_node snk).
  Proof.
    intros Fn [N1 [N2 [S1 S2]]] [N1' [N2' [S1' S2']]].
    assert (Fs : forall a, In a src -> fnode a).
    { intros a Ha. apply S1 in Ha. now apply (together_fwd n). }
    assert (Fk : forall t, In t snk -> exists s u, fcon (s, u) /\ together M n (merge_node fos s) /\ t = Single u).
    { intros t Ht. apply S2 in Ht. destruct Ht as [a [Ta H]].
      destruct (M_fwd a t) as [s [u [F [-> ->]]]]; [now apply (together_fwd n) | assumption|]. eauto. }
    split; [exact Fs|]. split; [|split].
    - apply NoDup_Permutation; [assumption| |].
      + apply NoDup_map_inj; [|assumption]. intros x y Hx Hy. apply mirror_node_inj; auto.
      + intros b. rewrite S1', in_map_iff. split.
        * intros T. destruct (together_mirror n b Fn T) as [c [Fc [-> Tc]]]. exists c. split; [reflexivity | now apply S1].
        * intros [c [<- Hc]]. apply S1 in Hc. now apply (together_fwd n).
    - intros t Ht. destruct (Fk t Ht) as [s [u [F [_ ->]]]]. exists u. split; [reflexivity|].
      apply fcon_fwd in F. tauto.
    - apply NoDup_Permutation; [assumption| |].
      + apply NoDup_map_inj; [|assumption]. intros x y Hx Hy E.
        destruct (Fk x Hx) as [s [u [F [_ ->]]]]. destruct (Fk y Hy) as [s2 [u2 [F2 [_ ->]]]]. simpl in E. injection E as E.
        f_equal. apply fcon_fwd in F. apply fcon_fwd in F2. apply mirror_sink_inj; tauto.
      + intros t. rewrite S2', in_map_iff. split.
        * intros [a [Ta H]]. destruct (together_mirror n a Fn Ta) as [c [Fc [-> Tc]]].
          destruct (M_mirror c t Fc H) as [s [u [F [-> ->]]]]. exists (Single u). split; [reflexivity|].
          apply S2. exists (merge_node fos s). split; [assumption|]. now destruct (fcon_fnode _ _ F).
        * intros [t0 [<- Ht]]. destruct (Fk t0 Ht) as [s [u [F [T ->]]]].
          exists (mirror_node (merge_node fos s)). split; [now apply (together_fwd n)|].
          now destruct (fcon_fnode _ _ F).
  Qed.

  (** ** The mirror preserves the order of sources *)
  Lemma fwd_single s : fwd s -> merge_node fos s = Single s ->
    ~ exists l x, In l layers /\ In x (map fst (l_params l)) /\ s = path3 (l_name l) "parameters" x.
  Proof.
    intros F E [l [x [Hl [Hx Es]]]].
    assert (I : In s (pgroup l)).
    { subst s. apply in_map_iff in Hx. destruct Hx as [p [<- Hp]]. unfold pgroup.
      apply in_map_iff. exists p. auto. }
    rewrite (merge_group s (pgroup l)) in E; [discriminate | | assumption].
    apply fos_In. split; [|eauto]. intros X. rewrite X in I. destruct I.
  Qed.

  Lemma leb_single s s' : fwd s -> fwd s' -> merge_node fos s = Single s -> merge_node fos s' = Single s' ->
    String.leb (mirror s) (mirror s') = String.leb s s'.
  Proof.
    intros F F' Ms Ms'.
    destruct (fwd_inv s F) as [l [cat [x [cat' [x' [Hl [Cx [Cx' [E [M D]]]]]]]]]].
    destruct (fwd_inv s' F') as [k [dat [y [dat' [y' [Hk [Cy [Cy' [E' [M' D']]]]]]]]]].
    rewrite M, M', E, E'. rewrite !path3_app.
    destruct (string_dec (l_name l) (l_name k)) as [En|N].
    - rewrite En, !string_leb_prefix.
      destruct D as [[D [Q _]]|[[D [Q _]]|[[D [Q I]]|[D [Q _]]]]]; injection D as -> ->; rewrite Q in *;
      try (exfalso; apply (fwd_single s F Ms); eauto; fail);
      destruct D' as [[D' [Q' _]]|[[D' [Q' _]]|[[D' [Q' I']]|[D' [Q' _]]]]]; injection D' as -> ->; rewrite Q' in *;
      try (exfalso; apply (fwd_single s' F' Ms'); eauto; fail); try reflexivity;
      change ("d" ++ x)%string with (String "d" x) || idtac; rewrite !string_leb_prefix; reflexivity || (apply (string_leb_prefix "d")).
    - assert (Cl := name_comp l Hl). assert (Ck := name_comp k Hk).
      rewrite (string_leb_layers (l_name l) (l_name k) (cat ++ "." ++ x)); try assumption; [|apply Cl | apply Ck].
      rewrite (string_leb_layers (l_name l) (l_name k) (cat' ++ "." ++ x')); try assumption; [reflexivity | apply Cl | apply Ck].
  Qed.

  Lemma leb_group l k : In l layers -> In k layers -> pgroup l <> [] -> pgroup k <> [] ->
    strings_leb (ggroup l) (ggroup k) = strings_leb (pgroup l) (pgroup k).
  Proof.
    intros Hl Hk Nl Nk. destruct (string_dec (l_name l) (l_name k)) as [En|N].
    - rewrite (layer_unique l k Hl Hk En). now rewrite !strings_leb_refl.
    - assert (Cl := name_comp l Hl). assert (Ck := name_comp k Hk).
      assert (Pl := param_comp l). assert (Pk := param_comp k).
      unfold pgroup, ggroup in *. destruct (l_params l) as [|p ps]; [exfalso; now apply Nl|]. destruct (l_params k) as [|q qs]; [exfalso; now apply Nk|].
      cbn [map strings_leb].
      assert (D : forall c u v, In c categories -> component u -> component v -> String.eqb (path3 (l_name l) c u) (path3 (l_name k) c v) = false).
      { intros c u v Hc Cu Cv. apply String.eqb_neq. intros E. apply path3_inj in E; auto. tauto. }
      assert (Cp : component (fst p)) by (apply Pl; [assumption | now left]).
      assert (Cq : component (fst q)) by (apply Pk; [assumption | now left]).
      rewrite !D by (simpl; tauto || assumption). rewrite !path3_app.
      rewrite (string_leb_layers (l_name l) (l_name k) ("gradients" ++ "." ++ fst p)); try assumption; [|apply Cl | apply Ck].
      rewrite (string_leb_layers (l_name l) (l_name k) ("parameters" ++ "." ++ fst p)); try assumption; [reflexivity | apply Cl | apply Ck].
  Qed.

  Lemma node_leb_mirror a b : fnode a -> fnode b -> is_group a = is_group b ->
    node_leb (mirror_node a) (mirror_node b) = node_leb a b.
  Proof.
    intros [s [F Ea]] [s' [F' Eb]] K. unfold node_leb.
    destruct (merge_node_cases fos s) as [[fo [E [I1 I2]]]|[E _]]; rewrite E in Ea; subst a;
    destruct (merge_node_cases fos s') as [[fo' [E' [I1' I2']]]|[E' _]]; rewrite E' in Eb; subst b; try discriminate.
    - destruct (fwd_forced s fo F I1 I2) as [l [Hl ->]]. destruct (fwd_forced s' fo' F' I1' I2') as [k [Hk ->]].
      rewrite !mirror_flat. simpl. rewrite <- !ggroup_mirror by assumption. apply leb_group; try assumption.
      + intros X. rewrite X in I2. destruct I2.
      + intros X. rewrite X in I2'. destruct I2'.
    - simpl. rewrite (leb_single s s') by assumption.
      destruct (String.eqb_spec s s') as [->|N]; [now rewrite String.eqb_refl|].
      destruct (String.eqb_spec (mirror s) (mirror s')) as [Em|_]; [|reflexivity].
      exfalso. apply N. now apply mirror_inj.
  Qed.

  Lemma same_kind_sorted l srt : sort_nodes l = Some srt -> same_kind l.
  Proof.
    unfold sort_nodes. destruct (forallb is_group l || forallb (fun n => negb (is_group n)) l) eqn:E; [|discriminate].
    intros _. apply orb_true_iff in E. rewrite !forallb_forall in E. destruct E as [E|E]; [now left | right].
    intros n Hn. specialize (E n Hn). now destruct (is_group n).
  Qed.
  Lemma sort_mirror src src' srt srt' : (forall a, In a src -> fnode a) ->
    Permutation src' (map mirror_node src) ->
    sort_nodes src = Some srt -> sort_nodes src' = Some srt' -> srt' = map mirror_node srt.
  Proof.
    intros F P E E'. assert (K := same_kind_sorted _ _ E). assert (K' := same_kind_sorted _ _ E').
    unfold sort_nodes in E, E'.
    destruct (_ || _) in E; [|discriminate]. injection E as <-.
    destruct (_ || _) in E'; [|discriminate]. injection E' as <-.
    rewrite (isort_nodes_perm _ _ K' P). apply isort_map_in. intros x y Hx Hy.
    apply node_leb_mirror; auto. destruct K as [K|K]; now rewrite (K x Hx), (K y Hy).
  Qed.

  (** ** Structures *)
  Definition cat_entries (l : layer) : list (string * list (string * lstruct)) :=
    [("inputs", sorted_entries (l_in l)); ("outputs", l_out l); ("parameters", l_params l);
     ("internals", l_int l); ("input_deltas", backward_entries (sorted_entries (l_in l)));
     ("output_deltas", backward_entries (l_out l)); ("gradients", backward_entries (l_params l))].
  Lemma layer_stub_eq l : layer_stub l = flat_map (fun ce => in_category l (fst ce) (snd ce)) (cat_entries l).
  Proof. unfold layer_stub, cat_entries. simpl. now rewrite app_nil_r. Qed.

  Lemma backward_names d : map fst (backward_entries d) = map fst d.
  Proof. unfold backward_entries. now rewrite map_map. Qed.
  Lemma sorted_names d : names_ok d -> names_ok (sorted_entries d).
  Proof.
    intros [N F]. assert (P : Permutation (map fst d) (map fst (sorted_entries d))).
    { apply Permutation_map, Permutation_sym, isort_perm. }
    split; [now apply (Permutation_NoDup P)|]. rewrite Forall_forall in *. intros x Hx. apply F.
    now apply (Permutation_in _ (Permutation_sym P)).
  Qed.
  Lemma entries_ok l c d : In l layers -> In (c, d) (cat_entries l) -> names_ok d /\ In c categories.
  Proof.
    intros Hl H. unfold names_ok. simpl in H.
    repeat (destruct H as [H|H]; [injection H as <- <-; rewrite ?backward_names; split; [|simpl; tauto]|]);
      try (destruct H);
      (apply sorted_names; now apply W) || now apply W.
  Qed.

  Lemma stub_In s st : In (s, st) (stub layers) <->
    exists l c d x, In l layers /\ In (c, d) (cat_entries l) /\ In (x, st) d /\ s = path3 (l_name l) c x.
  Proof.
    unfold stub. rewrite in_flat_map. split.
    - intros [l [Hl H]]. rewrite layer_stub_eq in H. apply in_flat_map in H. destruct H as [[c d] [Hc H]].
      apply in_map_iff in H. destruct H as [[x st'] [[= <- <-] H]]. exists l, c, d, x. auto.
    - intros [l [c [d [x [Hl [Hc [Hx ->]]]]]]]. exists l. split; [assumption|]. rewrite layer_stub_eq.
      apply in_flat_map. exists (c, d). split; [assumption|]. apply in_map_iff. exists (x, st). auto.
  Qed.

  Lemma entry_comp l c d x : In l layers -> In (c, d) (cat_entries l) -> In x (map fst d) ->
    component (l_name l) /\ component c /\ component x.
  Proof.
    intros Hl Hc Hx. destruct (entries_ok l c d Hl Hc) as [[_ F] C]. rewrite Forall_forall in F.
    split; [now apply name_comp|]. split; [auto | auto].
  Qed.

  Lemma map_flat_map {A B C} (f : B -> C) (g : A -> list B) l : map f (flat_map g l) = flat_map (fun x => map f (g x)) l.
  Proof. induction l as [|x l IH]; simpl; [reflexivity|]. now rewrite map_app, IH. Qed.

  Lemma in_category_names l c d : map fst (in_category l c d) = map (path3 (l_name l) c) (map fst d).
  Proof. unfold in_category. now rewrite !map_map. Qed.

  Lemma stub_NoDup : NoDup (map fst (stub layers)).
  Proof.
    unfold stub. rewrite map_flat_map.
    apply (NoDup_flat_map_tag _ (fun y => option_map (fun t => fst (fst t)) (split2 y)) (fun l => Some (l_name l))).
    - rewrite <- (map_map l_name Some). apply NoDup_map_inj; [intros x y _ _ E; congruence | apply W].
    - intros l Hl. rewrite layer_stub_eq, map_flat_map.
      apply (NoDup_flat_map_tag _ (fun y => option_map (fun t => snd (fst t)) (split2 y)) (fun ce => Some (fst ce))).
      + simpl. repeat constructor; simpl; intuition discriminate.
      + intros [c d] Hc. simpl. rewrite in_category_names. destruct (entries_ok l c d Hl Hc) as [[N F] C].
        apply NoDup_map_inj; [|assumption]. intros x y Hx Hy E. rewrite Forall_forall in F.
        apply path3_inj in E; auto using name_comp. tauto.
      + intros [c d] y Hc Hy. simpl in *. rewrite in_category_names in Hy. apply in_map_iff in Hy.
        destruct Hy as [x [<- Hx]]. destruct (entry_comp l c d x Hl Hc Hx) as [C1 [C2 C3]].
        now rewrite split2_path3.
    - intros l y Hl Hy. rewrite layer_stub_eq, map_flat_map in Hy. apply in_flat_map in Hy.
      destruct Hy as [[c d] [Hc Hy]]. simpl in Hy. rewrite in_category_names in Hy. apply in_map_iff in Hy.
      destruct Hy as [x [<- Hx]]. destruct (entry_comp l c d x Hl Hc Hx) as [C1 [C2 C3]].
      now rewrite split2_path3.
  Qed.

  Lemma struct_In s st : dget s (stub layers) = Some st <-> In (s, st) (stub layers).
  Proof. split; [apply dget_In | apply In_dget; exact stub_NoDup]. Qed.

  Lemma sorted_entries_In e d : In e (sorted_entries d) <-> In e d.
  Proof. apply isort_In. Qed.
  Lemma backward_entries_In x st d : In (x, st) (backward_entries d) <-> exists st0, In (x, st0) d /\ st = backward_only st0.
  Proof.
    unfold backward_entries. rewrite in_map_iff. split.
    - intros [[y st0] [[= <- <-] H]]. eauto.
    - intros [st0 [H ->]]. exists (x, st0). auto.
  Qed.

  (** Entries of a category of a given path. *)
  Lemma stub_path l c x st : In l layers -> In c categories -> component x ->
    In (path3 (l_name l) c x, st) (stub layers) -> exists d, In (c, d) (cat_entries l) /\ In (x, st) d.
  Proof.
    intros Hl Hc Cx H. apply stub_In in H. destruct H as [k [c' [d [y [Hk [Hc' [Hy E]]]]]]].
    destruct (entry_comp k c' d y Hk Hc') as [C1 [C2 C3]]; [now apply (in_map fst) in Hy|].
    apply path3_inj in E; auto using name_comp. destruct E as [En [<- <-]].
    rewrite (layer_unique l k Hl Hk En). eauto.
  Qed.

  Lemma NoDup_fst_unique {V} (d : list (string * V)) x v v' : NoDup (map fst d) -> In (x, v) d -> In (x, v') d -> v = v'.
  Proof.
    intros N H1 H2. apply (In_dget x v d N) in H1. apply (In_dget x v' d N) in H2. congruence.
  Qed.

  (** The structure of the mirrored buffer. *)
  Lemma mirror_struct s st st' : fwd s -> dget s (stub layers) = Some st -> dget (mirror s) (stub layers) = Some st' ->
    ls_btype st' = ls_btype st /\ ls_feat st' = ls_feat st.
  Proof.
    intros F H H'. apply struct_In in H. apply struct_In in H'.
    destruct (fwd_inv s F) as [l [cat [x [cat' [x' [Hl [Cx [Cx' [E [M D]]]]]]]]]].
    rewrite E in H. rewrite M in H'.
    assert (Cats : In cat categories /\ In cat' categories).
    { destruct D as [[D _]|[[D _]|[[D _]|[D _]]]]; injection D as -> ->; simpl; tauto. }
    destruct Cats as [K K'].
    destruct (stub_path l cat x st Hl K Cx H) as [d [Hd Hx]].
    destruct (stub_path l cat' x' st' Hl K' Cx' H') as [d' [Hd' Hx']].
    destruct D as [[D [Q _]]|[[D [Q _]]|[[D [Q _]]|[D [Q [I [c [Hc Ho]]]]]]]]; injection D as -> ->; subst x'; simpl in Hd, Hd';
      repeat (destruct Hd as [Hd|Hd]; try discriminate); try contradiction; injection Hd as <-;
      repeat (destruct Hd' as [Hd'|Hd']; try discriminate); try contradiction; injection Hd' as <-.
    - apply backward_entries_In in Hx'. destruct Hx' as [st0 [Hx' ->]].
      rewrite sorted_entries_In in Hx, Hx'. rewrite (NoDup_fst_unique _ _ _ _ (proj1 (wf_in _ W l Hl)) Hx Hx'). auto.
    - apply backward_entries_In in Hx'. destruct Hx' as [st0 [Hx' ->]].
      rewrite (NoDup_fst_unique _ _ _ _ (proj1 (wf_out _ W l Hl)) Hx Hx'). auto.
    - apply backward_entries_In in Hx'. destruct Hx' as [st0 [Hx' ->]].
      rewrite (NoDup_fst_unique _ _ _ _ (proj1 (wf_params _ W l Hl)) Hx Hx'). auto.
    - destruct (wf_delta _ W l c x st Hl Hc Ho Hx) as [_ [Sd _]]. now apply Sd.
  Qed.

  (** ** The mirrored hub *)
  Lemma cns_mirror s t : fwd s -> fwd_sink t -> (In (s, t) cns <-> In (mirror s, mirror t) cns).
  Proof.
    intros Fs Ft. split.
    - intros H. destruct (In_cns s t H) as [F|[s' [t' [F [-> ->]]]]].
      + now apply fcon_In.
      + exfalso. apply fcon_fwd in F. now apply (mirror_sink_not_fwd t').
    - intros H. destruct (In_cns _ _ H) as [F|[s' [t' [F [E1 E2]]]]].
      + exfalso. apply fcon_fwd in F. now apply (mirror_sink_not_fwd t).
      + assert (F' := fcon_fwd _ _ F). destruct F' as [Fs' Ft'].
        assert (s = s') by now apply mirror_inj. assert (t = t') by now apply mirror_sink_inj. subst.
        now apply fcon_In.
  Qed.

  Lemma nest_mirror ns i : nest_list (map node_nested (map mirror_node ns)) i = nest_list (map node_nested ns) i.
  Proof.
    revert i. induction ns as [|n ns IH]; intros i; [reflexivity|]. cbn [map nest_list].
    assert (E : nest1 (node_nested (mirror_node n)) i = nest1 (node_nested n) i).
    { destruct n as [s|l]; [reflexivity|]. cbn [mirror_node node_nested]. rewrite !nest1_node.
      assert (X : forall j, nest_list (map (@Leaf string) (map mirror l)) j = nest_list (map (@Leaf string) l) j).
      { clear. induction l as [|s l IHl]; intros j; [reflexivity|]. cbn [map nest_list nest1]. now rewrite IHl. }
      now rewrite X. }
    rewrite E. destruct (nest1 (node_nested n) i) as [y j]. now rewrite IH.
  Qed.

  Lemma flat_mirror ns : flat_map node_flat (map mirror_node ns) = map mirror (flat_map node_flat ns).
  Proof.
    induction ns as [|n ns IH]; simpl; [reflexivity|]. now rewrite map_app, mirror_flat, IH.
  Qed.

  (** Columns of the two connection tables. *)
  Lemma column_mirror flat names names' perm j j' t :
    (forall s, In s flat -> fwd s) -> fwd_sink t ->
    nth_error names j = Some t -> nth_error names' j' = Some (mirror t) ->
    (forall k, In k perm -> k < length flat) ->
    column (map (fun i => nth i (connection_table (map mirror flat) names' cns) []) perm) j' =
    column (map (fun i => nth i (connection_table flat names cns) []) perm) j.
  Proof.
    intros F Ft Hj Hj' B.
    rewrite (column_order _ _ _ _ _ _ Hj') by (intros k Hk; rewrite map_length; auto).
    rewrite (column_order _ _ _ _ _ _ Hj) by assumption.
    rewrite !map_map. apply map_ext_in. intros k Hk. specialize (B k Hk).
    assert (Hn : nth_error flat k = Some (nth k flat "")) by (now apply nth_error_nth').
    assert (En : nth k (map mirror flat) "" = mirror (nth k flat "")).
    { apply nth_error_nth. rewrite nth_error_map, Hn. reflexivity. }
    rewrite En. set (s := nth k flat "") in *. assert (Fs : fwd s) by (apply F; now apply nth_error_In in Hn).
    assert (C := cns_mirror s t Fs Ft).
    assert (X : forall a b, existsb (fun c : string * string => String.eqb (fst c) a && String.eqb (snd c) b) cns = true <-> In (a, b) cns).
    { intros a b. rewrite existsb_exists. split.
      - intros [[u v] [H1 H2]]. apply andb_true_iff in H2. rewrite !String.eqb_eq in H2. simpl in H2. destruct H2 as [<- <-]. assumption.
      - intros H. exists (a, b). split; [assumption|]. simpl. now rewrite !String.eqb_refl. }
    destruct (existsb _ cns) eqn:E1; destruct (existsb (fun c => String.eqb (fst c) s && _) cns) eqn:E2; try reflexivity.
    - apply X in E1. apply C in E1. apply X in E1. congruence.
    - apply X in E2. apply C in E2. apply X in E2. congruence.
  Qed.

  Notation so := (fun s => dget s (stub layers)).

  Lemma hub_create_parts ss ks h : hub_create ss ks so cns = LOk h ->
    exists srt structs names perm,
      sort_nodes ss = Some srt /\ get_all so (flat_map node_flat srt) = Some structs /\
      single_names ks = Some names /\
      permute_rows (convert_to_nested_indices (map node_nested srt)) (length (isort String.leb names))
         (connection_table (flat_map node_flat srt) (isort String.leb names) cns) = Some perm /\
      h_sources h = map (fun i => nth i (flat_map node_flat srt) "") perm /\
      h_sinks h = isort String.leb names /\
      h_table h = map (fun i => nth i (connection_table (flat_map node_flat srt) (isort String.leb names) cns) []) perm /\
      h_sizes h = map (fun i => ls_size (nth i structs default_struct)) perm.
  Proof.
    unfold hub_create. destruct (sort_nodes ss) as [srt|] eqn:Es; [|discriminate].
    destruct (get_all so (flat_map node_flat srt)) as [structs|] eqn:Eg; [|discriminate].
    destruct (uniform_nat (map ls_btype structs)) as [btype|] eqn:Eb; [|discriminate].
    destruct (single_names ks) as [names|] eqn:En; [|discriminate]. cbv zeta.
    destruct (permute_rows _ _ _) as [perm|] eqn:E; [|discriminate].
    destruct (uniform_bool _); [|discriminate]. intros [= <-].
    exists srt, structs, names, perm. repeat split; assumption.
  Qed.

  Lemma mirror_hub src snk src' snk' h h' :
    (forall a, In a src -> fnode a) -> Permutation src' (map mirror_node src) ->
    (forall t, In t snk -> exists u, t = Single u /\ fwd_sink u) -> Permutation snk' (map mirror_node snk) ->
    hub_create src snk so cns = LOk h -> hub_create src' snk' so cns = LOk h' ->
    h_sources h' = map mirror (h_sources h) /\ h_sizes h' = h_sizes h /\
    (forall j t, nth_error (h_sinks h) j = Some t ->
       exists j', nth_error (h_sinks h') j' = Some (mirror t) /\ sink_slice h' j' = sink_slice h j).
  Proof.
    intros F P Fk Pk H H'.
    destruct (hub_create_parts _ _ _ H) as [srt [structs [names [perm [E1 [E2 [E3 [E4 [E5 [E6 [E7 E8]]]]]]]]]]].
    destruct (hub_create_parts _ _ _ H') as [srt' [structs' [names' [perm' [E1' [E2' [E3' [E4' [E5' [E6' [E7' E8']]]]]]]]]]].
    assert (Es := sort_mirror src src' srt srt' F P E1 E1'). subst srt'.
    set (flat := flat_map node_flat srt) in *. rewrite flat_mirror in *. fold flat in E2', E4', E5', E7'.
    assert (Ff : forall s, In s flat -> fwd s).
    { intros s Hs. apply in_flat_map in Hs. destruct Hs as [n [Hn Hs]]. apply (fnode_flat n); [|assumption].
      apply F. apply sort_nodes_perm in E1. now apply (Permutation_in _ (Permutation_sym E1)). }
    set (names0 := isort String.leb names) in *. set (names1 := isort String.leb names') in *.
    destruct (single_names_spec _ _ E3) as [_ [N1 _]]. destruct (single_names_spec _ _ E3') as [_ [N1' _]].
    assert (Nf : forall t, In t names0 -> fwd_sink t).
    { intros t Ht. apply (proj1 (isort_string_In t names)) in Ht. apply N1 in Ht. destruct (Fk _ Ht) as [u [[= <-] Hu]]. assumption. }
    assert (Nm : forall t, In t names1 <-> exists u, In u names0 /\ t = mirror u).
    { intros t. unfold names1, names0. rewrite isort_string_In, N1'. split.
      - intros Ht. apply (Permutation_in _ Pk) in Ht. apply in_map_iff in Ht. destruct Ht as [t0 [E Ht]].
        destruct (Fk _ Ht) as [u [-> Hu]]. injection E as <-. exists u. rewrite isort_string_In, N1. auto.
      - intros [u [Hu ->]]. rewrite isort_string_In, N1 in Hu. apply (Permutation_in _ (Permutation_sym Pk)).
        apply in_map_iff. exists (Single u). auto. }
    set (nesting := convert_to_nested_indices (map node_nested srt)) in *.
    assert (En : convert_to_nested_indices (map node_nested (map mirror_node srt)) = nesting).
    { unfold nesting, convert_to_nested_indices. now rewrite nest_mirror. }
    rewrite En in E4'.
    assert (B : forall q, In q (map flatten (permutations nesting)) -> forall k, In k q -> k < length flat).
    { intros q Hq k Hk. apply in_map_iff in Hq. destruct Hq as [p0 [<- Hp]]. apply permutations_spec in Hp.
      apply (Permutation_in _ (Permutation_sym (flatten_perm _ _ Hp))) in Hk.
      unfold nesting in Hk. rewrite nesting_flatten in Hk. apply in_seq in Hk. fold flat in Hk. lia. }
    assert (Ep : perm' = perm).
    { assert (X : permute_rows nesting (length names1) (connection_table (map mirror flat) names1 cns)
                = permute_rows nesting (length names0) (connection_table flat names0 cns)).
      { unfold permute_rows. apply find_ext. intros q Hq. specialize (B q Hq).
        match goal with |- ?a = ?b => assert (Iff : a = true <-> b = true) end.
        { rewrite !can_be_connected_spec. split; intros K j Hj.
          - assert (Hn := nth_error_nth' names0 "" Hj).
            assert (It : In (nth j names0 "") names0) by now apply nth_In.
            assert (In (mirror (nth j names0 "")) names1) by (apply Nm; eauto).
            apply In_nth_error in H0. destruct H0 as [j' Hj'].
            rewrite <- (column_mirror flat names0 names1 q j j' (nth j names0 "")); auto.
            apply K. apply nth_error_Some. congruence.
          - assert (Hn := nth_error_nth' names1 "" Hj).
            assert (It : In (nth j names1 "") names1) by now apply nth_In.
            apply Nm in It. destruct It as [u [Hu Eu]]. rewrite Eu in Hn.
            apply In_nth_error in Hu. destruct Hu as [j' Hj'].
            rewrite (column_mirror flat names0 names1 q j' j u); auto.
            + apply K. apply nth_error_Some. congruence.
            + apply Nf. eapply nth_error_In; eauto. }
        destruct (can_be_connected_with_single_buffer (length names1) _), (can_be_connected_with_single_buffer (length names0) _); intuition congruence. }
      rewrite X in E4'. congruence. }
    subst perm'.
    assert (Bp : forall k, In k perm -> k < length flat).
    { apply B. unfold permute_rows in E4. apply find_some in E4. tauto. }
    split; [|split].
    - rewrite E5', E5. rewrite map_map. apply map_ext_in. intros k Hk. apply nth_error_nth.
      rewrite nth_error_map. rewrite (nth_error_nth' flat "") by auto. reflexivity.
    - rewrite E8', E8. apply map_ext_in. intros k Hk. specialize (Bp k Hk).
      destruct (get_all_spec _ _ _ E2) as [L1 G1]. destruct (get_all_spec _ _ _ E2') as [L2 G2].
      assert (Hn : nth_error flat k = Some (nth k flat "")) by now apply nth_error_nth'.
      destruct (G1 k _ Hn) as [st [S1 S2]].
      assert (Hn' : nth_error (map mirror flat) k = Some (mirror (nth k flat ""))) by (rewrite nth_error_map, Hn; reflexivity).
      destruct (G2 k _ Hn') as [st' [S1' S2']].
      rewrite (nth_error_nth _ _ _ S2), (nth_error_nth _ _ _ S2').
      destruct (mirror_struct (nth k flat "") st st') as [_ Hf]; try assumption.
      + apply Ff. now apply nth_In.
      + unfold ls_size. now rewrite Hf.
    - intros j t Hj. rewrite E6 in Hj.
      assert (It : In t names0) by (eapply nth_error_In; eauto).
      assert (Im : In (mirror t) names1) by (apply Nm; eauto). apply In_nth_error in Im. destruct Im as [j' Hj'].
      exists j'. rewrite E6'. split; [assumption|]. unfold sink_slice. rewrite E7, E7'.
      rewrite (column_mirror flat names0 names1 perm j j' t); auto.
      rewrite E8, E8'.
      replace (map (fun i => ls_size (nth i structs' default_struct)) perm) with (map (fun i => ls_size (nth i structs default_struct)) perm).
      + rewrite !map_length. reflexivity.
      + apply map_ext_in. intros k Hk. specialize (Bp k Hk).
        destruct (get_all_spec _ _ _ E2) as [L1 G1]. destruct (get_all_spec _ _ _ E2') as [L2 G2].
        assert (Hn : nth_error flat k = Some (nth k flat "")) by now apply nth_error_nth'.
        destruct (G1 k _ Hn) as [st [S1 S2]].
        assert (Hn' : nth_error (map mirror flat) k = Some (mirror (nth k flat ""))) by (rewrite nth_error_map, Hn; reflexivity).
        destruct (G2 k _ Hn') as [st' [S1' S2']].
        rewrite (nth_error_nth _ _ _ S2), (nth_error_nth _ _ _ S2').
        destruct (mirror_struct (nth k flat "") st st') as [_ Hf]; try assumption.
        * apply Ff. now apply nth_In.
        * unfold ls_size. now rewrite Hf.
  Qed.

  Lemma mirror_indices src snk src' snk' h h' :
    (forall a, In a src -> fnode a) -> Permutation src' (map mirror_node src) ->
    (forall t, In t snk -> exists u, t = Single u /\ fwd_sink u) -> Permutation snk' (map mirror_node snk) ->
    hub_create src snk so cns = LOk h -> hub_create src' snk' so cns = LOk h' ->
    forall p sl, In (p, sl) (get_indices h) -> In (mirror p, sl) (get_indices h').
  Proof.
    intros F P Fk Pk H H' p sl Hi. destruct (mirror_hub _ _ _ _ _ _ F P Fk Pk H H') as [M1 [M2 M3]].
    unfold get_indices in *. apply in_app_or in Hi. apply in_or_app. destruct Hi as [Hi|Hi].
    - left. unfold source_indices in *. apply in_map_iff in Hi. destruct Hi as [i [[= <- <-] Hi]].
      apply in_map_iff. exists i. rewrite M1, M2, map_length. split; [|assumption].
      f_equal. apply in_seq in Hi. apply nth_error_nth. rewrite nth_error_map.
      rewrite (nth_error_nth' (h_sources h) "") by lia. reflexivity.
    - right. unfold sink_indices in *. apply in_map_iff in Hi. destruct Hi as [j [[= <- <-] Hj]]. apply in_seq in Hj.
      destruct (M3 j (nth j (h_sinks h) "")) as [j' [Hj' Es]]; [apply nth_error_nth'; lia|].
      apply in_map_iff. exists j'. rewrite Es. split.
      + now rewrite (nth_error_nth _ _ _ Hj').
      + apply in_seq. split; [lia|]. simpl. apply nth_error_Some. congruence.
  Qed.

  (** ** All sources *)
  Lemma find_merge s : find (smem s) fos = match merge_node fos s with Group fo => Some fo | Single _ => None end.
  Proof.
    clear. unfold merge_node. induction fos as [|fo r IH]; simpl; [reflexivity|].
    destruct (smem s fo); [now rewrite merge_node_group | exact IH].
  Qed.

  Lemma forced_NoDup fo : In fo fos -> NoDup fo.
  Proof.
    intros H. apply fos_In in H. destruct H as [_ [l [Hl [->| ->]]]].
    - unfold pgroup. rewrite <- (map_map fst (path3 (l_name l) "parameters")).
      apply NoDup_map_inj; [|apply (wf_params _ W l Hl)]. intros x y Hx Hy E.
      assert (Np := names_comp _ x (wf_params _ W l Hl) Hx). assert (Nq := names_comp _ y (wf_params _ W l Hl) Hy).
      apply path3_inj in E; try assumption; try cat; try now apply name_comp. tauto.
    - unfold ggroup. rewrite <- (map_map fst (path3 (l_name l) "gradients")).
      apply NoDup_map_inj; [|apply (wf_params _ W l Hl)]. intros x y Hx Hy E.
      assert (Np := names_comp _ x (wf_params _ W l Hl) Hx). assert (Nq := names_comp _ y (wf_params _ W l Hl) Hy).
      apply path3_inj in E; try assumption; try cat; try now apply name_comp. tauto.
  Qed.

  Lemma merge_flat_eq s x : In x (node_flat (merge_node fos s)) -> merge_node fos x = merge_node fos s.
  Proof.
    destruct (merge_node_cases fos s) as [[fo [E [I1 I2]]]|[E N]]; rewrite E; simpl.
    - intros H. now apply merge_group.
    - intros [->|[]]. assumption.
  Qed.

  Lemma add_sources_spec l : forall acc,
    NoDup (flat_map node_flat acc) ->
    (forall n, In n acc -> exists s, n = merge_node fos s) ->
    NoDup l -> (forall s, In s l -> ~ In (Single s) acc) ->
    NoDup (flat_map node_flat (fold_left (add_source fos) l acc)) /\
    (forall n, In n (fold_left (add_source fos) l acc) <-> In n acc \/ exists s, In s l /\ n = merge_node fos s).
  Proof.
    induction l as [|s l IH]; intros acc ND Hacc NDl Hl.
    - simpl. split; [assumption|]. intros n. split; [now left | intros [H|[s [[] _]]]; assumption].
    - inversion NDl as [|? ? Ns NDl']; subst.
      assert (Step : add_source fos acc s = acc /\ In (merge_node fos s) acc \/
                     add_source fos acc s = acc ++ [merge_node fos s] /\ ~ In s (flat_map node_flat acc)).
      { unfold add_source. destruct fos as [|f0 fr] eqn:Ef.
        - right. split; [reflexivity|]. intros H. apply in_flat_map in H. destruct H as [n [Hn Hs]].
          destruct (Hacc n Hn) as [s' ->]. simpl in Hs. destruct Hs as [<-|[]].
          apply (Hl s'); [now left | exact Hn].
        - rewrite <- Ef in *. destruct (smem s (flat_map node_flat acc)) eqn:E.
          + left. split; [reflexivity|]. apply smem_In in E. apply in_flat_map in E. destruct E as [n [Hn Hs]].
            destruct (Hacc n Hn) as [s' ->]. apply merge_flat_eq in Hs. now rewrite Hs.
          + right. apply smem_false in E. split; [|assumption]. rewrite find_merge.
            destruct (merge_node_cases fos s) as [[fo [-> _]]|[-> _]]; reflexivity. }
      cbn [fold_left]. destruct Step as [[-> Hin]|[-> Hnin]].
      + destruct (IH acc ND Hacc NDl' (fun x Hx => Hl x (or_intror Hx))) as [A B]. split; [assumption|].
        intros n. rewrite B. split.
        * intros [H|[x [Hx ->]]]; [now left | right; exists x; split; [now right | reflexivity]].
        * intros [H|[x [[<-|Hx] ->]]]; [now left | now left | right; eauto].
      + destruct (IH (acc ++ [merge_node fos s])) as [A B].
        * rewrite flat_map_app. simpl. rewrite app_nil_r.
          assert (Nn : NoDup (node_flat (merge_node fos s))).
          { destruct (merge_node_cases fos s) as [[fo [-> [I1 _]]]|[-> _]]; simpl; [now apply forced_NoDup | repeat constructor; intros []]. }
          assert (D : forall x, In x (flat_map node_flat acc) -> ~ In x (node_flat (merge_node fos s))).
          { intros x H1 H2. apply Hnin. apply merge_flat_eq in H2. apply in_flat_map in H1. destruct H1 as [n [Hn Hx]].
            destruct (Hacc n Hn) as [s' ->]. apply merge_flat_eq in Hx. apply in_flat_map. exists (merge_node fos s').
            split; [assumption|]. rewrite <- Hx, H2. apply merge_flat. }
          clear - ND Nn D. induction (flat_map node_flat acc) as [|y ys IHy]; simpl; [assumption|].
          inversion ND as [|? ? M1 M2]; subst. constructor.
          -- rewrite in_app_iff. intros [X|X]; [contradiction|]. apply (D y); [now left | assumption].
          -- apply IHy; [assumption|]. intros x Hx. apply D. now right.
        * intros n Hn. apply in_app_or in Hn. destruct Hn as [Hn|[<-|[]]]; eauto.
        * assumption.
        * intros x Hx Hin. apply in_app_or in Hin. destruct Hin as [Hin|[Hin|[]]]; [now apply (Hl x); [right|]|].
          destruct (merge_node_cases fos s) as [[fo [E [I1 _]]]|[E _]]; rewrite E in Hin; [discriminate|].
          injection Hin as ->. contradiction.
        * split; [assumption|]. intros n. rewrite B, in_app_iff. simpl. split.
          -- intros [[H|[<-|[]]]|[x [Hx ->]]]; [now left | right; exists s; auto | right; exists x; auto].
          -- intros [H|[x [[<-|Hx] ->]]]; [auto | left; right; now left | right; eauto].
  Qed.

  Definition is_sink (t : string) : Prop := exists s, In (s, t) cns.
  Lemma all_sources_spec :
    NoDup (flat_map node_flat (get_all_sources fos cns (map fst (stub layers)))) /\
    forall n, In n (get_all_sources fos cns (map fst (stub layers))) <->
      exists s, In s (map fst (stub layers)) /\ ~ is_sink s /\ n = merge_node fos s.
  Proof.
    unfold get_all_sources. set (f := fun s => negb _).
    assert (Hf : forall s, f s = true <-> ~ is_sink s /\ s <> "parameters" /\ s <> "gradients").
    { intros s. unfold f. rewrite negb_true_iff, smem_false, in_app_iff. unfold is_sink. simpl. split.
      - intros H. split; [|split; intros ->; apply H; tauto].
        intros [u Hu]. apply H. left. apply in_map_iff. exists (u, s). auto.
      - intros [H1 [H2 H3]] [H|H]; [|intuition congruence]. apply in_map_iff in H.
        destruct H as [[u v] [E H]]. simpl in E. subst v. apply H1. eauto. }
    assert (Hs : forall s, In s (filter f ("parameters" :: "gradients" :: map fst (stub layers))) <->
                   In s (map fst (stub layers)) /\ ~ is_sink s).
    { intros s. rewrite filter_In, Hf. simpl. split.
      - intros [[<-|[<-|H]] [H1 [H2 H3]]]; try congruence. auto.
      - intros [H1 H2]. split; [auto|]. split; [assumption|].
        apply in_map_iff in H1. destruct H1 as [[p st] [<- H1]]. apply stub_In in H1.
        destruct H1 as [l [c [d [x [Hl [Hc [Hx ->]]]]]]].
        destruct (entry_comp l c d x Hl Hc) as [C1 [C2 C3]]; [now apply (in_map fst) in Hx|].
        split; apply path3_not_root; auto. }
    destruct (add_sources_spec (filter f ("parameters" :: "gradients" :: map fst (stub layers))) []) as [A B].
    - constructor.
    - intros n [].
    - cbn [filter].
      assert (F1 : f "parameters" = false). { unfold f. apply negb_false_iff, smem_In, in_or_app. right. now left. }
      assert (F2 : f "gradients" = false). { unfold f. apply negb_false_iff, smem_In, in_or_app. right. right. now left. }
      rewrite F1, F2. apply NoDup_filter, stub_NoDup.
    - intros s _ [].
    - split; [exact A|]. intros n. rewrite B. split.
      + intros [[]|[s [H1 ->]]]. apply Hs in H1. exists s. tauto.
      + intros [s [H1 [H2 ->]]]. right. exists s. split; [|reflexivity]. now apply Hs.
  Qed.

  (** ** Every start of a connection is a source *)
  Lemma delta_exists l c x : In l layers -> In c (l_outgoing l) -> out_ref (c_output c) ("internals", x) ->
    In ("d" ++ x)%string (map fst (l_int l)).
  Proof.
    intros Hl Hc Ho. revert Hcns. unfold get_connections.
    destruct (collect _ layers) as [cs|] eqn:E1; [|discriminate]. intros _.
    destruct (collect_each _ _ _ E1 l Hl) as [zs Hz]. destruct (collect_each _ _ _ Hz c Hc) as [ws Hw].
    destruct (wf_conn _ W l c Hl Hc) as [Es [_ [l' [Hl' [Ee Hi]]]]].
    assert (Cl := name_comp l Hl). assert (Cl' := name_comp l' Hl').
    assert (Ci : component (c_input c)) by (apply (names_comp (l_in l')); [now apply W | assumption]).
    destruct (out_ref_comp _ _ _ Ho) as [Cx _].
    unfold con_connections in Hw. rewrite Es, Ee in Hw.
    assert (N : npath [l_name l; "outputs"; c_output c] = LOk (path3 (l_name l) "internals" x)).
    { inversion Ho as [y Cy E|y Cy E|y Cy E]; subst. apply npath_dotdot; assumption || cat. }
    rewrite N, npath3 in Hw by (assumption || cat). unfold get_backward_connection in Hw.
    rewrite !split2_path3 in Hw by (assumption || cat). simpl in Hw.
    destruct (dmem (String "d" x) (l_int l)) eqn:D; [|discriminate]. now apply smem_In in D.
  Qed.

  Lemma stub_names s : In s (map fst (stub layers)) <->
    exists l c d x, In l layers /\ In (c, d) (cat_entries l) /\ In x (map fst d) /\ s = path3 (l_name l) c x.
  Proof.
    rewrite in_map_iff. split.
    - intros [[p st] [<- H]]. apply stub_In in H. destruct H as [l [c [d [x [Hl [Hc [Hx ->]]]]]]].
      exists l, c, d, x. apply (in_map fst) in Hx. auto.
    - intros [l [c [d [x [Hl [Hc [Hx ->]]]]]]]. apply in_map_iff in Hx. destruct Hx as [[y st] [E Hx]]. simpl in E. subst y.
      exists (path3 (l_name l) c x, st). split; [reflexivity|]. apply stub_In. exists l, c, d, x. auto.
  Qed.

  Lemma sorted_fst d x : In x (map fst (sorted_entries d)) <-> In x (map fst d).
  Proof.
    assert (P : Permutation (map fst (sorted_entries d)) (map fst d)) by apply Permutation_map, isort_perm.
    split; apply Permutation_in; [exact P | now apply Permutation_sym].
  Qed.

  Lemma fwd_stub s : fwd s -> In s (map fst (stub layers)) /\ In (mirror s) (map fst (stub layers)).
  Proof.
    intros F. rewrite !stub_names.
    destruct (fwd_inv s F) as [l [cat [x [cat' [x' [Hl [Cx [Cx' [E [M D]]]]]]]]]]. rewrite E, M in *.
    destruct D as [[D [-> I]]|[[D [-> I]]|[[D [-> I]]|[D [-> [I [c [Hc Ho]]]]]]]]; injection D as -> ->.
    - split.
      + exists l, "inputs", (sorted_entries (l_in l)), x. split; [assumption|]. split; [simpl; tauto|]. split; [now apply sorted_fst | reflexivity].
      + exists l, "input_deltas", (backward_entries (sorted_entries (l_in l))), x. split; [assumption|]. split; [simpl; tauto|].
        rewrite backward_names. split; [now apply sorted_fst | reflexivity].
    - split.
      + exists l, "outputs", (l_out l), x. split; [assumption|]. split; [simpl; tauto|]. auto.
      + exists l, "output_deltas", (backward_entries (l_out l)), x. split; [assumption|]. split; [simpl; tauto|].
        rewrite backward_names. auto.
    - split.
      + exists l, "parameters", (l_params l), x. split; [assumption|]. split; [simpl; tauto|]. auto.
      + exists l, "gradients", (backward_entries (l_params l)), x. split; [assumption|]. split; [simpl; tauto|].
        rewrite backward_names. auto.
    - split.
      + exists l, "internals", (l_int l), x. split; [assumption|]. split; [simpl; tauto|]. auto.
      + exists l, "internals", (l_int l), ("d" ++ x)%string. split; [assumption|]. split; [simpl; tauto|].
        split; [now apply (delta_exists l c) | reflexivity].
  Qed.

  Lemma sink_fcon t : fwd t -> is_sink t -> exists s, fcon (s, t).
  Proof.
    intros F [s H]. destruct (In_cns s t H) as [G|[s' [t' [G [-> ->]]]]]; [eauto|]. exfalso.
    apply fcon_fwd in G. destruct G as [_ G]. destruct (fwd_sink_cases t' G) as [->|G'].
    - rewrite mirror_root in F. now destruct (fwd_not_root _ "gradients" F eq_refl).
    - now apply (mirror_not_fwd t').
  Qed.
  Lemma sink_mirror_fcon t : fwd t -> is_sink (mirror t) -> exists s, fcon (s, t).
  Proof.
    intros F [s H]. destruct (In_cns _ _ H) as [G|[s' [t' [G [-> E]]]]].
    - exfalso. apply fcon_fwd in G. destruct G as [_ G]. destruct (fwd_sink_cases _ G) as [E|G'].
      + now destruct (fwd_not_root t "parameters" F eq_refl).
      + now apply (mirror_not_fwd t).
    - exists s'. assert (G' := fcon_fwd _ _ G). destruct G' as [_ G']. destruct (fwd_sink_cases _ G') as [->|F'].
      + rewrite mirror_root in E. now destruct (fwd_not_root t "gradients" F eq_refl).
      + assert (t = t') by now apply mirror_inj. now subst.
  Qed.

  (** Starts are not inputs, so they are not sinks. *)
  Lemma start_not_sink s t : fcon (s, t) -> ~ is_sink s /\ ~ is_sink (mirror s).
  Proof.
    intros H.
    assert (N : forall s0, ~ fcon (s0, s)).
    { intros s0 H0. destruct (fcon_fwd _ _ H) as [F _]. destruct (fcon_fwd _ _ H0) as [_ [E|[l [x [Hl [Hx E]]]]]].
      - now destruct (fwd_not_root s "parameters" F eq_refl).
      - assert (Cx : component x) by (apply (names_comp (l_in l)); [now apply W | assumption]).
        inversion H as [k c cat y Hk Hc Ho|k y Hk Hy]; subst.
        + destruct (out_ref_comp _ _ _ Ho) as [Cy Hcat].
          assert (Ccat : component cat) by (simpl in Hcat; intuition subst; cat).
          match goal with X : path3 _ cat _ = _ |- _ => apply path3_inj in X; try assumption; try cat; try (now apply name_comp); destruct X as [_ [X _]]; subst cat end.
          simpl in Hcat. intuition discriminate.
        + assert (Cy : component y) by (apply (names_comp (l_params k)); [now apply W | assumption]).
          match goal with X : path3 _ _ _ = _ |- _ => apply path3_inj in X; try assumption; try cat; try (now apply name_comp); destruct X as [_ [X _]]; discriminate end. }
    destruct (fcon_fwd _ _ H) as [F _]. split; intros K.
    - destruct (sink_fcon s F K) as [s0 H0]. now apply (N s0).
    - destruct (sink_mirror_fcon s F K) as [s0 H0]. now apply (N s0).
  Qed.

  Lemma fcon_source s t : fcon (s, t) ->
    In (merge_node fos s) (get_all_sources fos cns (map fst (stub layers))) /\
    In (merge_node fos (mirror s)) (get_all_sources fos cns (map fst (stub layers))).
  Proof.
    intros H. destruct (fcon_fwd _ _ H) as [F _]. destruct (fwd_stub s F) as [S1 S2].
    destruct (start_not_sink s t H) as [N1 N2]. destruct all_sources_spec as [_ A].
    split; apply A; eauto.
  Qed.

  (** ** Classes *)
  Variable hubs0 : list hub.
  Hypothesis Hhubs : group_into_hubs (get_all_sources fos cns (map fst (stub layers))) fos cns so = LOk hubs0.

  Definition hub_class (h : hub) (src snk : list node) : Prop :=
    In h hubs0 /\ hub_create src snk so cns = LOk h /\ exists n, component_of M n src snk.

  Lemma component_any n src snk a : component_of M n src snk -> In a src -> component_of M a src snk.
  Proof.
    intros [N1 [N2 [S1 S2]]] Ha. apply S1 in Ha. split; [assumption|]. split; [assumption|]. split.
    - intros b. rewrite S1. split; intros T; (eapply rt_trans; [|exact T]); [now apply together_sym | assumption].
    - intros t. rewrite S2. split; intros [b [T I]]; exists b; (split; [|assumption]); (eapply rt_trans; [|exact T]);
        [now apply together_sym | assumption].
  Qed.

  Lemma hub_of_source n : In n (get_all_sources fos cns (map fst (stub layers))) ->
    exists h src snk, hub_class h src snk /\ In n src /\ component_of M n src snk.
  Proof.
    intros Hn. destruct (group_loop_spec _ _ _ _ _ _ Hhubs) as [cls [P [F1 F2]]].
    apply (Permutation_in _ (Permutation_sym P)) in Hn. apply in_concat in Hn. destruct Hn as [src [Hs Hn]].
    apply in_map_iff in Hs. destruct Hs as [[src' snk] [E Hc]]. simpl in E. subst src'.
    rewrite Forall_forall in F1. destruct (F1 _ Hc) as [n0 C]. simpl in C.
    assert (X : exists h, In h hubs0 /\ hub_create src snk so cns = LOk h).
    { clear - F2 Hc. induction F2 as [|cl h cls hs Hch F IH]; [destruct Hc|]. destruct Hc as [->|Hc].
      - exists h. split; [now left | exact Hch].
      - destruct (IH Hc) as [h' [I E]]. exists h'. split; [now right | assumption]. }
    destruct X as [h [Hh Hch]]. exists h, src, snk. split; [|split; [assumption | now apply (component_any n0)]].
    split; [assumption|]. split; [assumption | eauto].
  Qed.
  Lemma class_of_hub h : In h hubs0 -> exists src snk, hub_class h src snk /\
    forall n, In n src -> In n (get_all_sources fos cns (map fst (stub layers))).
  Proof.
    intros Hh. destruct (group_loop_spec _ _ _ _ _ _ Hhubs) as [cls [P [F1 F2]]].
    assert (X : exists cl, In cl cls /\ hub_create (fst cl) (snd cl) so cns = LOk h).
    { clear - F2 Hh. induction F2 as [|cl h' cls hs Hch F IH]; [destruct Hh|]. destruct Hh as [->|Hh].
      - exists cl. split; [now left | exact Hch].
      - destruct (IH Hh) as [cl' [I E]]. exists cl'. split; [now right | assumption]. }
    destruct X as [[src snk] [Hc Hch]]. exists src, snk. rewrite Forall_forall in F1. destruct (F1 _ Hc) as [n0 C]. split.
    - split; [assumption|]. split; [assumption | eauto].
    - intros n Hn. apply (Permutation_in _ P). apply in_concat. exists src. split; [|assumption].
      apply in_map_iff. exists (src, snk). auto.
  Qed.

  Lemma index_names h : map fst (get_indices h) = h_sources h ++ h_sinks h.
  Proof.
    assert (X : forall (l : list string) (g : nat -> nat * nat), map fst (map (fun i => (nth i l "", g i)) (seq 0 (length l))) = l).
    { intros l g. rewrite map_map. simpl. apply nth_error_ext. intros i. rewrite nth_error_map.
      destruct (le_lt_dec (length l) i) as [L|L].
      - rewrite (proj2 (nth_error_None (seq 0 (length l)) i)) by (rewrite seq_length; lia). simpl. symmetry. now apply nth_error_None.
      - rewrite (nth_error_nth' (seq 0 (length l)) 0) by (rewrite seq_length; lia). rewrite seq_nth by lia. simpl.
        symmetry. now apply nth_error_nth'. }
    unfold get_indices, source_indices, sink_indices. now rewrite map_app, !X.
  Qed.

  Lemma class_sources h src snk : hub_create src snk so cns = LOk h -> Permutation (h_sources h) (flat_map node_flat src).
  Proof.
    intros H. apply hub_create_spec in H. destruct H as [[order [P ->]] _].
    apply Permutation_sym. clear - P. induction P; simpl; auto.
    - now apply Permutation_app_head.
    - rewrite !app_assoc. apply Permutation_app_tail, Permutation_app_comm.
    - eapply Permutation_trans; eauto.
  Qed.
  Lemma class_sinks h src snk : hub_create src snk so cns = LOk h -> NoDup snk ->
    NoDup (h_sinks h) /\ forall t, In t (h_sinks h) <-> In (Single t) snk.
  Proof.
    intros H N. split.
    - destruct (hub_create_parts _ _ _ H) as [srt [structs [names [perm [_ [_ [E3 [_ [_ [E6 _]]]]]]]]]].
      destruct (single_names_spec _ _ E3) as [_ [_ E]]. rewrite E in N. rewrite E6.
      apply (Permutation_NoDup (Permutation_sym (isort_perm String.leb names))).
      clear - N. induction names as [|a r IH]; simpl in N; [constructor|]. inversion N as [|? ? N1 N2]; subst. constructor; [|auto].
      intros X. apply N1. now apply in_map.
    - apply hub_create_spec in H. destruct H as [_ [Hk _]]. exact Hk.
  Qed.

  (** No name occurs twice in the layout. *)
  Lemma names_NoDup : NoDup (flat_map (fun h => map fst (get_indices h)) hubs0).
  Proof.
    destruct all_sources_spec as [ND AS].
    destruct (group_loop_spec _ _ _ _ _ _ Hhubs) as [cls [P [F1 F2]]].
    assert (NDc : NoDup (flat_map node_flat (concat (map fst cls)))).
    { eapply Permutation_NoDup; [|exact ND]. apply Permutation_sym. clear - P. induction P; simpl; auto.
      - now apply Permutation_app_head.
      - rewrite !app_assoc. apply Permutation_app_tail, Permutation_app_comm.
      - eapply Permutation_trans; eauto. }
    assert (Src : forall x n, In n (concat (map fst cls)) -> In x (node_flat n) -> ~ is_sink x).
    { intros x n Hn Hx Hk. apply (Permutation_in _ P) in Hn. apply AS in Hn. destruct Hn as [s [_ [Ns ->]]].
      assert (Mx : merge_node fos x = Single x).
      { destruct Hk as [u Hu]. destruct (In_cns u x Hu) as [G|[s' [t' [G [_ ->]]]]]; apply fcon_fwd in G; now apply merge_sink. }
      assert (Ms := merge_flat_eq s x Hx). rewrite Mx in Ms. rewrite <- Ms in Hx. apply Ns.
      destruct (merge_node_cases fos s) as [[fo [E _]]|[E _]]; rewrite E in Ms; [discriminate|]. injection Ms as ->. assumption. }
    clear P AS ND Hhubs. induction F2 as [|[src snk] h cls hs Hch F2 IH]; [constructor|].
    inversion F1 as [|? ? [n0 C] F1']; subst. simpl in C, Hch. cbn [map concat fst] in *.
    rewrite flat_map_app in NDc. cbn [flat_map].
    assert (NDs : NoDup (flat_map node_flat src)) by (clear - NDc; induction (flat_map node_flat src); [constructor|]; simpl in NDc; inversion NDc; subst; constructor; [intros X; apply H1, in_or_app; now left | auto]).
    assert (NDr : NoDup (flat_map node_flat (concat (map fst cls)))) by (clear - NDc; induction (flat_map node_flat src); [assumption|]; simpl in NDc; inversion NDc; subst; auto).
    assert (Dis : forall x, In x (flat_map node_flat src) -> ~ In x (flat_map node_flat (concat (map fst cls)))).
    { clear - NDc. induction (flat_map node_flat src) as [|y ys IHy]; intros x Hx Hy; [destruct Hx|]. simpl in NDc.
      inversion NDc as [|? ? N1 N2]; subst. destruct Hx as [->|Hx]; [apply N1, in_or_app; now right | now apply (IHy N2 x)]. }
    destruct (class_sinks h src snk Hch) as [NDk Hk]; [apply C|].
    assert (Ps := class_sources h src snk Hch).
    assert (Sk : forall t, In t (h_sinks h) -> is_sink t /\ exists n x, In n src /\ In (x, t) cns /\ n = merge_node fos x).
    { intros t Ht. apply Hk in Ht. destruct C as [_ [_ [S1 S2]]]. apply S2 in Ht. destruct Ht as [a [T I]].
      apply M_In in I. destruct I as [x [u [I [E [= ->]]]]]. split; [exists x; exact I|]. exists a, x.
      split; [now apply S1 | auto]. }
    rewrite index_names.
    (* names of the remaining hubs *)
    assert (Rest : forall x, In x (flat_map (fun h => map fst (get_indices h)) hs) ->
       In x (flat_map node_flat (concat (map fst cls))) \/
       is_sink x /\ exists n y, In n (concat (map fst cls)) /\ In (y, x) cns /\ n = merge_node fos y).
    { clear - F2 F1' W Hfos Hcns. induction F2 as [|[src' snk'] h' cls' hs' Hch' F2' IH']; [intros x []|].
      inversion F1' as [|? ? [n1 C'] F1'']; subst. simpl in C', Hch'. intros x Hx. cbn [flat_map map concat fst] in *.
      rewrite flat_map_app. apply in_app_or in Hx. destruct Hx as [Hx|Hx].
      - rewrite index_names in Hx. apply in_app_or in Hx. destruct Hx as [Hx|Hx].
        + left. apply in_or_app. left. now apply (Permutation_in _ (class_sources h' src' snk' Hch')).
        + right. destruct (class_sinks h' src' snk' Hch') as [_ Hk']; [apply C'|]. apply Hk' in Hx.
          destruct C' as [_ [_ [S1 S2]]]. apply S2 in Hx. destruct Hx as [a [T I]].
          apply M_In in I. destruct I as [y [u [I [E [= ->]]]]]. split; [exists y; exact I|]. exists a, y.
          split; [apply in_or_app; left; now apply S1 | auto].
      - destruct (IH' F1'' x Hx) as [H|[H [n [y [H1 [H2 H3]]]]]].
        + left. apply in_or_app. now right.
        + right. split; [assumption|]. exists n, y. split; [apply in_or_app; now right | auto]. }
    assert (NDh : NoDup (h_sources h ++ h_sinks h)).
    { assert (N1 : NoDup (h_sources h)) by (apply (Permutation_NoDup (Permutation_sym Ps) NDs)).
      assert (D : forall x, In x (h_sources h) -> ~ In x (h_sinks h)).
      { intros x H1 H2. apply (Permutation_in _ Ps) in H1. apply in_flat_map in H1. destruct H1 as [n [Hn Hx]].
        apply (Src x n); [apply in_or_app; now left | assumption | now apply Sk]. }
      clear - N1 NDk D. induction N1 as [|y ys M1 M2 IHy]; simpl; [assumption|]. constructor.
      - rewrite in_app_iff. intros [X|X]; [contradiction|]. apply (D y); [now left | assumption].
      - apply IHy. intros x Hx. apply D. now right. }
    assert (Dall : forall x, In x (h_sources h ++ h_sinks h) -> ~ In x (flat_map (fun h => map fst (get_indices h)) hs)).
    { intros x H1 H2. apply in_app_or in H1. destruct (Rest x H2) as [R|[Rk [n [y [Rn [Ry En]]]]]].
      - destruct H1 as [H1|H1].
        + apply (Permutation_in _ Ps) in H1. now apply (Dis x).
        + apply in_flat_map in R. destruct R as [n [Hn Hx]]. apply (Src x n); [apply in_or_app; now right | assumption | now apply Sk].
      - destruct H1 as [H1|H1].
        + apply (Permutation_in _ Ps) in H1. apply in_flat_map in H1. destruct H1 as [n' [Hn' Hx]].
          apply (Src x n'); [apply in_or_app; now left | assumption | assumption].
        + (* a common sink: the sources are in the same component *)
          destruct (Sk x H1) as [_ [a [z [Ha [Iz Ea]]]]].
          assert (In n src).
          { destruct C as [_ [_ [S1 _]]]. apply S1. apply S1 in Ha. eapply rt_trans; [exact Ha|]. apply rt_step.
            exists (Single x). split; apply M_In; [exists z, x | exists y, x]; auto. }
          apply (Dis y).
          * apply in_flat_map. exists n. split; [assumption|]. rewrite En. apply merge_flat.
          * apply in_flat_map. exists n. split; [assumption|]. rewrite En. apply merge_flat. }
    assert (NDrest : NoDup (flat_map (fun h => map fst (get_indices h)) hs)).
    { apply IH; try assumption. intros x n Hn. apply Src. apply in_or_app. now right. }
    clear - NDh Dall NDrest. induction NDh as [|y ys M1 M2 IHy]; simpl; [assumption|]. constructor.
    - rewrite in_app_iff. intros [X|X]; [contradiction|]. apply (Dall y); [now left | assumption].
    - apply IHy. intros x Hx. apply Dall. now right.
  Qed.

  (** ** The filled-in layout *)
  Definition lhubs := isort hub_leb hubs0.
  Lemma layout_names : map fst (layout_entries lhubs) = flat_map (fun h => map fst (get_indices h)) lhubs.
  Proof.
    unfold layout_entries. rewrite map_flat_map.
    assert (X : forall hs i, flat_map (fun x => map fst (map (fun e : string * (nat * nat) => (fst e, (fst x, snd e))) (get_indices (snd x)))) (combine (seq i (length hs)) hs)
                = flat_map (fun h => map fst (get_indices h)) hs).
    { induction hs as [|h hs IH]; intros i; [reflexivity|]. cbn [length seq combine flat_map fst snd]. rewrite IH.
      f_equal. rewrite map_map. reflexivity. }
    apply X.
  Qed.
  Lemma layout_names_NoDup : NoDup (map fst (layout_entries lhubs)).
  Proof.
    rewrite layout_names. eapply Permutation_NoDup; [|exact names_NoDup].
    assert (P : Permutation hubs0 lhubs) by apply Permutation_sym, isort_perm. clear - P.
    induction P; simpl; auto.
    - now apply Permutation_app_head.
    - rewrite !app_assoc. apply Permutation_app_tail, Permutation_app_comm.
    - eapply Permutation_trans; eauto.
  Qed.
  Lemma fill_spec entries d : NoDup (map fst entries) -> forall k v,
    dget k (fill entries d) = Some v <-> In (k, v) entries \/ ~ In k (map fst entries) /\ dget k d = Some v.
  Proof.
    clear. unfold fill. revert d. induction entries as [|[k0 v0] r IH]; intros d N k v; simpl.
    - tauto.
    - inversion N as [|? ? N1 N2]; subst. rewrite IH by assumption. split.
      + intros [H|[H1 H2]]; [auto|]. destruct (string_dec k k0) as [->|Nk].
        * rewrite dget_dset_same in H2. injection H2 as ->. auto.
        * rewrite dget_dset_other in H2 by assumption. right. split; [|assumption]. intros [E|E]; [congruence | contradiction].
      + intros [[E|H]|[H1 H2]]; [|now left|].
        * injection E as -> ->. right. split; [assumption|]. apply dget_dset_same.
        * right. split; [tauto|]. rewrite dget_dset_other; [assumption|]. intros E. apply H1. now left.
  Qed.
  Lemma entry_hub p k sl : In (p, (k, sl)) (layout_entries lhubs) <->
    exists h, nth_error lhubs k = Some h /\ In (p, sl) (get_indices h).
  Proof.
    unfold layout_entries. rewrite in_flat_map. split.
    - intros [[k' h] [H1 H2]]. apply in_map_iff in H2. destruct H2 as [[p' sl'] [[= <- <- <-] H2]]. exists h. split; [|assumption].
      apply In_nth_error in H1. destruct H1 as [i Hi].
      assert (L : i < length lhubs).
      { assert (X : i < length (combine (seq 0 (length lhubs)) lhubs)) by (apply nth_error_Some; congruence).
        rewrite combine_length, seq_length in X. lia. }
      assert (E : nth_error (combine (seq 0 (length lhubs)) lhubs) i = Some (i, nth i lhubs h)).
      { rewrite (nth_error_nth' _ (0, h)) by (rewrite combine_length, seq_length; lia).
        rewrite combine_nth by now rewrite seq_length. now rewrite seq_nth. }
      rewrite E in Hi. injection Hi as Ei Hn. rewrite <- Ei. rewrite (nth_error_nth' lhubs h L). now f_equal.
    - intros [h [H1 H2]]. exists (k, h). split.
      + assert (L : k < length lhubs) by (apply nth_error_Some; congruence).
        apply nth_error_In with k. rewrite (nth_error_nth' _ (0, h)) by (rewrite combine_length, seq_length; lia).
        rewrite combine_nth by now rewrite seq_length. rewrite seq_nth by assumption. now rewrite (nth_error_nth _ _ _ H1).
      + apply in_map_iff. exists (p, sl). auto.
  Qed.

  Lemma layout_spec p k sl : dget p (fill (layout_entries lhubs) []) = Some (k, sl) <->
    exists h, nth_error lhubs k = Some h /\ In (p, sl) (get_indices h).
  Proof.
    rewrite <- entry_hub. rewrite fill_spec by exact layout_names_NoDup. simpl. split; [|now left].
    intros [H|[_ H]]; [assumption | discriminate].
  Qed.

  Lemma lhubs_In h : In h lhubs <-> In h hubs0.
  Proof. apply isort_In. Qed.

  (** The slices of the delta buffers equal those of the forward buffers. *)
  Lemma layout_mirror p k sl : fwd p \/ p = "parameters" ->
    dget p (fill (layout_entries lhubs) []) = Some (k, sl) ->
    exists k', dget (mirror p) (fill (layout_entries lhubs) []) = Some (k', sl).
  Proof.
    intros Fp H. apply layout_spec in H. destruct H as [h [Hk Hi]].
    assert (Hh : In h hubs0) by (apply lhubs_In; eapply nth_error_In; eauto).
    destruct (class_of_hub h Hh) as [src [snk [[_ [Hc [n0 C]]] Hsrc]]].
    assert (Hn : In p (map fst (get_indices h))) by (now apply (in_map fst) in Hi).
    rewrite index_names in Hn.
    (* a forward node of the component whose mirror is a source *)
    assert (X : exists n, In n src /\ fnode n /\ In (mirror_node n) (get_all_sources fos cns (map fst (stub layers)))).
    { apply in_app_or in Hn. destruct Hn as [Hn|Hn].
      - apply (Permutation_in _ (class_sources h src snk Hc)) in Hn. apply in_flat_map in Hn. destruct Hn as [n [Hn Hp]].
        assert (Hall := Hsrc n Hn). destruct all_sources_spec as [_ AS]. apply AS in Hall. destruct Hall as [s [Ss [Ns En]]].
        subst n. assert (Fp' : fwd p).
        { destruct Fp as [Fp| ->]; [assumption|]. exfalso. assert (Mp := merge_flat_eq s "parameters" Hp).
          destruct (merge_sink "parameters" (or_introl eq_refl)) as [E _]. rewrite E in Mp. rewrite <- Mp in Hp.
          destruct (merge_node_cases fos s) as [[fo [E' _]]|[E' _]]; rewrite E' in Mp; [discriminate|]. injection Mp as <-.
          apply stub_names in Ss. destruct Ss as [l [c [d [x [Hl [Hd [Hx Es]]]]]]].
          destruct (entry_comp l c d x Hl Hd Hx) as [C1 [C2 C3]]. symmetry in Es. revert Es. now apply path3_not_root. }
        exists (merge_node fos s). split; [assumption|].
        assert (Mp := merge_flat_eq s p Hp). rewrite <- Mp in *. split; [exists p; auto|].
        rewrite <- merge_mirror by assumption. apply AS. exists (mirror p). split; [now apply fwd_stub|].
        split; [|reflexivity]. intros K. destruct (sink_mirror_fcon p Fp' K) as [s0 F0].
        (* then p is a sink, so it is single, and equals s *)
        destruct (merge_sink p) as [E _]; [apply fcon_fwd in F0; tauto|]. rewrite E in Mp.
        destruct (merge_node_cases fos s) as [[fo [E' _]]|[E' _]]; rewrite E' in Mp; [discriminate|]. injection Mp as ->.
        apply Ns. exists s0. now apply fcon_In.
      - destruct (class_sinks h src snk Hc) as [_ Hks]; [apply C|]. apply Hks in Hn.
        destruct C as [_ [_ [S1 S2]]]. apply S2 in Hn. destruct Hn as [a [Ta I]].
        apply M_In in I. destruct I as [s [u [I [-> [= <-]]]]].
        assert (G : fcon (s, p)).
        { destruct (In_cns s p I) as [G|[s' [t' [G [-> ->]]]]]; [assumption|]. exfalso.
          assert (G' := fcon_fwd _ _ G). destruct G' as [_ G']. destruct Fp as [Fp|E].
          - destruct (fwd_sink_cases t' G') as [->|F']; [now destruct (fwd_not_root _ "gradients" Fp eq_refl) | now apply (mirror_not_fwd t')].
          - apply (mirror_sink_not_fwd t' G'). now left. }
        exists (merge_node fos s). destruct (fcon_source s p G) as [_ A]. destruct (fcon_fnode s p G) as [Fn _].
        split; [now apply S1|]. split; [assumption|]. rewrite <- merge_mirror; [assumption|]. apply fcon_fwd in G. tauto. }
    destruct X as [n [Hns [Fn Hm]]].
    assert (C1 := component_any n0 src snk n C Hns).
    destruct (hub_of_source _ Hm) as [h' [src' [snk' [[Hh' [Hc' _]] [_ C']]]]].
    destruct (component_mirror n src snk src' snk' Fn C1 C') as [Fa [Ps [Fk Pk]]].
    assert (Hi' := mirror_indices src snk src' snk' h h' Fa Ps Fk Pk Hc Hc' p sl Hi).
    apply lhubs_In in Hh'. apply In_nth_error in Hh'. destruct Hh' as [k' Hk'].
    exists k'. apply layout_spec. eauto.
  Qed.

  (** Every array gets memory. *)
  Lemma layout_total p : In p (map fst (stub layers)) -> exists k sl, dget p (fill (layout_entries lhubs) []) = Some (k, sl).
  Proof.
    intros Hp.
    assert (Fin : forall h, In h hubs0 -> In p (map fst (get_indices h)) -> exists k sl, dget p (fill (layout_entries lhubs) []) = Some (k, sl)).
    { intros h Hh Hn. apply in_map_iff in Hn. destruct Hn as [[p' sl] [E Hn]]. simpl in E. subst p'.
      apply lhubs_In, In_nth_error in Hh. destruct Hh as [k Hk]. exists k, sl. apply layout_spec. eauto. }
    destruct (in_dec string_dec p (map snd cns)) as [I|I].
    - apply in_map_iff in I. destruct I as [[s t] [E I]]. simpl in E. subst t.
      assert (Hn : In (merge_node fos s) (get_all_sources fos cns (map fst (stub layers)))).
      { destruct (In_cns s p I) as [G|[s' [t' [G [-> ->]]]]].
        - now apply fcon_source in G.
        - now apply fcon_source in G. }
      destruct (hub_of_source _ Hn) as [h [src [snk [[Hh [Hc _]] [Hs C]]]]].
      apply (Fin h Hh). rewrite index_names. apply in_or_app. right.
      apply (class_sinks h src snk Hc); [apply C|]. destruct C as [_ [_ [_ S2]]]. apply S2.
      exists (merge_node fos s). split; [apply rt_refl|]. apply M_In. exists s, p. auto.
    - assert (Hn : In (merge_node fos p) (get_all_sources fos cns (map fst (stub layers)))).
      { apply all_sources_spec. exists p. split; [assumption|]. split; [|reflexivity].
        intros [s Hs]. apply I. apply in_map_iff. exists (s, p). auto. }
      destruct (hub_of_source _ Hn) as [h [src [snk [[Hh [Hc _]] [Hs C]]]]].
      apply (Fin h Hh). rewrite index_names. apply in_or_app. left.
      apply (Permutation_in _ (Permutation_sym (class_sources h src snk Hc))). apply in_flat_map.
      exists (merge_node fos p). split; [assumption | apply merge_flat].
  Qed.

  (** ** Cells *)
  Lemma hub_ok_of h : In h hubs0 -> exists src snk, hub_ok so cns src snk h /\ hub_class h src snk.
  Proof.
    intros Hh. destruct (class_of_hub h Hh) as [src [snk [Hc _]]]. exists src, snk. split; [|assumption].
    apply hub_create_spec. apply Hc.
  Qed.
  Lemma name_hub_unique h h' p k k' : nth_error lhubs k = Some h -> nth_error lhubs k' = Some h' ->
    In p (map fst (get_indices h)) -> In p (map fst (get_indices h')) -> k = k' /\ h = h'.
  Proof.
    intros Hk Hk' Hp Hp'. apply in_map_iff in Hp, Hp'. destruct Hp as [[q sl] [E1 Hp]]. destruct Hp' as [[q' sl'] [E2 Hp']].
    simpl in E1, E2. subst q q'.
    assert (A : dget p (fill (layout_entries lhubs) []) = Some (k, sl)) by (apply layout_spec; eauto).
    assert (B : dget p (fill (layout_entries lhubs) []) = Some (k', sl')) by (apply layout_spec; eauto).
    rewrite A in B. injection B as E _. subst k'. split; congruence.
  Qed.
  Lemma sink_hub s t : In (s, t) cns -> exists k h sl, nth_error lhubs k = Some h /\ In t (h_sinks h) /\
    dget t (fill (layout_entries lhubs) []) = Some (k, sl) /\
    forall s', In (s', t) cns -> In s' (h_sources h).
  Proof.
    intros I.
    assert (Hn : In (merge_node fos s) (get_all_sources fos cns (map fst (stub layers)))).
    { destruct (In_cns s t I) as [G|[s' [t' [G [-> ->]]]]]; now apply fcon_source in G. }
    destruct (hub_of_source _ Hn) as [h [src [snk [[Hh [Hc _]] [Hs C]]]]].
    assert (Ht : In t (h_sinks h)).
    { apply (class_sinks h src snk Hc); [apply C|]. apply C. exists (merge_node fos s). split; [apply rt_refl|]. apply M_In. exists s, t. auto. }
    assert (Hh' := proj2 (lhubs_In h) Hh). apply In_nth_error in Hh'. destruct Hh' as [k Hk].
    assert (X : In t (map fst (get_indices h))) by (rewrite index_names; apply in_or_app; now right).
    apply in_map_iff in X. destruct X as [[t' sl] [E X]]. simpl in E. subst t'.
    exists k, h, sl. split; [assumption|]. split; [assumption|]. split; [apply layout_spec; eauto|].
    intros s' I'. apply (Permutation_in _ (Permutation_sym (class_sources h src snk Hc))). apply in_flat_map.
    exists (merge_node fos s'). split; [|apply merge_flat]. apply C. apply rt_step. exists (Single t).
    split; apply M_In; [exists s, t | exists s', t]; auto.
  Qed.

  Lemma source_entry k h s : nth_error lhubs k = Some h -> In s (h_sources h) ->
    exists i st, nth_error (h_sources h) i = Some s /\ so s = Some st /\
      offset (h_sizes h) (S i) = offset (h_sizes h) i + ls_size st /\
      dget s (fill (layout_entries lhubs) []) = Some (k, (offset (h_sizes h) i, offset (h_sizes h) (S i))).
  Proof.
    intros Hk Hs. apply In_nth_error in Hs. destruct Hs as [i Hi].
    assert (Hh : In h hubs0) by (apply lhubs_In; eapply nth_error_In; eauto).
    destruct (hub_ok_of h Hh) as [src [snk [Ok _]]].
    destruct (source_slice_spec _ _ _ _ _ Ok i s Hi) as [H1 [st [H2 H3]]]. exists i, st.
    split; [assumption|]. split; [assumption|]. split; [assumption|].
    apply layout_spec. exists h. split; [assumption|]. unfold get_indices. apply in_or_app. left. eapply nth_error_In; eauto.
  Qed.

  (** Two different sources in the same hub do not overlap. *)
  Lemma sources_disjoint k h s s' sl sl' pos : nth_error lhubs k = Some h -> In s (h_sources h) -> In s' (h_sources h) ->
    dget s (fill (layout_entries lhubs) []) = Some (k, sl) ->
    dget s' (fill (layout_entries lhubs) []) = Some (k, sl') ->
    fst sl <= pos < snd sl -> fst sl' <= pos < snd sl' -> s = s'.
  Proof.
    intros Hk Hs Hs' D D' P P'.
    destruct (source_entry k h s Hk Hs) as [i [st [Hi [_ [_ E]]]]].
    destruct (source_entry k h s' Hk Hs') as [i' [st' [Hi' [_ [_ E']]]]].
    rewrite E in D. rewrite E' in D'. injection D as <-. injection D' as <-. simpl in *.
    assert (i = i') by (eapply offset_unique; eauto). subst i'. congruence.
  Qed.

  (** The cells of a sink are those of the sources connected to it. *)
  Lemma sink_cells s0 t k sl : In (s0, t) cns -> dget t (fill (layout_entries lhubs) []) = Some (k, sl) ->
    (forall s, In (s, t) cns -> exists sls, dget s (fill (layout_entries lhubs) []) = Some (k, sls) /\
        fst sl <= fst sls /\ snd sls <= snd sl) /\
    forall pos, fst sl <= pos < snd sl <->
      exists s sls, In (s, t) cns /\ dget s (fill (layout_entries lhubs) []) = Some (k, sls) /\ fst sls <= pos < snd sls.
  Proof.
    intros I D. destruct (sink_hub s0 t I) as [k' [h [sl' [Hk [Ht [D' Hs]]]]]].
    rewrite D in D'. injection D' as <- <-.
    assert (Hh : In h hubs0) by (apply lhubs_In; eapply nth_error_In; eauto).
    destruct (hub_ok_of h Hh) as [src [snk [Ok _]]].
    apply In_nth_error in Ht. destruct Ht as [j Hj].
    assert (Hex : exists s, In s (h_sources h) /\ In (s, t) cns) by (exists s0; auto).
    assert (Esl : sl = sink_slice h j).
    { assert (X : dget t (fill (layout_entries lhubs) []) = Some (k, sink_slice h j)).
      { apply layout_spec. exists h. split; [assumption|]. unfold get_indices. apply in_or_app. right.
        unfold sink_indices. apply in_map_iff. exists j. rewrite (nth_error_nth _ _ _ Hj). split; [reflexivity|].
        apply in_seq. split; [lia|]. apply nth_error_Some. congruence. }
      congruence. }
    subst sl. split.
    - intros s Is. destruct (source_entry k h s Hk (Hs s Is)) as [i [st [Hi [_ [_ E]]]]].
      exists (offset (h_sizes h) i, offset (h_sizes h) (S i)). split; [assumption|].
      destruct (sink_slice_block _ _ _ _ _ _ _ Ok Hj Hex) as [a [b [Hab [-> Hb]]]]. simpl.
      apply (Hb i s Hi) in Is. split; apply offset_mono; lia.
    - intros pos. rewrite (sink_slice_union _ _ _ _ _ _ _ Ok Hj Hex pos). split.
      + intros [i [s [H1 [H2 H3]]]]. exists s, (offset (h_sizes h) i, offset (h_sizes h) (S i)).
        split; [assumption|]. split; [|assumption]. destruct (source_slice_spec _ _ _ _ _ Ok i s H1) as [H4 _].
        apply layout_spec. exists h. split; [assumption|]. unfold get_indices. apply in_or_app. left. eapply nth_error_In; eauto.
      + intros [s [sls [H1 [H2 H3]]]]. destruct (source_entry k h s Hk (Hs s H1)) as [i [st [Hi [_ [_ E]]]]].
        rewrite E in H2. injection H2 as <-. exists i, s. auto.
  Qed.

  Lemma to_parameters s : In (s, "parameters") cns <->
    exists l p, In l layers /\ In p (map fst (l_params l)) /\ s = path3 (l_name l) "parameters" p.
  Proof.
    split.
    - intros I. destruct (In_cns s _ I) as [G|[s' [t' [G [_ E]]]]].
      + inversion G as [l c cat x Hl Hc Ho E|l p Hl Hp E].
        * exfalso. match goal with X : path3 _ _ _ = _ |- _ => revert X end.
          destruct (wf_conn _ W l c Hl Hc) as [_ [_ [l' [Hl' [Ee Hi]]]]]. rewrite Ee. apply path3_not_root; [now apply name_comp | cat | | reflexivity].
          apply (names_comp (l_in l')); [now apply W | assumption].
        * exists l, p. auto.
      + exfalso. apply fcon_fwd in G. destruct G as [_ G]. apply (mirror_sink_not_fwd t' G). left. now symmetry.
    - intros [l [p [Hl [Hp ->]]]]. apply fcon_In. now constructor.
  Qed.
  Lemma to_gradients s : In (s, "gradients") cns <->
    exists l p, In l layers /\ In p (map fst (l_params l)) /\ s = path3 (l_name l) "gradients" p.
  Proof.
    split.
    - intros I. destruct (In_cns s _ I) as [G|[s' [t' [G [-> E]]]]].
      + exfalso. apply fcon_fwd in G. destruct G as [_ [G|G]]; [discriminate|].
        destruct G as [l [x [Hl [Hx E]]]]. symmetry in E. revert E. apply path3_not_root; [now apply name_comp | cat | | reflexivity].
        apply (names_comp (l_in l)); [now apply W | assumption].
      + assert (G' := fcon_fwd _ _ G). destruct G' as [_ G']. destruct (fwd_sink_cases t' G') as [->|F'].
        * assert (I' : In (s', "parameters") cns) by now apply fcon_In. apply to_parameters in I'. destruct I' as [l [p [Hl [Hp ->]]]].
          exists l, p. split; [assumption|]. split; [assumption|].
          assert (Cp : component p) by (apply (names_comp (l_params l)); [now apply W | assumption]).
          unfold mirror. rewrite split2_path3 by (assumption || cat || now apply name_comp). reflexivity.
        * exfalso. destruct (fwd_inv t' F') as [l [cat [x [cat' [x' [Hl [Cx [Cx' [_ [M0 D]]]]]]]]]]. rewrite M0 in E.
          symmetry in E. revert E. apply path3_not_root; try assumption; [now apply name_comp | | reflexivity].
          destruct D as [[D _]|[[D _]|[[D _]|[D _]]]]; injection D as _ ->; cat.
    - intros [l [p [Hl [Hp ->]]]].
      assert (Cp : component p) by (apply (names_comp (l_params l)); [now apply W | assumption]).
      assert (E : path3 (l_name l) "gradients" p = mirror (path3 (l_name l) "parameters" p)).
      { unfold mirror. rewrite split2_path3 by (assumption || cat || now apply name_comp). reflexivity. }
      rewrite E, <- mirror_root. apply fcon_In. now constructor.
  Qed.
End WF.
