(** C65: the views of a network, whatever the sizes and the order of resizes. *)
From Coq Require Import String Ascii List ZArith QArith Bool Lia Arith.
From Verif Require Import HubModel LayoutModel BuffersModel.
From Verif Require Import PyBase PyFacts UtilsModel UtilsProofs NamesModel ArchModel ShapesModel SetupModel SetupProps InstanceProofs InstanceProps NetLayoutProofs NetLayoutProps ViewModel ViewProofs.
Import ListNotations.
Open Scope string_scope.
Open Scope list_scope.
Open Scope nat_scope.

(** ** Views for any layout *)
Section Any.
  Variable A : Type.
  Notation ltree := (ltree A).
  Notation value := (value A).
  Notation heap := (heap A).

  (** The positions of the parts of a path *)
  Fixpoint position (n : string) (l : list string) : option nat :=
    match l with [] => None | m :: r => if String.eqb n m then Some 0 else option_map S (position n r) end.
  Fixpoint positions (t : ltree) (path : list string) : option (list nat) :=
    match path with
    | [] => Some []
    | n :: r => match t with
                | LView _ cs =>
                    match position n (map fst cs), dget n cs with
                    | Some i, Some s => option_map (cons i) (positions s r)
                    | _, _ => None
                    end
                | LArr _ => None
                end
    end.

  (** A value presents a layout: all ways of access along a path (view[n1][n2]...,
      view.n1.n2..., view[i1][i2]..., view['n1.n2...']) give the same, namely the
      array of the layout, or a view whose items are the children there. *)
  Definition presents (h : heap) (v : value) (t : ltree) : Prop :=
    forall path u, node A t path = Some u -> exists w,
      walk A (get_key A h) v path = VOk w /\
      walk A (get_attr A h) v path = VOk w /\
      (exists is, positions t path = Some is /\ walk A (get_index A h) v is = VOk w) /\
      (path <> [] -> get_item A h v (String.concat "." path) = VOk w) /\
      match u with
      | LArr a => w = VArr a
      | LView _ cs => exists d, items A h w = VOk d /\ map fst d = map fst cs /\
                        forall n x, In (n, x) d -> get_key A h w n = VOk x /\ contains A h w n = VOk true
      end.

  Lemma has_dot_In s : has_dot s = false -> ~ In "."%char (chars s).
  Proof.
    unfold has_dot, chars. intros H X. apply not_true_iff_false in H. apply H. apply existsb_exists. exists "."%char. split; [exact X|reflexivity].
  Qed.
  Lemma split_names l : l <> [] -> Forall (fun n => has_dot n = false) l -> split_dot (String.concat "." l) = l.
  Proof.
    induction l as [|x l IH]; intros N F; [contradiction|]. inversion_clear F as [|? ? F1 F2]. destruct l as [|y l].
    - cbn [String.concat]. apply split_dot_nodot. now apply has_dot_In.
    - change (String.concat "." (x :: y :: l)) with (x ++ String "." (String.concat "." (y :: l)))%string.
      rewrite split_dot_app by now apply has_dot_In. f_equal. apply IH; [discriminate|exact F2].
  Qed.
  Lemma has_dot_app s t : has_dot (s ++ String "." t)%string = true.
  Proof.
    unfold has_dot. apply existsb_exists. exists "."%char. split; [|reflexivity].
    induction s as [|c s IH]; [now left|]. cbn. right. exact IH.
  Qed.
  Lemma good_dots names : Forall good_name names -> Forall (fun n => has_dot n = false) names.
  Proof. intros H. eapply Forall_impl; [|exact H]. intros n [_ [X _]]. exact X. Qed.

  Lemma forall2_position (P : string -> value -> Prop) n l xs : Forall2 P l xs -> In n l ->
    exists i x, position n l = Some i /\ nth_error xs i = Some x /\ P n x.
  Proof.
    intros H. induction H as [|m x l xs Hx _ IH]; intros Hn; [destruct Hn|]. cbn [position].
    destruct (String.eqb_spec n m) as [->|Ne]; [exists 0, x; auto|].
    destruct Hn as [->|Hn]; [contradiction|]. destruct (IH Hn) as [i [y [Y1 [Y2 Y3]]]]. exists (S i), y. rewrite Y1. auto.
  Qed.
  Lemma good_child full cs n s : good_tree A (LView full cs) -> dget n cs = Some s -> good_tree A s /\ good_name n.
  Proof.
    intros G E. apply good_view in G. destruct G as [_ [G2 G3]]. split.
    - apply dget_In in E. rewrite Forall_forall in G3. now apply (G3 (n, s)).
    - rewrite Forall_forall in G2. apply G2. now apply (dget_names n cs s).
  Qed.
  Lemma fold_dset (names : list string) (xs : list value) : NoDup names -> forall d, (forall n, In n names -> ~ In n (map fst d)) ->
    fold_left (fun d e => dset (fst e) (snd e) d) (combine names xs) d = d ++ combine names xs.
  Proof.
    revert xs. induction names as [|n r IH]; intros [|x xs] N d H; cbn [combine fold_left]; try now rewrite app_nil_r.
    inversion_clear N as [|? ? N1 N2]. cbn [fst snd]. rewrite dset_fresh by (apply H; now left).
    rewrite IH; [now rewrite <- app_assoc|exact N2|]. intros m Hm. rewrite map_app, in_app_iff. cbn [map fst In].
    intros [X|[X|[]]]; [apply (H m); [now right|exact X]|]. subst m. contradiction.
  Qed.
  Lemma combine_In names (xs : list value) (P : string -> value -> Prop) : Forall2 P names xs -> forall n x, In (n, x) (combine names xs) -> In n names /\ P n x.
  Proof.
    intros H. induction H as [|m y l l' Hy _ IH]; intros n x X; [destruct X|]. destruct X as [X|X]; [injection X as -> ->; split; [now left|exact Hy]|].
    destruct (IH n x X). split; [now right|assumption].
  Qed.
  Lemma combine_fst names (xs : list value) (P : string -> value -> Prop) : Forall2 P names xs -> map fst (combine names xs) = names.
  Proof. intros H. induction H as [|m y l l' Hy _ IH]; [reflexivity|]. cbn [combine map fst]. now rewrite IH. Qed.
  Lemma items_ok h full cs w f : good_tree A (LView full cs) -> shows A h (LView full cs) w f ->
    exists d, items A h w = VOk d /\ map fst d = map fst cs /\ forall n x, In (n, x) d -> get_key A h w n = VOk x /\ contains A h w n = VOk true.
  Proof.
    intros G S. apply good_view in G. destruct G as [G1 [G2 _]]. apply shows_view in S. destruct S as [p [o [fps [-> [H2 [_ [H4 _]]]]]]].
    exists (combine (map fst cs) (o_list o)). split; [|split].
    - unfold items, at_ref, method, names_attr. rewrite H2. cbn [vbind].
      rewrite (ao_other _ _ _ _ H4 "items"); [|apply (good_not _ _ G2); cbn; tauto|cbn; intros X; repeat (destruct X as [X|X]; [discriminate|]); contradiction].
      cbn [vbind].
      rewrite (ao_other _ _ _ _ H4 "_asdict"); [|apply (good_not _ _ G2); cbn; tauto|cbn; intros X; repeat (destruct X as [X|X]; [discriminate|]); contradiction].
      cbn [vbind]. rewrite (ao_names _ _ _ _ H4). cbn [vbind]. rewrite fold_dset; [reflexivity|exact G1|]. intros n _ [].
    - apply (combine_fst _ _ _ (ao_children _ _ _ _ H4)).
    - intros n x X. destruct (combine_In _ _ _ (ao_children _ _ _ _ H4) n x X) as [Y1 Y2].
      destruct (get_key_ok A h p o _ _ n H2 H4 Y1) as [b [B1 B2]]. split; [congruence|]. now apply (contains_ok A h p o (map fst cs) full).
  Qed.
  Lemma shows_presents h t v fp : good_tree A t -> shows A h t v fp -> presents h v t.
  Proof.
    intros G S path u N.
    destruct (walk_shows A h path t v fp u S N) as [w [f [W1 [W2 _]]]]. exists w. split; [exact W1|].
    assert (GU : good_tree A u).
    { clear -G N. revert t G N. induction path as [|n r IH]; intros t G N; [injection N as <-; exact G|].
      destruct t as [|g cs]; [discriminate|]. cbn [node] in N. destruct (dget n cs) as [s|] eqn:E; [|discriminate].
      apply (IH s); [|exact N]. now apply (good_child g cs n s). }
    split; [|split; [|split]].
    - clear -G S N W1. revert t v fp G S N W1. induction path as [|n r IH]; intros t v fp G S N W1; [exact W1|].
      destruct t as [|g cs]; [discriminate|]. cbn [node] in N. destruct (dget n cs) as [s|] eqn:E; [|discriminate].
      destruct (good_child g cs n s G E) as [Gs Gn].
      apply shows_view in S. destruct S as [p [o [fps [-> [H2 [_ [H4 H5]]]]]]].
      destruct (get_key_child A h p o g cs fps n s H2 H4 H5 E) as [x [f' [X1 [X2 [X3 _]]]]].
      cbn [walk] in *. rewrite X1 in W1. cbn [vbind] in W1. unfold get_attr at 1, at_ref. rewrite H2. cbn [vbind].
      destruct (smem n class_first) eqn:CF.
      + exfalso. destruct Gn as [_ [_ Gn]]. apply Gn. apply smem_In in CF. cbn in *. tauto.
      + rewrite X2. cbn [vbind]. now apply (IH s x f').
    - clear -G S N W1. revert t v fp G S N W1. induction path as [|n r IH]; intros t v fp G S N W1; [exists []; auto|].
      destruct t as [|g cs]; [discriminate|]. cbn [node] in N. destruct (dget n cs) as [s|] eqn:E; [|discriminate].
      destruct (good_child g cs n s G E) as [Gs Gn].
      apply shows_view in S. destruct S as [p [o [fps [-> [H2 [_ [H4 H5]]]]]]].
      destruct (get_key_child A h p o g cs fps n s H2 H4 H5 E) as [x [f' [X1 [X2 [X3 _]]]]].
      cbn [walk] in W1. rewrite X1 in W1. cbn [vbind] in W1.
      destruct (IH s x f' Gs X3 N W1) as [is [I1 I2]].
      destruct (forall2_position _ n _ _ (ao_children _ _ _ _ H4) (dget_names n cs s E)) as [i [y [Y1 [Y2 Y3]]]].
      assert (y = x) by congruence. subst y. exists (i :: is). cbn [positions]. rewrite Y1, E, I1. split; [reflexivity|].
      cbn [walk]. unfold get_index at 1, at_ref. rewrite H2. cbn [vbind]. now rewrite Y2.
    - intros NE. destruct path as [|n r]; [contradiction|]. clear NE.
      destruct t as [|g cs]; [discriminate|]. assert (S0 := S). apply shows_view in S. destruct S as [p [o [fps [-> [H2 [_ [H4 H5]]]]]]].
      assert (Hd : Forall (fun m => has_dot m = false) (n :: r)).
      { clear -G N. revert N G. generalize (LView g cs) as t. generalize (n :: r) as path. induction path as [|m q IH]; intros t N G; constructor.
        - destruct t as [|k es]; [discriminate|]. cbn [node] in N. destruct (dget m es) as [s|] eqn:E; [|discriminate]. destruct (good_child k es m s G E) as [_ [_ [X _]]]. exact X.
        - destruct t as [|k es]; [discriminate|]. cbn [node] in N. destruct (dget m es) as [s|] eqn:E; [|discriminate]. apply (IH s N). now apply (good_child k es m s). }
      cbn [node] in N. destruct (dget n cs) as [s|] eqn:E; [|discriminate].
      destruct r as [|m r].
      + cbn [String.concat]. rewrite (get_item_key A h p o (map fst cs) g n H2 H4 (dget_names n cs s E)).
        cbn [walk] in W1. destruct (get_key A h (VRef p) n); [exact W1|discriminate].
      + destruct (ao_keys _ _ _ _ H4) as [ks [K1 K2]].
        unfold get_item, at_ref, names_attr. rewrite H2. cbn [vbind]. rewrite K1. cbn [vbind].
        change (String.concat "." (n :: m :: r)) with (n ++ String "." (String.concat "." (m :: r)))%string.
        rewrite has_dot_app. destruct (smem _ ks) eqn:SM.
        * exfalso. apply smem_In, K2 in SM. apply good_view in G. destruct G as [_ [G2 _]]. rewrite Forall_forall in G2.
          destruct (G2 _ SM) as [_ [X _]]. rewrite has_dot_app in X. discriminate.
        * change (n ++ String "." (String.concat "." (m :: r)))%string with (String.concat "." (n :: m :: r)).
          rewrite split_names; [exact W1|discriminate|exact Hd].
    - destruct u as [a|g cs]; [exact (proj1 W2)|]. now apply (items_ok h g cs w f).
  Qed.

  Lemma same_node t : forall u path f c cs, same_form A t u -> node A t path = Some (LView f (c :: cs)) ->
    exists g d ds, node A u path = Some (LView g (d :: ds)).
  Proof.
    intros u path. revert t u. induction path as [|n r IH]; intros t u f c cs S N.
    - injection N as ->. destruct u as [|g ds]; [contradiction|]. apply same_view in S. inversion S; subst. cbn [node]. eauto.
    - destruct t as [|g es], u as [|k ds]; try contradiction; try discriminate. cbn [node] in *. apply same_view in S.
      destruct (dget n es) as [s|] eqn:E; [|discriminate].
      assert (Y : exists d, dget n ds = Some d /\ same_form A s d).
      { clear -S E. induction S as [|[m s'] [m' d] r r' [Hm Hs] _ IH]; [discriminate|]. cbn [dget fst snd] in *. subst m'.
        destruct (String.eqb n m); [injection E as <-; eauto|auto]. }
      destruct Y as [d [-> Yd]]. now apply (IH s d f c cs).
  Qed.
  Lemma same_array t : forall u path a, same_form A t u -> node A t path = Some (LArr a) -> exists b, node A u path = Some (LArr b).
  Proof.
    intros u path. revert t u. induction path as [|n r IH]; intros t u a S N.
    - injection N as ->. destruct u as [b|]; [|contradiction]. exists b. reflexivity.
    - destruct t as [|g es], u as [|k ds]; try contradiction; try discriminate. cbn [node] in *. apply same_view in S.
      destruct (dget n es) as [s|] eqn:E; [|discriminate].
      assert (Y : exists d, dget n ds = Some d /\ same_form A s d).
      { clear -S E. induction S as [|[m s'] [m' d] r r' [Hm Hs] _ IH]; [discriminate|]. cbn [dget fst snd] in *. subst m'.
        destruct (String.eqb n m); [injection E as <-; eauto|auto]. }
      destruct Y as [d [-> Yd]]. now apply (IH s d a).
  Qed.
  Lemma parameters_attr h t v fp a : good_tree A t -> shows A h t v fp -> node A t ["parameters"] = Some (LArr a) ->
    get_attr A h v "parameters" = VOk (VArr a).
  Proof.
    intros G S N. destruct (shows_presents h t v fp G S _ _ N) as [w [_ [W _]]]. destruct (shows_presents h t v fp G S _ _ N) as [w' [_ [W' [_ [_ X]]]]].
    cbn [walk] in *. destruct (get_attr A h v "parameters") as [x|]; [|discriminate]. cbn [vbind walk] in *. congruence.
  Qed.
  Lemma resizes_old ts : forall t v fp h a, good_tree A t -> shows A h t v fp -> NoDup fp -> node A t ["parameters"] = Some (LArr a) ->
    Forall (same_form A t) ts ->
    exists h' v' fp', resizes A ts (Some v) h = VOk (h', Some v') /\ shows A h' (last ts t) v' fp' /\ NoDup fp' /\ good_tree A (last ts t) /\
      updated A h h' fp fp' /\ ident A h h' t v v'.
  Proof.
    induction ts as [|u ts IH]; intros t v fp h a G S N P F.
    - exists h, v, fp. split; [reflexivity|]. split; [exact S|]. split; [exact N|]. split; [exact G|]. split.
      + split; [lia|]. split; [reflexivity|]. intros q Hq. now left.
      + intros path full c cs _. reflexivity.
    - inversion_clear F as [|? ? F1 F2]. assert (Gu := same_good A t u F1 G).
      destruct (create_old A u t v fp h Gu F1 S N) as [h1 [v1 [fp1 [E1 [E2 [E3 [[E4 [E5 E6]] E7]]]]]]].
      destruct (same_array t u _ a F1 P) as [b Pb].
      assert (F2' : Forall (same_form A u) ts).
      { rewrite Forall_forall in F2 |- *. intros x Hx. apply (same_trans A u t); [|now apply F2].
        clear -F1. revert u F1. induction t as [c|f cs IHt] using tree_ind; intros [|g ds] F1; try contradiction; [exact I|].
        apply same_view in F1. apply same_view. revert ds F1. induction IHt as [|c r Hc _ IHr]; intros ds F1; inversion F1; subst; constructor.
        - destruct H1. split; [congruence|auto].
        - auto. }
      destruct (IH u v1 fp1 h1 b Gu E2 E3 Pb F2') as [h2 [v2 [fp2 [K1 [K2 [K3 [K4 [[K5 [K6 K7]] K8]]]]]]]].
      exists h2, v2, fp2. split; [|split; [|split; [exact K3|split; [|split]]]].
      + cbn [resizes]. unfold resize_views. rewrite (parameters_attr h t v fp a G S P). cbn [vbind]. rewrite E1. cbn [vbind].
        rewrite (parameters_attr h1 u v1 fp1 b Gu E2 Pb). cbn [vbind]. exact K1.
      + replace (last (u :: ts) t) with (last ts u); [exact K2|]. destruct ts; [reflexivity|]. cbn [last]. clear. revert l. induction ts; intros l; [reflexivity|]. apply IHts.
      + replace (last (u :: ts) t) with (last ts u); [exact K4|]. destruct ts; [reflexivity|]. cbn [last]. clear. revert l. induction ts; intros l; [reflexivity|]. apply IHts.
      + split; [lia|]. split.
        * intros q L Hq. rewrite K6; [now apply E5|lia|]. intros X. apply E6 in X. destruct X; [contradiction|lia].
        * intros q Hq. apply K7 in Hq. destruct Hq as [Hq|Hq]; [|right; lia]. apply E6 in Hq. destruct Hq; [now left|right; lia].
      + intros path full c cs Nd. destruct (same_node t u path full c cs F1 Nd) as [g [d [ds Nu]]].
        rewrite (K8 path g d ds Nu). now apply (E7 path g d ds).
  Qed.

  (** Creating views and any number of resizes succeed; the views present the
      last layout, views with children stay the same objects, and no other
      object changes. *)
  Lemma resizing t0 ts h a : good_tree A t0 -> node A t0 ["parameters"] = Some (LArr a) -> Forall (same_form A t0) ts ->
    exists h1 v1 h2 v2, resizes A [t0] None h = VOk (h1, Some v1) /\ resizes A ts (Some v1) h1 = VOk (h2, Some v2) /\
      presents h1 v1 t0 /\ presents h2 v2 (last ts t0) /\
      (forall path full c cs, node A t0 path = Some (LView full (c :: cs)) -> walk A (get_key A h2) v2 path = walk A (get_key A h1) v1 path) /\
      (forall q, q < length h -> nth_error h2 q = nth_error h q).
  Proof.
    intros G P F. destruct (create_new A t0 G h) as [ext [v1 [fp [E1 [E2 [E3 E4]]]]]].
    destruct (resizes_old ts t0 v1 fp (h ++ ext) a G E2 E3 P F) as [h2 [v2 [fp2 [K1 [K2 [K3 [K4 [[K5 [K6 K7]] K8]]]]]]]].
    exists (h ++ ext), v1, h2, v2. split; [|split; [exact K1|split; [now apply (shows_presents _ _ _ fp)|split; [now apply (shows_presents _ _ _ fp2)|split; [exact K8|]]]]].
    - cbn [resizes]. unfold resize_views. cbn [vbind]. rewrite E1. reflexivity.
    - intros q L. rewrite K6; [now apply nth_error_app1|rewrite app_length; lia|]. intros X. apply E4 in X. lia.
  Qed.
End Any.

Theorem C65_views : forall (A : Type) (t0 : ltree A) ts h a,
  good_tree A t0 -> node A t0 ["parameters"] = Some (LArr a) -> Forall (same_form A t0) ts ->
  exists h1 v1 h2 v2, resizes A [t0] None h = VOk (h1, Some v1) /\ resizes A ts (Some v1) h1 = VOk (h2, Some v2) /\
    presents A h1 v1 t0 /\ presents A h2 v2 (last ts t0) /\
    (forall path full c cs, node A t0 path = Some (LView full (c :: cs)) -> walk A (get_key A h2) v2 path = walk A (get_key A h1) v1 path) /\
    (forall q, q < length h -> nth_error h2 q = nth_error h q).
Proof. exact resizing. Qed.
Print Assumptions C65_views.

(** ** The views of a network *)
Definition tree_for (layers : list linst) (hubs : list hub) (lay : slices) (tb : nat * nat) : ltree (option arr) :=
  layout_tree (map layout_layer layers) hubs lay (fst tb) (snd tb).
(** No layer is called like a method or attribute that views need, or like the
    root entries; no buffer is called like such a method or attribute. *)
Definition usable_names (layers : list linst) : Prop :=
  (forall l, In l layers -> ~ In (li_name l) (["parameters"; "gradients"] ++ reserved)) /\
  (forall l cat x, In l layers -> In x (map fst (buffers_of l cat)) -> ~ In x reserved).

Section Net.
  Variables (a : karch) (layers : list linst) (hubs : list hub) (lay : slices).
  Hypothesis HN : named a.
  Hypothesis HI : instantiate a = SOk layers.
  Hypothesis HU : usable_names layers.
  Let ls := map layout_layer layers.

  Lemma component_good n : component n -> ~ In n reserved -> good_name n.
  Proof.
    intros [C1 [C2 C3]] R. split; [|split; [|exact R]].
    - destruct n as [|c n]; [reflexivity|]. cbn [String.prefix]. destruct (ascii_dec "@" c) as [<-|Ne]; [|reflexivity].
      exfalso. apply C3. now left.
    - unfold has_dot. destruct (existsb _ _) eqn:E; [|reflexivity]. apply existsb_exists in E. destruct E as [c [Hc Ec]].
      apply Ascii.eqb_eq in Ec. subst c. contradiction.
  Qed.
  Lemma net_fold arrays : forall ls d, NoDup (map l_name ls) -> (forall l, In l ls -> ~ In (l_name l) (map fst d)) ->
    fold_left (fun d l => dset (l_name l) (layer_tree arrays l) d) ls d = d ++ map (fun l => (l_name l, layer_tree arrays l)) ls.
  Proof.
    clear. induction ls as [|l r IH]; intros d N H; cbn [fold_left map]; [now rewrite app_nil_r|].
    inversion_clear N as [|? ? N1 N2]. rewrite dset_fresh by (apply H; now left). rewrite IH; [now rewrite <- app_assoc|exact N2|].
    intros m Hm. rewrite map_app, in_app_iff. cbn [map fst In]. intros [X|[X|[]]]; [apply (H m); [now right|exact X]|].
    apply N1. rewrite X. now apply in_map.
  Qed.
  Lemma names_layout : map l_name ls = map li_name layers.
  Proof. unfold ls. rewrite map_map. reflexivity. Qed.
  Lemma net_tree_eq arrays : net_tree arrays ls =
    LView None ([("parameters", LArr (arrays "parameters")); ("gradients", LArr (arrays "gradients"))] ++
                map (fun l => (l_name l, layer_tree arrays l)) ls).
  Proof.
    unfold net_tree. rewrite net_fold; [reflexivity| |].
    - rewrite names_layout. apply (instantiate_names _ _ HN HI).
    - intros l Hl X. unfold ls in Hl. apply in_map_iff in Hl. destruct Hl as [l' [<- Hl]].
      destruct HU as [U _]. apply (U l' Hl). apply in_or_app. left. exact X.
  Qed.
  Definition cat_names (l : linst) : list (string * list string) :=
    [("inputs", map fst (sorted_entries (layout_dict (li_in l)))); ("outputs", map fst (layout_dict (li_out l))); ("parameters", map fst (layout_dict (li_params l)));
     ("internals", map fst (layout_dict (li_int l))); ("input_deltas", map fst (sorted_entries (layout_dict (li_in l)))); ("output_deltas", map fst (layout_dict (li_out l))); ("gradients", map fst (layout_dict (li_params l)))].
  Lemma layer_tree_eq arrays l : layer_tree arrays (layout_layer l) =
    LView None (map (fun e => (fst e, LView None (map (fun n => (n, LArr (arrays (path3 (li_name l) (fst e) n)))) (snd e)))) (cat_names l)).
  Proof.
    unfold layer_tree, cat_names, category_tree. cbn [map fst snd]. rewrite !map_map. reflexivity.
  Qed.
  Lemma cat_names_ok l cat names : In l layers -> In (cat, names) (cat_names l) ->
    NoDup names /\ Forall good_name names /\ forall x, In x names <-> In x (map fst (buffers_of l cat)).
  Proof.
    intros Hl H. destruct (instantiate_names _ _ HN HI) as [_ [_ Snd]]. assert (S := Snd l Hl).
    assert (FF : forall d, map fst (layout_dict d) = map fst d) by (intros d; unfold layout_dict; rewrite map_map; reflexivity).
    assert (K : NoDup names /\ Forall component names /\ forall x, In x names <-> In x (map fst (buffers_of l cat))).
    { assert (SE : NoDup (map fst (sorted_entries (layout_dict (li_in l)))) /\ Forall component (map fst (sorted_entries (layout_dict (li_in l)))) /\
                   forall x, In x (map fst (sorted_entries (layout_dict (li_in l)))) <-> In x (map fst (li_in l))).
      { destruct (sl_in _ S) as [I1 I2]. unfold sorted_entries.
        assert (PM := Permutation.Permutation_map fst (isort_perm (fun a b : string * lstruct => String.leb (fst a) (fst b)) (layout_dict (li_in l)))).
        rewrite FF in PM. split; [|split].
        - apply (Permutation.Permutation_NoDup (Permutation.Permutation_sym PM) I1).
        - apply (Permutation.Permutation_Forall (Permutation.Permutation_sym PM) I2).
        - intros x. split; apply Permutation.Permutation_in; [exact PM|now apply Permutation.Permutation_sym]. }
      cbn [cat_names In] in H.
      repeat (destruct H as [H|H]; [injection H as <- <-; try exact SE; rewrite FF;
        first [destruct (sl_out _ S) as [I1 I2]; split; [exact I1|]; split; [exact I2|reflexivity]
              |destruct (sl_params _ S) as [I1 I2]; split; [exact I1|]; split; [exact I2|reflexivity]
              |destruct (sl_int _ S) as [I1 I2]; split; [exact I1|]; split; [exact I2|reflexivity]]|]). destruct H. }
    destruct K as [K1 [K2 K3]]. split; [exact K1|]. split; [|exact K3]. rewrite Forall_forall in K2 |- *. intros x Hx.
    apply component_good; [now apply K2|]. destruct HU as [_ U]. apply (U l cat x Hl). now apply K3.
  Qed.
  Lemma layer_good arrays l : In l layers -> good_tree _ (layer_tree arrays (layout_layer l)).
  Proof.
    intros Hl. rewrite layer_tree_eq. apply good_view. rewrite map_map. cbn [fst]. split; [|split].
    - cbn [cat_names map fst]. repeat (constructor; [cbn; intros X; repeat (destruct X as [X|X]; [discriminate|]); contradiction|]). constructor.
    - cbn [cat_names map fst]. repeat constructor; cbn; intros X; repeat (destruct X as [X|X]; [discriminate|]); contradiction.
    - apply Forall_forall. intros e He. apply in_map_iff in He. destruct He as [[cat names] [<- He]]. cbn [fst snd].
      destruct (cat_names_ok l cat names Hl He) as [K1 [K2 _]]. apply good_view. rewrite map_map. cbn [fst]. rewrite map_id.
      split; [exact K1|]. split; [exact K2|]. apply Forall_forall. intros c Hc. apply in_map_iff in Hc. destruct Hc as [n [<- _]]. exact I.
  Qed.
  Lemma net_good arrays : good_tree _ (net_tree arrays ls).
  Proof.
    destruct (instantiate_names _ _ HN HI) as [N1 [N2 _]]. destruct HU as [U _].
    rewrite net_tree_eq. apply good_view. rewrite map_app, map_map. cbn [map fst app].
    replace (map (fun x : LayoutModel.layer => l_name x) ls) with (map li_name layers) by (symmetry; apply names_layout). split; [|split].
    - constructor; [|constructor; [|exact N1]].
      + intros [X|X]; [discriminate|]. apply in_map_iff in X. destruct X as [l [E Hl]]. apply (U l Hl). rewrite E. now left.
      + intros X. apply in_map_iff in X. destruct X as [l [E Hl]]. apply (U l Hl). rewrite E. right. now left.
    - constructor; [|constructor].
      + apply component_good; [apply component_b_ok; reflexivity|]. cbn. intros X; repeat (destruct X as [X|X]; [discriminate|]); contradiction.
      + apply component_good; [apply component_b_ok; reflexivity|]. cbn. intros X; repeat (destruct X as [X|X]; [discriminate|]); contradiction.
      + apply Forall_forall. intros n Hn. apply in_map_iff in Hn. destruct Hn as [l [<- Hl]]. apply component_good; [now apply N2|].
        intros X. apply (U l Hl), in_or_app. now right.
    - constructor; [exact I|]. constructor; [exact I|]. apply Forall_forall. intros c Hc. apply in_map_iff in Hc. destruct Hc as [l [<- Hl]].
      unfold ls in Hl. apply in_map_iff in Hl. destruct Hl as [l' [<- Hl]]. now apply layer_good.
  Qed.
  Lemma net_form arrays arrays' : same_form _ (net_tree arrays ls) (net_tree arrays' ls).
  Proof.
    rewrite !net_tree_eq. apply same_view. cbn [app]. constructor; [split; [reflexivity|exact I]|]. constructor; [split; [reflexivity|exact I]|].
    unfold ls. rewrite !map_map. clear. induction layers as [|l r IH]; constructor; [|exact IH]. split; [reflexivity|]. cbn [snd].
    rewrite !layer_tree_eq. apply same_view. induction (cat_names l) as [|[cat names] q IHq]; constructor; [|exact IHq]. split; [reflexivity|].
    cbn [snd fst]. apply same_view. induction names as [|n m IHn]; constructor; [|exact IHn]. split; [reflexivity|exact I].
  Qed.

  Lemma dget_map {V} (g : string -> V) names n : In n names -> dget n (map (fun m => (m, g m)) names) = Some (g n).
  Proof.
    induction names as [|m r IH]; intros H; [destruct H|]. cbn [map dget]. destruct (String.eqb_spec n m) as [->|Ne]; [reflexivity|].
    apply IH. destruct H as [->|H]; [contradiction|exact H].
  Qed.
  Lemma node_root arrays kind : kind = "parameters" \/ kind = "gradients" -> node _ (net_tree arrays ls) [kind] = Some (LArr (arrays kind)).
  Proof. intros K. rewrite net_tree_eq. destruct K as [->| ->]; reflexivity. Qed.
  Lemma root_layer arrays l : In l layers -> dget (li_name l)
    ([("parameters", LArr (arrays "parameters")); ("gradients", LArr (arrays "gradients"))] ++ map (fun l => (l_name l, layer_tree arrays l)) ls) =
    Some (layer_tree arrays (layout_layer l)).
  Proof.
    intros Hl. destruct HU as [U _]. assert (N := U l Hl). cbn [app dget].
    destruct (String.eqb_spec (li_name l) "parameters") as [E|_]; [exfalso; apply N; rewrite E; now left|].
    destruct (String.eqb_spec (li_name l) "gradients") as [E|_]; [exfalso; apply N; rewrite E; right; now left|].
    destruct (instantiate_names _ _ HN HI) as [N1 _]. unfold ls. rewrite map_map. clear -N1 Hl.
    induction layers as [|m r IH]; [destruct Hl|]. cbn [map dget fst]. change (l_name (layout_layer m)) with (li_name m). cbn [map] in N1. inversion_clear N1 as [|? ? X1 X2].
    destruct Hl as [->|Hl]; [now rewrite String.eqb_refl|].
    destruct (String.eqb_spec (li_name l) (li_name m)) as [E|Ne]; [exfalso; apply X1; rewrite <- E; now apply in_map|]. apply IH; assumption.
  Qed.
  Lemma node_layer arrays l : In l layers -> exists c cs, node _ (net_tree arrays ls) [li_name l] = Some (LView None (c :: cs)).
  Proof.
    intros Hl. rewrite net_tree_eq. cbn [node]. rewrite (root_layer arrays l Hl), layer_tree_eq. unfold cat_names. cbn [map]. eauto.
  Qed.
  Lemma category_names l cat x : In x (map fst (buffers_of l cat)) -> exists names, In (cat, names) (cat_names l) /\ dget cat (cat_names l) = Some names.
  Proof.
    intros H. unfold buffers_of in H. unfold cat_names. cbn [dget In].
    repeat (match type of H with context [if String.eqb cat ?k then _ else _] => destruct (String.eqb_spec cat k) as [->|] end;
            [cbn [String.eqb Ascii.eqb Bool.eqb]; eexists; split; [|reflexivity]; cbn; tauto|]).
    destruct H.
  Qed.
  Lemma node_category arrays l cat x : In l layers -> In x (map fst (buffers_of l cat)) ->
    (exists c cs, node _ (net_tree arrays ls) [li_name l; cat] = Some (LView None (c :: cs))) /\
    node _ (net_tree arrays ls) [li_name l; cat; x] = Some (LArr (arrays (path3 (li_name l) cat x))).
  Proof.
    intros Hl Hx. destruct (category_names l cat x Hx) as [names [Hc Hd]].
    destruct (cat_names_ok l cat names Hl Hc) as [_ [_ K]]. apply K in Hx.
    rewrite net_tree_eq. cbn [node]. rewrite (root_layer arrays l Hl), layer_tree_eq.
    assert (E : dget cat (map (fun e => (fst e, LView None (map (fun n => (n, LArr (arrays (path3 (li_name l) (fst e) n)))) (snd e)))) (cat_names l)) =
                Some (LView None (map (fun n => (n, LArr (arrays (path3 (li_name l) cat n)))) names))).
    { clear -Hd. induction (cat_names l) as [|[k ns] r IH]; [discriminate|]. cbn [map dget fst snd] in *.
      destruct (String.eqb_spec cat k) as [->|]; [injection Hd as ->; reflexivity|auto]. }
    rewrite E. split.
    - destruct names as [|n r]; [destruct Hx|]. cbn [map]. eauto.
    - rewrite (dget_map (fun n => LArr (arrays (path3 (li_name l) cat n))) names x Hx). reflexivity.
  Qed.
End Net.

(** A network created from an architecture: after any number of resizes each
    buffer is found at its path, with the shape for the current sizes; the
    views of the layers, and of their categories that are not empty, are the
    objects created first. *)
Theorem C65_network : forall a layers hubs lay,
  named a -> instantiate a = SOk layers -> create_layout (map layout_layer layers) = LOk (hubs, lay) -> nonnegative layers ->
  usable_names layers -> forall h sizes T B,
  exists h1 v1 h2 v2,
    resizes _ [tree_for layers hubs lay (0, 0)] None h = VOk (h1, Some v1) /\
    resizes _ (map (tree_for layers hubs lay) (sizes ++ [(T, B)])) (Some v1) h1 = VOk (h2, Some v2) /\
    (forall l cat x b, In l layers -> In (x, b) (buffers_of l cat) ->
       exists w, view layers hubs lay T B l cat x = Some w /\ a_shape w = array_shape b T B /\
         get_item _ h2 v2 (path3 (li_name l) cat x) = VOk (VArr (Some w)) /\
         walk _ (get_attr _ h2) v2 [li_name l; cat; x] = VOk (VArr (Some w))) /\
    (forall kind, kind = "parameters" \/ kind = "gradients" ->
       get_attr _ h2 v2 kind = VOk (VArr (array_view (map layout_layer layers) hubs lay T B kind))) /\
    (forall l, In l layers -> exists p, get_item _ h1 v1 (li_name l) = VOk (VRef p) /\ get_item _ h2 v2 (li_name l) = VOk (VRef p)) /\
    (forall l cat, In l layers -> buffers_of l cat <> [] ->
       exists p, walk _ (get_attr _ h1) v1 [li_name l; cat] = VOk (VRef p) /\ walk _ (get_attr _ h2) v2 [li_name l; cat] = VOk (VRef p)) /\
    (forall q, q < length h -> nth_error h2 q = nth_error h q).
Proof.
  intros a layers hubs lay HN HI HL HZ HU h sizes T B.
  assert (G := net_good a layers HN HI HU (array_view (map layout_layer layers) hubs lay 0 0)).
  set (t0 := tree_for layers hubs lay (0, 0)). change (good_tree _ t0) in G.
  assert (Sf : forall tb, same_form _ t0 (tree_for layers hubs lay tb)) by (intros tb; apply (net_form a layers HN HI HU)).
  destruct (resizing _ t0 (map (tree_for layers hubs lay) (sizes ++ [(T, B)])) h (array_view (map layout_layer layers) hubs lay 0 0 "parameters") G)
    as [h1 [v1 [h2 [v2 [E1 [E2 [E3 [E4 [E5 E6]]]]]]]]].
  { apply (node_root a layers HN HI HU). now left. }
  { apply Forall_forall. intros t Ht. apply in_map_iff in Ht. destruct Ht as [tb [<- _]]. apply Sf. }
  exists h1, v1, h2, v2. split; [exact E1|]. split; [exact E2|].
  rewrite map_app in E4. cbn [map] in E4. rewrite last_last in E4.
  split; [|split; [|split; [|split; [|exact E6]]]].
  - intros l cat x b Hl Hb. destruct (C63_views a layers hubs lay HN HI HL HZ l cat x b T B Hl Hb) as [w [W1 W2]].
    exists w. split; [exact W1|]. split; [exact W2|].
    destruct (node_category a layers HN HI HU (array_view (map layout_layer layers) hubs lay T B) l cat x Hl (in_map fst _ _ Hb)) as [_ N].
    destruct (E4 _ _ N) as [y [_ [Y2 [_ [Y4 Y5]]]]]. unfold view in W1. rewrite W1 in Y5. subst y.
    split; [|exact Y2]. apply Y4. discriminate.
  - intros kind K. destruct (E4 _ _ (node_root a layers HN HI HU (array_view (map layout_layer layers) hubs lay T B) kind K)) as [y [_ [Y2 [_ [_ Y5]]]]].
    subst y. cbn [walk] in Y2. destruct (get_attr _ h2 v2 kind); [cbn [vbind walk] in Y2; congruence|discriminate].
  - intros l Hl. destruct (node_layer a layers HN HI HU (array_view (map layout_layer layers) hubs lay 0 0) l Hl) as [c [cs N]].
    destruct (node_layer a layers HN HI HU (array_view (map layout_layer layers) hubs lay T B) l Hl) as [c' [cs' N']].
    assert (I5 := E5 _ _ _ _ N). destruct (E3 _ _ N) as [y [Y1 [_ [_ [Y4 [d [Y5 _]]]]]]]. destruct (E4 _ _ N') as [z [Z1 [_ [_ [Z4 _]]]]].
    rewrite Y1, Z1 in I5. injection I5 as ->. destruct y as [?|p]; [discriminate|]. exists p. split; [apply Y4; discriminate|apply Z4; discriminate].
  - intros l cat Hl Hne. destruct (buffers_of l cat) as [|[x b] r] eqn:EB; [contradiction|].
    assert (Hx : In x (map fst (buffers_of l cat))) by (rewrite EB; now left).
    destruct (node_category a layers HN HI HU (array_view (map layout_layer layers) hubs lay 0 0) l cat x Hl Hx) as [[c [cs N]] _].
    destruct (node_category a layers HN HI HU (array_view (map layout_layer layers) hubs lay T B) l cat x Hl Hx) as [[c' [cs' N']] _].
    assert (I5 := E5 _ _ _ _ N). destruct (E3 _ _ N) as [y [Y1 [Y2 [_ [_ [d [Y5 _]]]]]]]. destruct (E4 _ _ N') as [z [Z1 [Z2 _]]].
    rewrite Y1, Z1 in I5. injection I5 as ->. destruct y as [?|p]; [discriminate|]. exists p. auto.
Qed.
Print Assumptions C65_network.

(** A network with two layers. *)
Definition view_net : karch :=
  [entry "Input" "Input" [("default", ["FC"])] [("out_shapes", KDict [("default", tb_shape [3%Z])])];
   entry "FC" "FullyConnected" [("default", [])] [("size", KInt 2)]].
Definition usable_names_b (layers : list linst) : bool :=
  forallb (fun l => negb (smem (li_name l) (["parameters"; "gradients"] ++ reserved)) &&
    forallb (fun x => negb (smem x reserved)) (map fst (li_in l ++ li_out l ++ li_params l ++ li_int l))) layers.
Lemma usable_names_b_ok layers : usable_names_b layers = true -> usable_names layers.
Proof.
  unfold usable_names_b. rewrite forallb_forall. intros H. split.
  - intros l Hl X. specialize (H l Hl). apply andb_true_iff in H. destruct H as [H _]. apply smem_In in X. now rewrite X in H.
  - intros l cat x Hl Hx X. specialize (H l Hl). apply andb_true_iff in H. destruct H as [_ H]. rewrite forallb_forall in H.
    assert (Y : In x (map fst (li_in l ++ li_out l ++ li_params l ++ li_int l))).
    { rewrite !map_app, !in_app_iff. unfold buffers_of in Hx. repeat (destruct (String.eqb _ _) in Hx; [tauto|]). destruct Hx. }
    specialize (H x Y). apply smem_In in X. now rewrite X in H.
Qed.
Lemma view_net_named : named view_net.
Proof.
  split.
  - cbn. repeat constructor; cbn; intuition congruence.
  - intros n r kw H E; cbn [In view_net entry] in H. destruct H as [H|[H|[]]]; injection H as <- <- <-; [|cbn in E; discriminate].
    split; [repeat constructor; cbn; tauto|]. cbn. constructor; [|constructor]. apply component_b_ok. reflexivity.
Qed.
(** It meets the hypotheses of C65_network. *)
Example C65_hypotheses : named view_net /\ instantiate view_net = SOk (layers_of view_net) /\
  create_layout (map layout_layer (layers_of view_net)) = LOk (layout_of view_net) /\ nonnegative (layers_of view_net) /\
  usable_names (layers_of view_net) /\ length (layers_of view_net) = 2.
Proof.
  split; [apply view_net_named|]. split; [vm_compute; reflexivity|]. split; [vm_compute; reflexivity|].
  split; [apply nonnegative_b_ok; vm_compute; reflexivity|]. split; [apply usable_names_b_ok; vm_compute; reflexivity|]. vm_compute. reflexivity.
Qed.
Example C65_example :
  exists h1 v1 h2 v2, resizes _ [tree_for (layers_of view_net) (fst (layout_of view_net)) (snd (layout_of view_net)) (0, 0)] None [] = VOk (h1, Some v1) /\
    resizes _ (map (tree_for (layers_of view_net) (fst (layout_of view_net)) (snd (layout_of view_net))) [(2, 5); (4, 3)]) (Some v1) h1 = VOk (h2, Some v2) /\
    (exists w, get_item _ h2 v2 "FC.outputs.default" = VOk (VArr (Some w)) /\ a_shape w = [4; 3; 2]) /\
    (exists w, get_item _ h2 v2 "FC.parameters.W" = VOk (VArr (Some w)) /\ a_shape w = [2; 3]) /\
    get_item _ h1 v1 "FC" = get_item _ h2 v2 "FC" /\
    (* an empty view is replaced *)
    get_item _ h1 v1 "Input.parameters" = VOk (VRef 2) /\ get_item _ h2 v2 "Input.parameters" <> VOk (VRef 2).
Proof.
  eexists _, _, _, _. split; [vm_compute; reflexivity|]. split; [vm_compute; reflexivity|].
  split; [eexists; split; vm_compute; reflexivity|]. split; [eexists; split; vm_compute; reflexivity|].
  split; [vm_compute; reflexivity|]. split; [vm_compute; reflexivity|]. vm_compute. discriminate.
Qed.

(** ** The names matter *)
(** The layer is called [name]. *)
Definition net_called (name : string) : karch :=
  [entry "Input" "Input" [("default", [name])] [("out_shapes", KDict [("default", tb_shape [3%Z])])];
   entry name "FullyConnected" [("default", [])] [("size", KInt 2)]].
Lemma net_called_named name : name <> "Input" -> named (net_called name).
Proof.
  intros Ne. split.
  - cbn. repeat constructor; cbn; intuition congruence.
  - intros n r kw H E; cbn [In net_called entry] in H. destruct H as [H|[H|[]]]; injection H as <- <- <-; [|cbn in E; discriminate].
    split; [repeat constructor; cbn; tauto|]. cbn. constructor; [|constructor]. apply component_b_ok. reflexivity.
Qed.

(** A layer called "adjust" is accepted, but the first resize after the
    creation of the network raises a TypeError. *)
Theorem C65_adjust_refuted : exists a layers hubs lay,
  named a /\ instantiate a = SOk layers /\ create_layout (map layout_layer layers) = LOk (hubs, lay) /\ nonnegative layers /\
  exists h v, resizes _ [tree_for layers hubs lay (0, 0)] None [] = VOk (h, Some v) /\
    forall T B, resizes _ [tree_for layers hubs lay (T, B)] (Some v) h = VErr EType.
Proof.
  exists (net_called "adjust"), (layers_of (net_called "adjust")), (fst (layout_of (net_called "adjust"))), (snd (layout_of (net_called "adjust"))).
  split; [now apply net_called_named|]. split; [vm_compute; reflexivity|]. split; [vm_compute; reflexivity|].
  split; [apply nonnegative_b_ok; vm_compute; reflexivity|].
  assert (K : forall f, exists h v, resizes _ [net_tree f (map layout_layer (layers_of (net_called "adjust")))] None [] = VOk (h, Some v) /\
                forall g, resizes _ [net_tree g (map layout_layer (layers_of (net_called "adjust")))] (Some v) h = VErr EType).
  { intros f. eexists _, _. split; [vm_compute; reflexivity|]. intros g. vm_compute. reflexivity. }
  destruct (K (array_view (map layout_layer (layers_of (net_called "adjust"))) (fst (layout_of (net_called "adjust"))) (snd (layout_of (net_called "adjust"))) 0 0)) as [h [v [H1 H2]]].
  exists h, v. split; [exact H1|]. intros T B. apply H2.
Qed.
Print Assumptions C65_adjust_refuted.

(** With a layer called "items" all resizes work, but net.buffer.items(), which
    every call of initialize uses (network.py:246), raises a TypeError. *)
Theorem C65_items_refuted : exists a layers hubs lay,
  named a /\ instantiate a = SOk layers /\ create_layout (map layout_layer layers) = LOk (hubs, lay) /\ nonnegative layers /\
  forall T B, exists h v h2 v2, resizes _ [tree_for layers hubs lay (0, 0)] None [] = VOk (h, Some v) /\
    resizes _ [tree_for layers hubs lay (T, B)] (Some v) h = VOk (h2, Some v2) /\
    items _ h v = VErr EType /\ items _ h2 v2 = VErr EType.
Proof.
  exists (net_called "items"), (layers_of (net_called "items")), (fst (layout_of (net_called "items"))), (snd (layout_of (net_called "items"))).
  split; [now apply net_called_named|]. split; [vm_compute; reflexivity|]. split; [vm_compute; reflexivity|].
  split; [apply nonnegative_b_ok; vm_compute; reflexivity|]. intros T B.
  assert (K : forall f g, exists h v h2 v2, resizes _ [net_tree f (map layout_layer (layers_of (net_called "items")))] None [] = VOk (h, Some v) /\
                resizes _ [net_tree g (map layout_layer (layers_of (net_called "items")))] (Some v) h = VOk (h2, Some v2) /\
                items _ h v = VErr EType /\ items _ h2 v2 = VErr EType).
  { intros f g. eexists _, _, _, _. split; [vm_compute; reflexivity|]. split; [vm_compute; reflexivity|]. split; vm_compute; reflexivity. }
  apply K.
Qed.
Print Assumptions C65_items_refuted.

(** A layer called "parameters" takes the place of the array of all parameters:
    the first resize raises an AssertionError, whatever the arrays are. *)
Theorem C65_parameters_refuted : exists a layers, named a /\ instantiate a = SOk layers /\
  forall f, exists h v, resizes _ [net_tree f (map layout_layer layers)] None [] = VOk (h, Some v) /\
    forall g, resizes _ [net_tree g (map layout_layer layers)] (Some v) h = VErr EAssertion.
Proof.
  exists (net_called "parameters"), (layers_of (net_called "parameters")).
  split; [now apply net_called_named|]. split; [vm_compute; reflexivity|].
  intros f. eexists _, _. split; [vm_compute; reflexivity|]. intros g. vm_compute. reflexivity.
Qed.
Print Assumptions C65_parameters_refuted.
