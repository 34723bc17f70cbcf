(** Lemmas for C72: when a layout exists. *)
From Coq Require Import String Ascii List Arith Bool Lia Permutation Relations.
From Verif Require Import PyBase PyFacts UtilsModel UtilsProofs HubModel HubProofs HubProps LayoutModel LayoutProofs LayoutProps.
Import ListNotations.
Open Scope string_scope.
Open Scope list_scope.
Open Scope nat_scope.

(** ** Specification *)
(** The outputs of the layers, as (layer, output) *)
Definition outputs (layers : list layer) : list (string * string) := flat_map (fun l => map (fun e => (l_name l, fst e)) (l_out l)) layers.
(** The output s (layer, name) is connected to the input t (layer, name). *)
Definition feeds (layers : list layer) (s t : string * string) : Prop :=
  exists l c, In l layers /\ In c (l_outgoing l) /\ s = (c_start c, c_output c) /\ t = (c_end c, c_input c).
(** The outputs in an order in which the sources of every input are neighbours *)
Definition arrangement (layers : list layer) (order : list (string * string)) : Prop :=
  Permutation order (outputs layers) /\
  forall t, exists before block after, order = before ++ block ++ after /\ Forall (fun s => feeds layers s t) block /\ Forall (fun s => ~ feeds layers s t) (before ++ after).
(** Connections start at outputs (not at '..internals.X' or '..parameters.X'). *)
Definition from_outputs (layers : list layer) : Prop := forall l c, In l layers -> In c (l_outgoing l) -> component (c_output c).
(** Buffer types: parameters have a fixed size, the sources of an input are of one type, nothing of this is only for the backward pass. *)
Record uniform (layers : list layer) : Prop := mkUniform {
  un_params : forall l x st, In l layers -> In (x, st) (l_params l) -> ls_btype st = 0 /\ ls_bwd st = false;
  un_outputs : forall l x st, In l layers -> In (x, st) (l_out l) -> ls_bwd st = false;
  un_sources : forall l l' x x' st st' t, In l layers -> In l' layers -> In (x, st) (l_out l) -> In (x', st') (l_out l') ->
    feeds layers (l_name l, x) t -> feeds layers (l_name l', x') t -> ls_btype st = ls_btype st'
}.

(** With sources of one kind and buffer type, a hub can only fail because there is no order of the sources. *)
Lemma hub_create_error source_set sink_set so cns bt bw e :
  same_kind source_set ->
  (forall t, In t sink_set -> is_group t = false) ->
  (exists n s, In n source_set /\ In s (node_flat n)) ->
  (forall n s, In n source_set -> In s (node_flat n) ->
     exists st, so s = Some st /\ ls_btype st = bt /\ ls_bwd st = bw) ->
  hub_create source_set sink_set so cns = LErr e -> e = EFailedLayout.
Proof.
  intros K1 K2 [n0 [s0 [Hn0 Hs0]]] HS. unfold hub_create.
  destruct (sort_nodes_total _ K1) as [srt Es]. rewrite Es. assert (Ps := sort_nodes_perm _ _ Es).
  assert (HS' : forall s, In s (flat_map node_flat srt) -> exists st, so s = Some st /\ ls_btype st = bt /\ ls_bwd st = bw).
  { intros s Hs. apply in_flat_map in Hs. destruct Hs as [n [Hn Hs]]. apply (HS n s); [|assumption].
    apply (Permutation_in _ (Permutation_sym Ps)); assumption. }
  destruct (get_all_total so (flat_map node_flat srt)) as [structs Eg].
  { intros s Hs. destruct (HS' s Hs) as [st [H _]]. eauto. }
  rewrite Eg. destruct (get_all_spec _ _ _ Eg) as [Lg Ng].
  assert (I0 : In s0 (flat_map node_flat srt)).
  { apply in_flat_map. exists n0. split; [|assumption]. now apply (Permutation_in _ Ps). }
  assert (HB : forall st, In st structs -> ls_btype st = bt /\ ls_bwd st = bw).
  { intros st Hst. apply In_nth_error in Hst. destruct Hst as [i Hi].
    assert (Li : i < length (flat_map node_flat srt)) by (rewrite <- Lg; apply nth_error_Some; congruence).
    assert (Hs := nth_error_nth' _ "" Li). destruct (Ng _ _ Hs) as [st' [H1 H2]].
    rewrite Hi in H2. injection H2 as <-. destruct (HS' _ (nth_error_In _ _ Hs)) as [st' [H3 H4]].
    rewrite H1 in H3. injection H3 as <-. assumption. }
  rewrite (uniform_nat_total (map ls_btype structs) bt).
  2:{ intros E. apply map_eq_nil in E. subst structs. destruct (flat_map node_flat srt); [destruct I0 | discriminate]. }
  2:{ intros x Hx. apply in_map_iff in Hx. destruct Hx as [st [<- Hst]]. now apply HB. }
  assert (En : exists names, single_names sink_set = Some names).
  { unfold single_names. replace (forallb (fun n => negb (is_group n)) sink_set) with true; [eauto|].
    symmetry. apply forallb_forall. intros n Hn. now rewrite K2. }
  destruct En as [names En]. rewrite En. cbv zeta. destruct (single_names_spec _ _ En) as [_ [Hn _]].
  set (nesting := convert_to_nested_indices (map node_nested srt)).
  assert (PR := permute_rows_spec nesting (length (isort String.leb names))
     (connection_table (flat_map node_flat srt) (isort String.leb names) cns)).
  destruct (permute_rows _ _ _) as [perm|] eqn:Ep.
  2:{ now intros [= <-]. }
  destruct PR as [q [Pq [-> _]]].
  assert (Hin : forall k, In k (flatten q) <-> k < length (flat_map node_flat srt)).
  { intros k. assert (F := flatten_perm _ _ Pq). unfold nesting in F. rewrite nesting_flatten in F. split.
    - intros H. apply (Permutation_in _ (Permutation_sym F)) in H. apply in_seq in H. lia.
    - intros H. apply (Permutation_in _ F). apply in_seq. lia. }
  rewrite (uniform_bool_total _ bw); [discriminate|..].
  - intros E. apply map_eq_nil in E. apply In_nth_error in I0. destruct I0 as [i Hi].
    assert (X : In i (flatten q)) by (apply Hin; apply nth_error_Some; congruence). rewrite E in X. destruct X.
  - intros x Hx. apply in_map_iff in Hx. destruct Hx as [k [<- Hk]]. apply Hin in Hk.
    apply HB. apply nth_In. now rewrite Lg.
Qed.

Section Exist.
  Variable layers : list layer.
  Hypothesis W : wf_layers layers.
  Hypothesis OUT : from_outputs layers.

  Definition oc (k : bool) : string := if k then "outputs" else "output_deltas".
  Definition ic (k : bool) : string := if k then "inputs" else "input_deltas".
  Definition pc (k : bool) : string := if k then "parameters" else "gradients".
  Definition grp (k : bool) (l : layer) : list string := if k then pgroup l else ggroup l.
  Lemma grp_eq k l : grp k l = map (fun p => path3 (l_name l) (pc k) (fst p)) (l_params l). Proof. destruct k; reflexivity. Qed.
  Lemma oc_cat k : In (oc k) categories. Proof. destruct k; cbn; tauto. Qed.
  Lemma ic_cat k : In (ic k) categories. Proof. destruct k; cbn; tauto. Qed.
  Lemma pc_cat k : In (pc k) categories. Proof. destruct k; cbn; tauto. Qed.

  Lemma out_comp n o : In (n, o) (outputs layers) -> component n /\ component o.
  Proof.
    intros H. apply in_flat_map in H. destruct H as [l [Hl H]]. apply in_map_iff in H. destruct H as [e [[= <- <-] He]]. split; [now apply (wf_name _ W)|].
    destruct (wf_out _ W l Hl) as [_ F]. rewrite Forall_forall in F. apply F. now apply in_map.
  Qed.
  Lemma outputs_In n o : In (n, o) (outputs layers) <-> exists l, In l layers /\ n = l_name l /\ In o (map fst (l_out l)).
  Proof.
    unfold outputs. rewrite in_flat_map. split.
    - intros [l [Hl H]]. apply in_map_iff in H. destruct H as [e [[= <- <-] He]]. exists l. repeat split; [assumption|]. now apply in_map.
    - intros [l [Hl [-> Ho]]]. exists l. split; [assumption|]. apply in_map_iff in Ho. destruct Ho as [e [<- He]]. apply in_map_iff. now exists e.
  Qed.
  Lemma outputs_NoDup : NoDup (outputs layers).
  Proof.
    unfold outputs. apply (NoDup_flat_map_tag _ fst l_name).
    - exact (wf_names _ W).
    - intros l Hl. destruct (wf_out _ W l Hl) as [N _]. rewrite <- (map_map fst (fun x => (l_name l, x))). apply FinFun.Injective_map_NoDup; [intros a b [= E]; exact E|exact N].
    - intros l y _ H. apply in_map_iff in H. now destruct H as [e [<- _]].
  Qed.
  Lemma out_ref_out l c : In l layers -> In c (l_outgoing l) -> out_ref (c_output c) ("outputs", c_output c).
  Proof. intros H1 H2. constructor. now apply (OUT l). Qed.
  Lemma feeds_ends s t : feeds layers s t -> In s (outputs layers) /\ exists l, In l layers /\ fst t = l_name l /\ In (snd t) (map fst (l_in l)).
  Proof.
    intros [l [c [Hl [Hc [-> ->]]]]]. destruct (wf_conn _ W l c Hl Hc) as [E [[cat [x [R X]]] [l' [Hl' [E' I]]]]]. split.
    - apply outputs_In. exists l. repeat split; try assumption. assert (Q := out_ref_fun _ _ _ R (out_ref_out l c Hl Hc)). injection Q as -> ->. exact X.
    - exists l'. now cbn.
  Qed.
  Lemma in_comp l i : In l layers -> In i (map fst (l_in l)) -> component i.
  Proof. intros Hl H. destruct (wf_in _ W l Hl) as [_ F]. rewrite Forall_forall in F. now apply F. Qed.
  Lemma feeds_comp s t : feeds layers s t -> (component (fst s) /\ component (snd s)) /\ component (fst t) /\ component (snd t).
  Proof.
    intros H. destruct (feeds_ends s t H) as [H1 [l [Hl [-> Hi]]]]. split; [destruct s; now apply out_comp|]. split; [now apply (wf_name _ W)|]. now apply (in_comp l).
  Qed.
  Lemma fcon_cases s t : fcon layers (s, t) <->
    (exists p q, feeds layers p q /\ s = path3 (fst p) "outputs" (snd p) /\ t = path3 (fst q) "inputs" (snd q)) \/
    (exists l x, In l layers /\ In x (map fst (l_params l)) /\ s = path3 (l_name l) "parameters" x /\ t = "parameters").
  Proof.
    split.
    - intros H. inversion H as [l c cat x Hl Hc R|l x Hl Hx]; subst.
      + left. assert (Q := out_ref_fun _ _ _ R (out_ref_out l c Hl Hc)). injection Q as -> ->. exists (c_start c, c_output c), (c_end c, c_input c). split; [now exists l, c|]. cbn [fst snd]. split; [|reflexivity]. now rewrite (proj1 (wf_conn _ W l c Hl Hc)).
      + right. now exists l, x.
    - intros [[p [q [[l [c [Hl [Hc [-> ->]]]]] [-> ->]]]]|[l [x [Hl [Hx [-> ->]]]]]].
      + cbn [fst snd]. rewrite (proj1 (wf_conn _ W l c Hl Hc)). apply fcon_con; try assumption. now apply out_ref_out with l.
      + now constructor.
  Qed.
  Lemma param_names_comp l x : In l layers -> In x (map fst (l_params l)) -> component x.
  Proof. intros Hl H. destruct (wf_params _ W l Hl) as [_ F]. rewrite Forall_forall in F. now apply F. Qed.

  (** ** Forced orders and connections *)
  Lemma disjoint_concat fs : NoDup (concat fs) -> disjoint_orders fs = true.
  Proof.
    induction fs as [|fo fs IH]; [reflexivity|]. cbn [concat disjoint_orders]. intros H.
    assert (A : forall x, In x fo -> ~ In x (concat fs)) by (intros x Hx Hy; revert H Hx Hy; clear; induction fo as [|y fo IHf]; [intros _ []|]; cbn; intros N [->|Hx] Hy; inversion N; subst; [apply H1, in_or_app; now right|now apply IHf]).
    assert (B : NoDup (concat fs)) by (clear -H; induction fo as [|y fo IHf]; [exact H|]; apply IHf; now inversion H).
    rewrite (IH B), andb_true_r. apply forallb_forall. intros other Ho. apply forallb_forall. intros s Hs. apply negb_true_iff. destruct (smem s other) eqn:E; [|reflexivity].
    apply smem_In in E. exfalso. apply (A s Hs). apply in_concat. now exists other.
  Qed.
  Lemma concat_nonempty fs : concat (nonempty_orders fs) = concat fs.
  Proof. induction fs as [|[|x fo] fs IH]; [reflexivity|exact IH|]. cbn. now rewrite <- IH. Qed.
  Lemma grp_path k l s : In s (grp k l) <-> exists x, In x (map fst (l_params l)) /\ s = path3 (l_name l) (pc k) x.
  Proof.
    rewrite grp_eq, in_map_iff. split.
    - intros [e [<- He]]. exists (fst e). split; [now apply in_map|reflexivity].
    - intros [x [Hx ->]]. apply in_map_iff in Hx. destruct Hx as [e [<- He]]. now exists e.
  Qed.
  Lemma grps_NoDup k : NoDup (concat (map (grp k) layers)).
  Proof.
    rewrite <- flat_map_concat_map. apply (NoDup_flat_map_tag _ (fun s => match split2 s with Some (a, _, _) => a | None => "" end) l_name); [exact (wf_names _ W)|..].
    - intros l Hl. rewrite grp_eq, <- (map_map fst (path3 (l_name l) (pc k))). destruct (wf_params _ W l Hl) as [N F]. rewrite Forall_forall in F.
      revert N F. generalize (map fst (l_params l)). intros d N F. induction d as [|x d IH]; [constructor|]. inversion N; subst. cbn. constructor; [|apply IH; [assumption|intros y Hy; apply F; now right]].
      intros H. apply in_map_iff in H. destruct H as [y [E Hy]]. apply path3_inj in E; [destruct E as [_ [_ ->]]; contradiction|..]; try (now apply (wf_name _ W)); try (apply category_component, pc_cat); apply F; [now right|now left].
    - intros l s Hl Hs. apply grp_path in Hs. destruct Hs as [x [Hx ->]]. rewrite split2_path3; [reflexivity|now apply (wf_name _ W)|apply category_component, pc_cat|now apply (param_names_comp l)].
  Qed.
  Lemma collect_map {A B} (f : A -> lres B) (g : A -> B) l : (forall x, In x l -> f x = LOk (g x)) -> collect (fun x => match f x with LOk y => LOk [y] | LErr e => LErr e end) l = LOk (map g l).
  Proof. intros H. rewrite (collect_ok _ (fun x => [g x])); [now rewrite flat_map_single|]. intros x Hx. now rewrite (H x Hx). Qed.
  Lemma order_ok k l : In l layers -> get_order (pc k) l = LOk (grp k l).
  Proof.
    intros Hl. unfold get_order. rewrite grp_eq. apply (collect_map (fun p => npath [l_name l; pc k; fst p]) (fun p => path3 (l_name l) (pc k) (fst p))).
    intros p Hp. apply npath3; [now apply (wf_name _ W)|apply category_component, pc_cat|apply (param_names_comp l _ Hl); now apply in_map].
  Qed.
  Lemma forced_ok : exists fos, get_forced_orders layers = LOk fos.
  Proof.
    unfold get_forced_orders. rewrite (collect_map (get_order "parameters") (grp true) layers (fun l Hl => order_ok true l Hl)), (collect_map (get_order "gradients") (grp false) layers (fun l Hl => order_ok false l Hl)).
    cbv zeta. rewrite disjoint_concat; [now eexists|]. rewrite concat_nonempty, concat_app.
    assert (A := grps_NoDup true). assert (B := grps_NoDup false).
    assert (D : forall s, In s (concat (map (grp true) layers)) -> ~ In s (concat (map (grp false) layers))).
    { intros s H1 H2. apply in_concat in H1, H2. destruct H1 as [g1 [G1 S1]], H2 as [g2 [G2 S2]]. apply in_map_iff in G1, G2. destruct G1 as [l1 [<- L1]], G2 as [l2 [<- L2]].
      apply grp_path in S1, S2. destruct S1 as [x [Hx ->]], S2 as [y [Hy E]]. apply path3_inj in E; [exact (eq_ind "parameters" (fun z => if String.eqb z "parameters" then True else False) I "gradients" (proj1 (proj2 E)))|..]; try (now apply (wf_name _ W)); try (apply category_component, pc_cat); first [exact (param_names_comp l1 x L1 Hx)|exact (param_names_comp l2 y L2 Hy)]. }
    revert A D. generalize (concat (map (grp true) layers)). intros u A D. induction u as [|x u IH]; [exact B|]. cbn. inversion A; subst. constructor; [|apply IH; [assumption|intros s Hs; apply D; now right]].
    intros H. apply in_app_or in H. destruct H as [H|H]; [contradiction|]. apply (D x); [now left|exact H].
  Qed.
  Lemma con_ok l c : In l layers -> In c (l_outgoing l) ->
    con_connections l c = LOk [(path3 (c_start c) "outputs" (c_output c), path3 (c_end c) "inputs" (c_input c)); (path3 (c_start c) "output_deltas" (c_output c), path3 (c_end c) "input_deltas" (c_input c))].
  Proof.
    intros Hl Hc. assert (F : feeds layers (c_start c, c_output c) (c_end c, c_input c)) by now exists l, c. destruct (feeds_comp _ _ F) as [[C1 C2] [C3 C4]]. cbn [fst snd] in *.
    unfold con_connections. rewrite !npath3; try assumption; try (apply category_component; cbn; tauto).
    unfold get_backward_connection. rewrite !split2_path3; try assumption; try (apply category_component; cbn; tauto). reflexivity.
  Qed.
  Lemma connections_ok : exists cns, get_connections layers = LOk cns.
  Proof.
    unfold get_connections.
    rewrite (collect_ok (fun l => collect (con_connections l) (l_outgoing l)) (fun l => flat_map (fun c => [(path3 (c_start c) "outputs" (c_output c), path3 (c_end c) "inputs" (c_input c)); (path3 (c_start c) "output_deltas" (c_output c), path3 (c_end c) "input_deltas" (c_input c))]) (l_outgoing l))).
    2: { intros l Hl. apply collect_ok. intros c Hc. now apply con_ok. }
    rewrite (collect_ok param_connections (fun l => flat_map (fun p => [(path3 (l_name l) "parameters" (fst p), "parameters"); (path3 (l_name l) "gradients" (fst p), "gradients")]) (l_params l))); [now eexists|].
    intros l Hl. unfold param_connections. apply collect_ok. intros p Hp. assert (C : component (fst p)) by (apply (param_names_comp l _ Hl); now apply in_map).
    rewrite !npath3; try assumption; try (now apply (wf_name _ W)); try (apply category_component; cbn; tauto). reflexivity.
  Qed.

  Variable fos : list (list string).
  Hypothesis Hfos : get_forced_orders layers = LOk fos.
  Variable cns : list (string * string).
  Hypothesis Hcns : get_connections layers = LOk cns.
  Notation M := (merge_connections cns fos).
  Notation so := (fun s => dget s (stub layers)).
  Definition opath (k : bool) (p : string * string) : string := path3 (fst p) (oc k) (snd p).
  Definition ipath (k : bool) (p : string * string) : string := path3 (fst p) (ic k) (snd p).

  Lemma cns_cases s t : In (s, t) cns <-> exists k,
    (exists p q, feeds layers p q /\ s = opath k p /\ t = ipath k q) \/
    (exists l x, In l layers /\ In x (map fst (l_params l)) /\ s = path3 (l_name l) (pc k) x /\ t = pc k).
  Proof.
    rewrite (get_connections_spec layers W cns Hcns). split.
    - intros [H|[s' [t' [H [-> ->]]]]]; apply fcon_cases in H.
      + exists true. exact H.
      + exists false. destruct H as [[p [q [F [-> ->]]]]|[l [x [Hl [Hx [-> ->]]]]]].
        * left. exists p, q. destruct (feeds_comp _ _ F) as [[C1 C2] [C3 C4]]. split; [exact F|]. now rewrite mirror_outputs, mirror_inputs by assumption.
        * right. exists l, x. repeat split; try assumption. apply mirror_parameters; [now apply (wf_name _ W)|now apply (param_names_comp l)].
    - intros [[|] H].
      + left. apply fcon_cases. exact H.
      + right. destruct H as [[p [q [F [-> ->]]]]|[l [x [Hl [Hx [-> ->]]]]]].
        * destruct (feeds_comp _ _ F) as [[C1 C2] [C3 C4]]. exists (opath true p), (ipath true q). split; [apply fcon_cases; left; now exists p, q|]. unfold opath, ipath. cbn [oc ic]. now rewrite mirror_outputs, mirror_inputs by assumption.
        * exists (path3 (l_name l) "parameters" x), "parameters". split; [apply fcon_cases; right; now exists l, x|]. split; [|reflexivity]. symmetry. apply mirror_parameters; [now apply (wf_name _ W)|now apply (param_names_comp l)].
  Qed.
  Lemma cat_differs l c x l' c' x' : component l -> component x -> component l' -> component x' -> In c categories -> In c' categories -> path3 l c x = path3 l' c' x' -> l = l' /\ c = c' /\ x = x'.
  Proof. intros. apply path3_inj; try assumption; now apply category_component. Qed.
  Lemma merge_other l c x : component l -> component x -> In c categories -> c <> "parameters" -> c <> "gradients" -> merge_node fos (path3 l c x) = Single (path3 l c x).
  Proof.
    intros C1 C2 Hc N1 N2. apply merge_single. intros fo Hfo H. apply (fos_In layers W fos Hfos) in Hfo. destruct Hfo as [_ [l' [Hl' E]]].
    assert (G : exists k, In (path3 l c x) (grp k l')) by (destruct E as [-> | ->]; [exists true|exists false]; exact H). destruct G as [k G]. apply grp_path in G. destruct G as [y [Hy E']].
    apply cat_differs in E'; try assumption; [|now apply (wf_name _ W)|now apply (param_names_comp l')|apply pc_cat]. destruct E' as [_ [-> _]]. destruct k; [now apply N1|now apply N2].
  Qed.
  Lemma merge_out k p : component (fst p) -> component (snd p) -> merge_node fos (opath k p) = Single (opath k p).
  Proof. intros C1 C2. apply merge_other; try assumption; [apply oc_cat|destruct k; discriminate..]. Qed.
  Lemma grp_forced k l : In l layers -> l_params l <> [] -> In (grp k l) fos.
  Proof. intros Hl N. apply (fos_In layers W fos Hfos). split; [rewrite grp_eq; destruct (l_params l); [congruence|discriminate]|]. exists l. split; [exact Hl|]. destruct k; [now left|now right]. Qed.
  Lemma merge_param k l x : In l layers -> In x (map fst (l_params l)) -> merge_node fos (path3 (l_name l) (pc k) x) = Group (grp k l).
  Proof.
    intros Hl Hx. apply (merge_group layers W fos Hfos); [apply grp_forced; [exact Hl|intros E; rewrite E in Hx; exact Hx]|]. apply grp_path. now exists x.
  Qed.
  (** The merged connections *)
  Lemma M_cases a t : In (a, t) M <-> exists k,
    (exists p q, feeds layers p q /\ a = Single (opath k p) /\ t = Single (ipath k q)) \/
    (exists l, In l layers /\ l_params l <> [] /\ a = Group (grp k l) /\ t = Single (pc k)).
  Proof.
    rewrite (M_In layers W fos Hfos cns Hcns). split.
    - intros [s [u [H [-> ->]]]]. apply cns_cases in H. destruct H as [k [[p [q [F [-> ->]]]]|[l [x [Hl [Hx [-> ->]]]]]]]; exists k.
      + left. exists p, q. destruct (feeds_comp _ _ F) as [[C1 C2] _]. split; [exact F|]. now rewrite merge_out by assumption.
      + right. exists l. rewrite merge_param by assumption. repeat split; try assumption. intros E. rewrite E in Hx. exact Hx.
    - intros [k [[p [q [F [-> ->]]]]|[l [Hl [N [-> ->]]]]]].
      + destruct (feeds_comp _ _ F) as [[C1 C2] _]. exists (opath k p), (ipath k q). split; [apply cns_cases; exists k; left; now exists p, q|]. now rewrite merge_out by assumption.
      + destruct (l_params l) as [|e r] eqn:E; [congruence|]. exists (path3 (l_name l) (pc k) (fst e)), (pc k). assert (Hx : In (fst e) (map fst (l_params l))) by (rewrite E; now left).
        split; [apply cns_cases; exists k; right; now exists l, (fst e)|]. now rewrite merge_param by assumption.
  Qed.
  Lemma opath_inj k k' p p' : component (fst p) -> component (snd p) -> component (fst p') -> component (snd p') -> opath k p = opath k' p' -> k = k' /\ p = p'.
  Proof.
    intros C1 C2 C3 C4 E. apply cat_differs in E; try assumption; try apply oc_cat. destruct E as [E1 [E2 E3]]. split; [|destruct p, p'; cbn in *; congruence]. destruct k, k'; cbn in E2; congruence.
  Qed.
  Lemma ipath_inj k k' p p' : component (fst p) -> component (snd p) -> component (fst p') -> component (snd p') -> ipath k p = ipath k' p' -> k = k' /\ p = p'.
  Proof.
    intros C1 C2 C3 C4 E. apply cat_differs in E; try assumption; try apply ic_cat. destruct E as [E1 [E2 E3]]. split; [|destruct p, p'; cbn in *; congruence]. destruct k, k'; cbn in E2; congruence.
  Qed.
  Lemma ipath_root k k' q : component (fst q) -> component (snd q) -> ipath k q <> pc k'.
  Proof. intros C1 C2. apply path3_not_root; try assumption; [apply category_component, ic_cat|destruct k'; reflexivity]. Qed.
  Lemma feeds_cns k p t : In p (outputs layers) -> (In (opath k p, t) cns <-> exists q, feeds layers p q /\ t = ipath k q).
  Proof.
    intros Hp. assert (C : component (fst p) /\ component (snd p)) by (destruct p; now apply out_comp). destruct C as [C1 C2]. rewrite cns_cases. split.
    - intros [k' [[p' [q [F [E ->]]]]|[l [x [Hl [Hx [E _]]]]]]].
      + destruct (feeds_comp _ _ F) as [[C3 C4] _]. apply opath_inj in E; try assumption. destruct E as [-> ->]. now exists q.
      + exfalso. apply cat_differs in E; try assumption; [|now apply (wf_name _ W)|now apply (param_names_comp l)|apply oc_cat|apply pc_cat]. destruct E as [_ [E _]]. destruct k, k'; cbn in E; discriminate.
    - intros [q [F ->]]. exists k. left. now exists p, q.
  Qed.

  (** ** Hubs *)
  Hypothesis U : uniform layers.
  Lemma struct_of l c d x st : In l layers -> In (c, d) (cat_entries l) -> In (x, st) d -> so (path3 (l_name l) c x) = Some st.
  Proof. intros Hl Hc Hx. apply (struct_In layers W). apply stub_In. now exists l, c, d, x. Qed.
  Lemma struct_out k l x st : In l layers -> In (x, st) (l_out l) -> exists st', so (opath k (l_name l, x)) = Some st' /\ ls_btype st' = ls_btype st /\ ls_bwd st' = negb k.
  Proof.
    intros Hl Hx. assert (B := un_outputs _ U l x st Hl Hx). destruct k.
    - exists st. split; [|now split]. apply (struct_of l "outputs" (l_out l) x st Hl); [cbn; tauto|exact Hx].
    - exists (backward_only st). split; [|now split]. apply (struct_of l "output_deltas" (backward_entries (l_out l)) x _ Hl); [cbn; tauto|]. apply backward_entries_In. now exists st.
  Qed.
  Lemma struct_param k l s : In l layers -> In s (grp k l) -> exists st, so s = Some st /\ ls_btype st = 0 /\ ls_bwd st = negb k.
  Proof.
    intros Hl H. apply grp_path in H. destruct H as [x [Hx ->]]. apply in_map_iff in Hx. destruct Hx as [[x' st] [<- He]]. cbn [fst]. destruct (un_params _ U l x' st Hl He) as [B1 B2]. destruct k.
    - exists st. split; [|now split]. apply (struct_of l "parameters" (l_params l) x' st Hl); [cbn; tauto|exact He].
    - exists (backward_only st). split; [|now split]. apply (struct_of l "gradients" (backward_entries (l_params l)) x' _ Hl); [cbn; tauto|]. apply backward_entries_In. now exists st.
  Qed.
  Lemma adjacent_split order t pre mid post : flat_map node_flat order = pre ++ mid ++ post -> (forall s, In s mid -> In (s, t) cns) -> (forall s, In s (pre ++ post) -> ~ In (s, t) cns) -> adjacent cns order t.
  Proof.
    intros E H1 H2. exists (length pre), (length pre + length mid). intros i s Hi. rewrite E in Hi. destruct (Nat.lt_ge_cases i (length pre)) as [L|L].
    - rewrite nth_error_app1 in Hi by exact L. apply nth_error_In in Hi. split; [|lia]. intros X. exfalso. apply (H2 s); [apply in_or_app; now left|exact X].
    - rewrite nth_error_app2 in Hi by exact L. destruct (Nat.lt_ge_cases (i - length pre) (length mid)) as [L'|L'].
      + rewrite nth_error_app1 in Hi by exact L'. apply nth_error_In in Hi. split; [lia|]. intros _. now apply H1.
      + rewrite nth_error_app2 in Hi by exact L'. apply nth_error_In in Hi. split; [|lia]. intros X. exfalso. apply (H2 s); [apply in_or_app; now right|exact X].
  Qed.

  (** Nodes without connection *)
  Lemma hub_lonely s src snk : (forall t, ~ In (Single s, t) M) -> component_of M (Single s) src snk -> In s (map fst (stub layers)) -> exists h, hub_create src snk so cns = LOk h.
  Proof.
    intros N [D1 [D2 [S1 S2]]] Hs. assert (T : forall b, together M (Single s) b -> b = Single s).
    { intros b H. apply clos_rt_rt1n in H. inversion H as [|y z [t [E _]] _]; [reflexivity|]. exfalso. exact (N _ E). }
    assert (Ss : forall a, In a src <-> a = Single s) by (intros a; rewrite S1; split; [apply T|intros ->; apply rt_refl]).
    assert (K : forall t, ~ In t snk) by (intros t H; apply S2 in H; destruct H as [a [Ha E]]; apply T in Ha; subst a; exact (N _ E)).
    apply in_map_iff in Hs. destruct Hs as [[s' st] [<- He]]. cbn [fst] in *.
    apply (hub_create_total src snk so cns (ls_btype st) (ls_bwd st) src).
    - right. intros n Hn. apply Ss in Hn. now subst n.
    - intros t H. destruct (K t H).
    - exists (Single s'), s'. split; [now apply Ss|now left].
    - intros n x Hn Hx. apply Ss in Hn. subst n. destruct Hx as [<-|[]]. exists st. split; [|now split]. now apply (struct_In layers W).
    - reflexivity.
    - intros t H. destruct (K _ H).
  Qed.
  (** Parameters *)
  Lemma hub_params k l src snk : In l layers -> l_params l <> [] -> component_of M (Group (grp k l)) src snk -> exists h, hub_create src snk so cns = LOk h.
  Proof.
    intros Hl N [D1 [D2 [S1 S2]]].
    assert (T : forall b, together M (Group (grp k l)) b -> exists l', In l' layers /\ l_params l' <> [] /\ b = Group (grp k l')).
    { intros b H. apply clos_rt_rtn1 in H. induction H as [|b c [t [E1 E2]] _ IH]; [now exists l|]. destruct IH as [l1 [L1 [N1 ->]]].
      apply M_cases in E1. destruct E1 as [k1 [[p [q [_ [E _]]]]|[l2 [L2 [N2 [E ->]]]]]]; [discriminate|]. injection E as E.
      assert (k1 = k).
      { destruct (l_params l1) as [|e r] eqn:Ep; [congruence|]. assert (X : In (path3 (l_name l1) (pc k) (fst e)) (grp k1 l2)) by (rewrite <- E; apply grp_path; exists (fst e); rewrite Ep; split; [now left|reflexivity]).
        apply grp_path in X. destruct X as [y [Hy X]]. apply cat_differs in X; [|now apply (wf_name _ W)|apply (param_names_comp l1 _ L1); rewrite Ep; now left|now apply (wf_name _ W)|now apply (param_names_comp l2)|apply pc_cat|apply pc_cat].
        destruct X as [_ [X _]]. destruct k, k1; cbn in X; congruence. }
      subst k1. apply M_cases in E2. destruct E2 as [k2 [[p [q [F [_ E2]]]]|[l3 [L3 [N3 [-> E2]]]]]].
      - exfalso. injection E2 as E2. destruct (feeds_comp _ _ F) as [_ [C3 C4]]. symmetry in E2. exact (ipath_root _ _ _ C3 C4 E2).
      - exists l3. repeat split; try assumption. injection E2 as E2. destruct k, k2; cbn in E2; congruence. }
    assert (F : forall a x, In a src -> In x (node_flat a) -> exists l', In l' layers /\ In x (grp k l')).
    { intros a x Ha Hx. apply S1, T in Ha. destruct Ha as [l' [Hl' [_ ->]]]. now exists l'. }
    assert (K : forall t, In t snk -> t = Single (pc k)).
    { intros t H. apply S2 in H. destruct H as [a [Ha E]]. assert (Ha' := proj2 (S1 a) Ha). apply T in Ha. destruct Ha as [l' [Hl' [N' ->]]]. apply M_cases in E. destruct E as [k1 [[p [q [_ [E _]]]]|[l2 [L2 [N2 [E ->]]]]]]; [discriminate|]. injection E as E.
      destruct (l_params l') as [|e r] eqn:Ep; [congruence|]. assert (X : In (path3 (l_name l') (pc k) (fst e)) (grp k1 l2)) by (rewrite <- E; apply grp_path; exists (fst e); rewrite Ep; split; [now left|reflexivity]).
      apply grp_path in X. destruct X as [y [Hy X]]. apply cat_differs in X; [|now apply (wf_name _ W)|apply (param_names_comp l' _ Hl'); rewrite Ep; now left|now apply (wf_name _ W)|now apply (param_names_comp l2)|apply pc_cat|apply pc_cat].
      destruct X as [_ [X _]]. now rewrite X. }
    apply (hub_create_total src snk so cns 0 (negb k) src).
    - left. intros n Hn. apply S1, T in Hn. now destruct Hn as [l' [_ [_ ->]]].
    - intros t H. now rewrite (K t H).
    - destruct (l_params l) as [|e r] eqn:Ep; [congruence|]. exists (Group (grp k l)), (path3 (l_name l) (pc k) (fst e)). split; [apply S1, rt_refl|]. cbn. apply grp_path. exists (fst e). rewrite Ep. split; [now left|reflexivity].
    - intros n s Hn Hs. destruct (F n s Hn Hs) as [l' [Hl' Hs']]. now apply (struct_param k l').
    - reflexivity.
    - intros t H. apply K in H. injection H as ->. apply (adjacent_split src (pc k) [] (flat_map node_flat src) []); [now rewrite app_nil_r| |intros s []].
      intros s Hs. apply in_flat_map in Hs. destruct Hs as [a [Ha Hs]]. destruct (F a s Ha Hs) as [l' [Hl' Hs']]. apply grp_path in Hs'. destruct Hs' as [x [Hx ->]]. apply cns_cases. exists k. right. now exists l', x.
  Qed.
  (** Outputs *)
  Lemma linked_out k p b : In p (outputs layers) -> linked M (Single (opath k p)) b -> exists p' q, feeds layers p q /\ feeds layers p' q /\ b = Single (opath k p').
  Proof.
    intros Hp [t [E1 E2]]. assert (C : component (fst p) /\ component (snd p)) by (destruct p; now apply out_comp). destruct C as [C1 C2].
    apply M_cases in E1. destruct E1 as [k1 [[p1 [q [F [E ->]]]]|[l2 [_ [_ [E _]]]]]]; [|discriminate]. injection E as E. destruct (feeds_comp _ _ F) as [[C3 C4] [C5 C6]]. apply opath_inj in E; try assumption. destruct E as [<- <-].
    apply M_cases in E2. destruct E2 as [k2 [[p2 [q2 [F2 [-> E]]]]|[l2 [_ [_ [_ E]]]]]]; injection E as E.
    - destruct (feeds_comp _ _ F2) as [_ [C7 C8]]. apply ipath_inj in E; try assumption. destruct E as [<- <-]. now exists p2, q.
    - exfalso. exact (ipath_root _ _ _ C5 C6 E).
  Qed.
  Lemma hub_outputs_error k p src snk e : In p (outputs layers) -> component_of M (Single (opath k p)) src snk -> hub_create src snk so cns = LErr e -> e = EFailedLayout.
  Proof.
    intros Hp [D1 [D2 [S1 S2]]].
    assert (ST : exists st, (exists l x, In l layers /\ In (x, st) (l_out l) /\ p = (l_name l, x))).
    { destruct p as [n o]. apply outputs_In in Hp. destruct Hp as [l [Hl [-> Ho]]]. apply in_map_iff in Ho. destruct Ho as [[x st] [<- He]]. now exists st, l, x. }
    destruct ST as [st [l [x [Hl [Hx Ep]]]]].
    assert (T : forall b, together M (Single (opath k p)) b -> exists l' x' st', In l' layers /\ In (x', st') (l_out l') /\ ls_btype st' = ls_btype st /\ b = Single (opath k (l_name l', x'))).
    { intros b H. apply clos_rt_rtn1 in H. induction H as [|b c E _ IH]; [exists l, x, st; now rewrite Ep|]. destruct IH as [l1 [x1 [st1 [L1 [X1 [B1 ->]]]]]].
      assert (O1 : In (l_name l1, x1) (outputs layers)) by (apply outputs_In; exists l1; repeat split; [exact L1|now apply (in_map fst) in X1]).
      destruct (linked_out k _ c O1 E) as [[n2 o2] [q [F1 [F2 ->]]]]. destruct (feeds_ends _ _ F2) as [O2 _]. apply outputs_In in O2. destruct O2 as [l2 [L2 [-> O2]]]. apply in_map_iff in O2. destruct O2 as [[x2 st2] [<- X2]]. cbn [fst] in *.
      exists l2, x2, st2. repeat split; try assumption. rewrite <- B1. exact (un_sources _ U l2 l1 x2 x1 st2 st1 q L2 L1 X2 X1 F2 F1). }
    assert (TO : forall b, In b src -> exists p', In p' (outputs layers) /\ b = Single (opath k p')).
    { intros b Hb. apply S1, T in Hb. destruct Hb as [l' [x' [st' [Hl' [Hx' [_ ->]]]]]]. exists (l_name l', x'). split; [|reflexivity]. apply outputs_In. exists l'. repeat split; [exact Hl'|now apply (in_map fst) in Hx']. }
    assert (K : forall t, In t snk -> exists q, t = Single (ipath k q) /\ (component (fst q) /\ component (snd q)) /\ (forall p', feeds layers p' q -> In (Single (opath k p')) src)).
    { intros t H. apply S2 in H. destruct H as [a [Ha E]]. assert (Ha' := proj2 (S1 a) Ha). destruct (TO a Ha') as [p1 [O1 ->]]. assert (C : component (fst p1) /\ component (snd p1)) by (destruct p1; now apply out_comp). destruct C as [C1 C2].
      apply M_cases in E. destruct E as [k1 [[p2 [q [F [E ->]]]]|[l2 [_ [_ [E _]]]]]]; [|discriminate]. injection E as E. destruct (feeds_comp _ _ F) as [[C3 C4] C5]. apply opath_inj in E; try assumption. destruct E as [<- <-].
      exists q. split; [reflexivity|]. split; [exact C5|]. intros p' F'. apply S1. eapply rt_trans; [exact Ha|]. apply rt_step. exists (Single (ipath k q)). split; apply M_cases; exists k; left; [now exists p1, q|now exists p', q]. }
    apply (hub_create_error src snk so cns (ls_btype st) (negb k) e).
    - right. intros n Hn. destruct (TO n Hn) as [p' [_ ->]]. reflexivity.
    - intros t H. destruct (K t H) as [q [-> _]]. reflexivity.
    - exists (Single (opath k p)), (opath k p). split; [apply S1, rt_refl|now left].
    - intros n s Hn Hs. apply S1, T in Hn. destruct Hn as [l' [x' [st' [Hl' [Hx' [B ->]]]]]]. destruct Hs as [<-|[]]. destruct (struct_out k l' x' st' Hl' Hx') as [st2 [E1 [E2 E3]]]. exists st2. rewrite <- B. now split.
  Qed.
  Variable order : list (string * string).
  Hypothesis ARR : arrangement layers order.
  Lemma hub_outputs k p src snk : In p (outputs layers) -> component_of M (Single (opath k p)) src snk -> exists h, hub_create src snk so cns = LOk h.
  Proof.
    intros Hp [D1 [D2 [S1 S2]]]. destruct ARR as [PO AR].
    assert (ST : exists st, (exists l x, In l layers /\ In (x, st) (l_out l) /\ p = (l_name l, x))).
    { destruct p as [n o]. apply outputs_In in Hp. destruct Hp as [l [Hl [-> Ho]]]. apply in_map_iff in Ho. destruct Ho as [[x st] [<- He]]. now exists st, l, x. }
    destruct ST as [st [l [x [Hl [Hx Ep]]]]].
    assert (T : forall b, together M (Single (opath k p)) b -> exists l' x' st', In l' layers /\ In (x', st') (l_out l') /\ ls_btype st' = ls_btype st /\ b = Single (opath k (l_name l', x'))).
    { intros b H. apply clos_rt_rtn1 in H. induction H as [|b c E _ IH]; [exists l, x, st; now rewrite Ep|]. destruct IH as [l1 [x1 [st1 [L1 [X1 [B1 ->]]]]]].
      assert (O1 : In (l_name l1, x1) (outputs layers)) by (apply outputs_In; exists l1; repeat split; [exact L1|now apply (in_map fst) in X1]).
      destruct (linked_out k _ c O1 E) as [[n2 o2] [q [F1 [F2 ->]]]]. destruct (feeds_ends _ _ F2) as [O2 _]. apply outputs_In in O2. destruct O2 as [l2 [L2 [-> O2]]]. apply in_map_iff in O2. destruct O2 as [[x2 st2] [<- X2]]. cbn [fst] in *.
      exists l2, x2, st2. repeat split; try assumption. rewrite <- B1. exact (un_sources _ U l2 l1 x2 x1 st2 st1 q L2 L1 X2 X1 F2 F1). }
    assert (TO : forall b, In b src -> exists p', In p' (outputs layers) /\ b = Single (opath k p')).
    { intros b Hb. apply S1, T in Hb. destruct Hb as [l' [x' [st' [Hl' [Hx' [_ ->]]]]]]. exists (l_name l', x'). split; [|reflexivity]. apply outputs_In. exists l'. repeat split; [exact Hl'|now apply (in_map fst) in Hx']. }
    assert (K : forall t, In t snk -> exists q, t = Single (ipath k q) /\ (component (fst q) /\ component (snd q)) /\ (forall p', feeds layers p' q -> In (Single (opath k p')) src)).
    { intros t H. apply S2 in H. destruct H as [a [Ha E]]. assert (Ha' := proj2 (S1 a) Ha). destruct (TO a Ha') as [p1 [O1 ->]]. assert (C : component (fst p1) /\ component (snd p1)) by (destruct p1; now apply out_comp). destruct C as [C1 C2].
      apply M_cases in E. destruct E as [k1 [[p2 [q [F [E ->]]]]|[l2 [_ [_ [E _]]]]]]; [|discriminate]. injection E as E. destruct (feeds_comp _ _ F) as [[C3 C4] C5]. apply opath_inj in E; try assumption. destruct E as [<- <-].
      exists q. split; [reflexivity|]. split; [exact C5|]. intros p' F'. apply S1. eapply rt_trans; [exact Ha|]. apply rt_step. exists (Single (ipath k q)). split; apply M_cases; exists k; left; [now exists p1, q|now exists p', q]. }
    set (mem := fun p' => node_mem (Single (opath k p')) src).
    set (ord := map (fun p' => Single (opath k p')) (filter mem order)).
    assert (OI : forall p', In p' order <-> In p' (outputs layers)) by (intros p'; split; apply Permutation_in; [exact PO|now symmetry]).
    assert (FL : forall u, flat_map node_flat (map (fun p' => Single (opath k p')) u) = map (opath k) u) by (clear; induction u as [|y u IH]; [reflexivity|]; cbn [map flat_map node_flat app]; now rewrite IH).
    apply (hub_create_total src snk so cns (ls_btype st) (negb k) ord).
    - right. intros n Hn. destruct (TO n Hn) as [p' [_ ->]]. reflexivity.
    - intros t H. destruct (K t H) as [q [-> _]]. reflexivity.
    - exists (Single (opath k p)), (opath k p). split; [apply S1, rt_refl|now left].
    - intros n s Hn Hs. apply S1, T in Hn. destruct Hn as [l' [x' [st' [Hl' [Hx' [B ->]]]]]]. destruct Hs as [<-|[]]. destruct (struct_out k l' x' st' Hl' Hx') as [st2 [E1 [E2 E3]]]. exists st2. rewrite <- B. now split.
    - apply NoDup_Permutation; [exact D1| |].
      + unfold ord. assert (ND : NoDup (filter mem order)) by (apply NoDup_filter; eapply Permutation_NoDup; [symmetry; exact PO|exact outputs_NoDup]).
        assert (CO : forall p', In p' (filter mem order) -> component (fst p') /\ component (snd p')) by (intros [n o] H; apply filter_In in H; destruct H as [H _]; apply out_comp; now apply OI).
        revert ND CO. generalize (filter mem order). intros u ND CO. induction u as [|p' u IH]; [constructor|]. inversion ND; subst. cbn. constructor; [|apply IH; [assumption|intros y Hy; apply CO; now right]].
        intros H. apply in_map_iff in H. destruct H as [p2 [E Hp2]]. injection E as E. destruct (CO p' (or_introl eq_refl)), (CO p2 (or_intror Hp2)). apply opath_inj in E; try assumption. destruct E as [_ ->]. contradiction.
      + intros b. unfold ord. rewrite in_map_iff. split.
        * intros Hb. destruct (TO b Hb) as [p' [O' ->]]. exists p'. split; [reflexivity|]. apply filter_In. split; [now apply OI|]. now apply node_mem_In.
        * intros [p' [<- H]]. apply filter_In in H. destruct H as [_ H]. now apply node_mem_In.
    - intros t H. destruct (K _ H) as [q [E [Cq KF]]]. injection E as ->. destruct (AR q) as [before [blk [after [EO [A1 A2]]]]]. rewrite Forall_forall in A1, A2.
      apply (adjacent_split ord (ipath k q) (map (opath k) (filter mem before)) (map (opath k) blk) (map (opath k) (filter mem after))).
      + unfold ord. rewrite FL, EO, !filter_app, !map_app. do 2 f_equal. f_equal. clear -A1 KF. induction blk as [|p' blk IH]; [reflexivity|]. cbn [filter]. unfold mem at 1. rewrite (proj2 (node_mem_In _ _) (KF p' (A1 p' (or_introl eq_refl)))). f_equal. apply IH. intros y Hy. apply A1. now right.
      + intros s Hs. apply in_map_iff in Hs. destruct Hs as [p' [<- Hp']]. apply cns_cases. exists k. left. exists p', q. split; [now apply A1|now split].
      + intros s Hs E. rewrite <- map_app in Hs. apply in_map_iff in Hs. destruct Hs as [p' [<- Hp']].
        assert (Hp2 : In p' (before ++ after)) by (apply in_app_or in Hp'; apply in_or_app; destruct Hp' as [X|X]; apply filter_In in X; [left|right]; tauto).
        assert (Op : In p' (outputs layers)) by (apply OI; rewrite EO; apply in_app_or in Hp2; apply in_or_app; destruct Hp2; [now left|right; apply in_or_app; now right]).
        apply (feeds_cns k p' _ Op) in E. destruct E as [q' [F E]].
        destruct (feeds_comp _ _ F) as [_ [C5 C6]]. destruct Cq. apply ipath_inj in E; try assumption. destruct E as [_ ->]. exact (A2 p' Hp2 F).
  Qed.
End Exist.
