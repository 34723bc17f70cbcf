(** Lemmas for C72: an arrangement of the outputs gives a layout and a layout gives an arrangement. *)
From Coq Require Import String Ascii List Arith Bool Lia Permutation Relations.
From Verif Require Import PyBase PyFacts UtilsModel UtilsProofs HubModel HubProofs HubProps LayoutModel LayoutProofs LayoutProps LayoutExist.
Import ListNotations.
Open Scope string_scope.
Open Scope list_scope.
Open Scope nat_scope.

Lemma NoDup_flat_nodes ns : NoDup (flat_map node_flat ns) -> (forall n, In n ns -> node_flat n <> []) -> NoDup ns.
Proof.
  induction ns as [|n ns IH]; intros H F; [constructor|]. cbn in H. constructor.
  - intros Hn. assert (Fn := F n (or_introl eq_refl)). destruct (node_flat n) as [|x r] eqn:E; [congruence|]. inversion H as [|y z Hx Hr]; subst. apply Hx. apply in_or_app. right. apply in_flat_map. exists n. rewrite E. split; [exact Hn|now left].
  - apply IH; [|intros m Hm; apply F; now right]. clear -H. induction (node_flat n) as [|x r IHr]; [exact H|]. apply IHr. now inversion H.
Qed.
Lemma source_kinds layers s : In s (map fst (stub layers)) ->
  (exists k l x, In l layers /\ In x (map fst (l_params l)) /\ s = path3 (l_name l) (pc k) x) \/
  (exists k p, In p (outputs layers) /\ s = opath k p) \/
  (exists l c x, In l layers /\ In c ["inputs"; "internals"; "input_deltas"] /\ s = path3 (l_name l) c x /\ exists d, In (c, d) (cat_entries l) /\ In x (map fst d)).
Proof.
  intros H. apply stub_names in H. destruct H as [l [c [d [x [Hl [Hc [Hx ->]]]]]]]. cbn in Hc.
  destruct Hc as [[= <- <-]|[[= <- <-]|[[= <- <-]|[[= <- <-]|[[= <- <-]|[[= <- <-]|[[= <- <-]|[]]]]]]]].
  - right. right. exists l, "inputs", x. split; [exact Hl|]. split; [cbn; tauto|]. split; [reflexivity|]. eexists. split; [cbn; left; reflexivity|exact Hx].
  - right. left. exists true, (l_name l, x). split; [apply outputs_In; now exists l|reflexivity].
  - left. now exists true, l, x.
  - right. right. exists l, "internals", x. split; [exact Hl|]. split; [cbn; tauto|]. split; [reflexivity|]. exists (l_int l). split; [cbn; tauto|exact Hx].
  - right. right. exists l, "input_deltas", x. split; [exact Hl|]. split; [cbn; tauto|]. split; [reflexivity|]. eexists. split; [cbn; do 4 right; left; reflexivity|exact Hx].
  - rewrite backward_names in Hx. right. left. exists false, (l_name l, x). split; [apply outputs_In; now exists l|reflexivity].
  - rewrite backward_names in Hx. left. now exists false, l, x.
Qed.

Lemma layout_from_hubs layers fos cns hubs0 : wf_layers layers -> from_outputs layers -> get_forced_orders layers = LOk fos -> get_connections layers = LOk cns ->
  group_into_hubs (get_all_sources fos cns (map fst (stub layers))) fos cns (fun s => dget s (stub layers)) = LOk hubs0 -> exists hubs lay, create_layout layers = LOk (hubs, lay).
Proof.
  intros W OUT Hf Hc Hh. destruct (all_sources_spec layers W fos Hf cns) as [SN SI].
  unfold create_layout. rewrite Hf, Hc. cbv zeta. rewrite Hh.
  assert (FA : forallb (fun e => smem (fst e) ("parameters" :: "gradients" :: map fst (stub layers))) (layout_entries (isort hub_leb hubs0)) = true).
  { apply forallb_forall. intros [p [k sl]] He. cbn [fst]. apply smem_In. assert (E := proj1 (entry_hub hubs0 p k sl) He). destruct E as [h [Hk Hi]].
    assert (Hin : In h hubs0) by (apply lhubs_In; now apply nth_error_In in Hk). destruct (class_of_hub layers fos cns hubs0 Hh h Hin) as [src [snk [[_ [HC [n [D1 [D2 [S1 S2]]]]]] Hsrc]]].
    assert (Hp : In p (h_sources h ++ h_sinks h)) by (rewrite <- index_names; now apply (in_map fst) in Hi). apply in_app_or in Hp. destruct Hp as [Hp|Hp].
    - right. right. eapply Permutation_in in Hp; [|exact (class_sources layers cns h src snk HC)]. apply in_flat_map in Hp. destruct Hp as [a [Ha Hp]]. apply Hsrc, SI in Ha. destruct Ha as [s [Hs [_ ->]]].
      destruct (source_kinds layers s Hs) as [[k' [l [x [Hl [Hx ->]]]]]|[[k' [q [Hq ->]]]|[l [c [x [Hl [Hc' [-> [d [Hd Hx]]]]]]]]]].
      + rewrite (merge_param layers W fos Hf k' l x Hl Hx) in Hp. cbn [node_flat] in Hp. apply grp_path in Hp. destruct Hp as [y [Hy ->]]. apply stub_names.
        destruct k'; [exists l, "parameters", (l_params l), y|exists l, "gradients", (backward_entries (l_params l)), y]; (split; [exact Hl|]); (split; [cbn; tauto|]); (split; [rewrite ?backward_names; exact Hy|reflexivity]).
      + assert (C : component (fst q) /\ component (snd q)) by (destruct q; now apply (out_comp layers W)). rewrite (merge_out layers W fos Hf k' q) in Hp by apply C. destruct Hp as [<-|[]]. exact Hs.
      + destruct (entry_comp layers W l c d x Hl Hd Hx) as [C1 [C2 C3]]. rewrite (merge_other layers W fos Hf) in Hp; try assumption; [destruct Hp as [<-|[]]; exact Hs|cbn in Hc' |- *; tauto|destruct Hc' as [<-|[<-|[<-|[]]]]; discriminate..].
    - apply (proj2 (class_sinks layers cns h src snk HC D2)) in Hp. apply S2 in Hp. destruct Hp as [a [_ Ea]]. apply (M_cases layers W OUT fos Hf cns Hc) in Ea. destruct Ea as [k' [[p' [q [F [_ Ea]]]]|[l2 [_ [_ [_ Ea]]]]]]; injection Ea as ->.
      + right. right. destruct (feeds_ends layers W OUT _ _ F) as [_ [l [Hl [E Hq]]]]. unfold ipath. rewrite E. apply stub_names.
        destruct k'; [exists l, "inputs", (sorted_entries (l_in l)), (snd q)|exists l, "input_deltas", (backward_entries (sorted_entries (l_in l))), (snd q)]; (split; [exact Hl|]); (split; [cbn; tauto|]); (split; [rewrite ?backward_names; now apply sorted_fst|reflexivity]).
      + destruct k'; [now left|right; now left]. }
  rewrite FA. now do 2 eexists.
Qed.

(** If the layers have no layout, it is because the hub of some outputs has none. *)
Lemma layout_error layers : wf_layers layers -> from_outputs layers -> uniform layers ->
  (exists hubs lay, create_layout layers = LOk (hubs, lay)) \/
  create_layout layers = LErr EFailedLayout /\ exists fos cns k p src snk, get_forced_orders layers = LOk fos /\ get_connections layers = LOk cns /\ In p (outputs layers) /\
    component_of (merge_connections cns fos) (Single (opath k p)) src snk /\ hub_create src snk (fun s => dget s (stub layers)) cns = LErr EFailedLayout.
Proof.
  intros W OUT U. destruct (forced_ok layers W) as [fos Hf]. destruct (connections_ok layers W OUT) as [cns Hc].
  destruct (all_sources_spec layers W fos Hf cns) as [SN SI].
  assert (NE : forall n, In n (get_all_sources fos cns (map fst (stub layers))) -> node_flat n <> []).
  { intros n Hn. apply SI in Hn. destruct Hn as [s [_ [_ ->]]]. assert (X := merge_flat fos s). intros E. rewrite E in X. exact X. }
  destruct (group_into_hubs (get_all_sources fos cns (map fst (stub layers))) fos cns (fun s => dget s (stub layers))) as [h|e] eqn:E; [left; exact (layout_from_hubs layers fos cns h W OUT Hf Hc E)|right].
  assert (CL : create_layout layers = LErr e) by (unfold create_layout; rewrite Hf, Hc; cbv zeta; now rewrite E). rewrite CL. clear CL.
  apply C09_total in E; [|now apply NoDup_flat_nodes|].
    - destruct E as [n [src [snk [Hn [CO E]]]]]. apply SI in Hn. destruct Hn as [s [Hs [_ ->]]]. destruct (source_kinds layers s Hs) as [[k [l [x [Hl [Hx ->]]]]]|[[k [p [Hp ->]]]|[l [c [x [Hl [Hc' [-> [d [Hd Hx]]]]]]]]]].
      + exfalso. rewrite (merge_param layers W fos Hf k l x Hl Hx) in CO. assert (X : exists h, hub_create src snk (fun s => dget s (stub layers)) cns = LOk h); [|destruct X; congruence]. eapply (hub_params layers W OUT fos Hf cns Hc U); [exact Hl| |exact CO]. intros Ep. rewrite Ep in Hx. exact Hx.
      + assert (C : component (fst p) /\ component (snd p)) by (destruct p; now apply (out_comp layers W)). rewrite (merge_out layers W fos Hf k p) in CO by apply C. assert (X := hub_outputs_error layers W OUT fos Hf cns Hc U k p src snk e Hp CO E). subst e. split; [reflexivity|]. now exists fos, cns, k, p, src, snk.
      + exfalso. assert (X : exists h, hub_create src snk (fun s => dget s (stub layers)) cns = LOk h); [|destruct X; congruence]. destruct (entry_comp layers W l c d x Hl Hd Hx) as [C1 [C2 C3]]. assert (Cc : In c categories) by (cbn in Hc' |- *; tauto).
        assert (MS : merge_node fos (path3 (l_name l) c x) = Single (path3 (l_name l) c x)) by (apply (merge_other layers W fos Hf); try assumption; destruct Hc' as [<-|[<-|[<-|[]]]]; discriminate).
        rewrite MS in CO. apply (hub_lonely layers W fos cns (path3 (l_name l) c x) src snk); [|exact CO|exact Hs].
        intros t Et. apply (M_cases layers W OUT fos Hf cns Hc) in Et. destruct Et as [k [[p [q [F [Et _]]]]|[l2 [_ [_ [Et _]]]]]]; [|discriminate]. injection Et as Et. destruct (feeds_comp layers W OUT _ _ F) as [[C4 C5] _].
        apply cat_differs in Et; try assumption; [|apply oc_cat]. destruct Et as [_ [Et _]]. destruct k; destruct Hc' as [<-|[<-|[<-|[]]]]; discriminate.
    - intros a t Ha. apply (In_cns layers W cns Hc) in Ha. destruct Ha as [Ha|[s' [t' [Ha [-> ->]]]]]; now apply (fcon_source layers W fos Hf cns Hc) in Ha.
Qed.
Lemma layout_from_arrangement layers order : wf_layers layers -> from_outputs layers -> uniform layers -> arrangement layers order ->
  exists hubs lay, create_layout layers = LOk (hubs, lay).
Proof.
  intros W OUT U ARR. destruct (layout_error layers W OUT U) as [H|[_ [fos [cns [k [p [src [snk [Hf [Hc [Hp [CO E]]]]]]]]]]]]; [exact H|exfalso].
  destruct (hub_outputs layers W OUT fos Hf cns Hc U order ARR k p src snk Hp CO) as [h X]. congruence.
Qed.

(** ** The order of the hubs is an arrangement *)
Definition decode (s : string) : list (string * string) :=
  match split2 s with Some (a, b, c) => if String.eqb b "outputs" then [(a, c)] else [] | None => [] end.
Lemma hub_block so cns src snk h t : hub_ok so cns src snk h -> In t (h_sinks h) ->
  exists pre mid post, h_sources h = pre ++ mid ++ post /\ (forall s, In s mid -> In (s, t) cns) /\ forall i s, nth_error (h_sources h) i = Some s -> In (s, t) cns -> length pre <= i < length pre + length mid.
Proof.
  intros [_ [_ [_ [_ [_ [TL [TE TB]]]]]]] Ht. apply In_nth_error in Ht. destruct Ht as [j Hj]. assert (Lj : j < length (h_sinks h)) by (apply nth_error_Some; congruence).
  destruct (TB j Lj) as [a [b [c Ec]]]. assert (LC : a + b + c = length (h_sources h)).
  { apply (f_equal (@length _)) in Ec. unfold column in Ec. rewrite map_length, TL, !app_length, !repeat_length in Ec. lia. }
  assert (NB : forall i s, nth_error (h_sources h) i = Some s -> (In (s, t) cns <-> a <= i < a + b)).
  { intros i s Hi. rewrite <- (TE i j s t Hi Hj), Ec. apply nth_block. }
  exists (firstn a (h_sources h)), (firstn b (skipn a (h_sources h))), (skipn b (skipn a (h_sources h))). split; [now rewrite !firstn_skipn|].
  assert (La : length (firstn a (h_sources h)) = a) by (rewrite firstn_length; lia). assert (Lb : length (firstn b (skipn a (h_sources h))) = b) by (rewrite firstn_length, skipn_length; lia). rewrite La, Lb. split.
  - intros s Hs. apply In_nth_error in Hs. destruct Hs as [i Hi]. assert (Li : i < b) by (rewrite <- Lb; apply nth_error_Some; congruence).
    apply (NB (a + i)); [|lia]. rewrite <- (firstn_skipn a (h_sources h)), nth_error_app2 by lia. rewrite La. replace (a + i - a) with i by lia. rewrite <- (firstn_skipn b (skipn a (h_sources h))), nth_error_app1 by lia. exact Hi.
  - intros i s Hi Hs. now apply (NB i s Hi).
Qed.
Lemma arrangement_from_layout layers hubs lay : wf_layers layers -> from_outputs layers -> create_layout layers = LOk (hubs, lay) -> exists order, arrangement layers order.
Proof.
  intros W OUT HL. destruct (create_layout_parts _ _ _ HL) as [fos [cns [hubs0 [Hf [Hc [Hh _]]]]]]. destruct (all_sources_spec layers W fos Hf cns) as [SN SI].
  assert (ND : NoDup (flat_map h_sources hubs0)).
  { assert (X := names_NoDup layers W fos Hf cns Hc hubs0 Hh). revert X. clear. induction hubs0 as [|h r IH]; [constructor|]. cbn [flat_map]. rewrite index_names, <- app_assoc. intros X.
    assert (A : forall u v w : list string, NoDup (u ++ v) -> (forall x, In x w -> In x v) -> NoDup w -> NoDup (u ++ w)).
    { intros u v w. induction u as [|x u IHu]; [auto|]. cbn. intros N I Nw. inversion N; subst. constructor; [|now apply IHu]. intros Hx. apply H1. apply in_app_or in Hx. apply in_or_app. destruct Hx; [now left|right; auto]. }
    eapply A; [exact X| |apply IH].
    - intros x Hx. apply in_or_app. right. apply in_flat_map in Hx. destruct Hx as [h' [H1 H2]]. apply in_flat_map. exists h'. split; [exact H1|]. rewrite index_names. apply in_or_app. now left.
    - assert (B : forall u v : list string, NoDup (u ++ v) -> NoDup v) by (induction u; cbn; intros v N; [exact N|apply IHu; now inversion N]). apply B in X. now apply B in X. }
  assert (SRC : forall s, In s (flat_map h_sources hubs0) -> exists p, decode s = [p] /\ s = opath true p /\ In p (outputs layers) \/ decode s = []).
  { intros s Hs. apply in_flat_map in Hs. destruct Hs as [h [Hh' Hs]]. destruct (class_of_hub layers fos cns hubs0 Hh h Hh') as [src [snk [[_ [HC _]] Hsrc]]].
    eapply Permutation_in in Hs; [|exact (class_sources layers cns h src snk HC)]. apply in_flat_map in Hs. destruct Hs as [a [Ha Hs]]. apply Hsrc, SI in Ha. destruct Ha as [s1 [Hs1 [_ ->]]].
    destruct (source_kinds layers s1 Hs1) as [[k' [l [x [Hl [Hx ->]]]]]|[[k' [q [Hq ->]]]|[l [c [x [Hl [Hc' [-> [d [Hd Hx]]]]]]]]]].
    - rewrite (merge_param layers W fos Hf k' l x Hl Hx) in Hs. cbn [node_flat] in Hs. apply grp_path in Hs. destruct Hs as [y [Hy ->]]. exists ("", ""). right. unfold decode.
      rewrite split2_path3; [destruct k'; reflexivity|now apply (wf_name _ W)|apply category_component, pc_cat|now apply (param_names_comp layers W l)].
    - assert (C : component (fst q) /\ component (snd q)) by (destruct q; now apply (out_comp layers W)). rewrite (merge_out layers W fos Hf k' q) in Hs by apply C. destruct Hs as [<-|[]]. exists q. unfold decode, opath.
      rewrite split2_path3; [|apply C|apply category_component, oc_cat|apply C]. destruct k'; [left|now right]. split; [now destruct q|]. now split.
    - destruct (entry_comp layers W l c d x Hl Hd Hx) as [C1 [C2 C3]]. rewrite (merge_other layers W fos Hf) in Hs; try assumption; [|cbn in Hc' |- *; tauto|destruct Hc' as [<-|[<-|[<-|[]]]]; discriminate..]. destruct Hs as [<-|[]].
      exists ("", ""). right. unfold decode. rewrite split2_path3 by assumption. destruct Hc' as [<-|[<-|[<-|[]]]]; reflexivity. }
  assert (DEC : forall s p, In s (flat_map h_sources hubs0) -> In p (decode s) -> s = opath true p /\ In p (outputs layers)).
  { intros s p Hs Hp. destruct (SRC s Hs) as [p' [[E [-> O]]|E]]; rewrite E in Hp; [|destruct Hp]. destruct Hp as [<-|[]]. now split. }
  assert (COMP : forall p, In p (outputs layers) -> component (fst p) /\ component (snd p)) by (intros [n o]; now apply (out_comp layers W)).
  exists (flat_map decode (flat_map h_sources hubs0)). split.
  - apply NoDup_Permutation; [|exact (outputs_NoDup layers W)|].
    + revert ND DEC. generalize (flat_map h_sources hubs0). intros u ND DEC. induction u as [|s u IH]; [constructor|]. inversion ND as [|s' u' Ns Nu]; subst. cbn [flat_map].
      assert (Y : NoDup (flat_map decode u)) by (apply IH; [exact Nu|intros s' p Hs Hp; apply DEC; [now right|exact Hp]]).
      unfold decode at 1. destruct (split2 s) as [[[a b] c]|] eqn:E; [|exact Y]. destruct (String.eqb b "outputs") eqn:Eb; [|exact Y]. cbn [app]. constructor; [|exact Y].
      intros H. apply in_flat_map in H. destruct H as [s' [Hs' Hp]]. destruct (DEC s' (a, c) (or_intror Hs') Hp) as [-> _].
      destruct (DEC s (a, c) (or_introl eq_refl)) as [-> _]; [unfold decode; rewrite E, Eb; now left|]. contradiction.
    + intros p. rewrite in_flat_map. split; [intros [s [Hs Hp]]; now apply (DEC s)|]. intros Hp. exists (opath true p). destruct (COMP p Hp) as [C1 C2].
      split; [|unfold decode, opath; rewrite split2_path3; [left; now destruct p|assumption|apply category_component, oc_cat|assumption]].
      assert (HS : In (Single (opath true p)) (get_all_sources fos cns (map fst (stub layers)))).
      { apply SI. exists (opath true p). split; [|split; [|symmetry; now apply (merge_out layers W fos Hf)]].
        - destruct p as [n o]. apply outputs_In in Hp. destruct Hp as [l [Hl [-> Ho]]]. apply stub_names. exists l, "outputs", (l_out l), o. cbn. tauto.
        - intros [s Es]. apply (cns_cases layers W OUT cns Hc) in Es. destruct Es as [k [[p' [q [F [_ E]]]]|[l [x [Hl [Hx [_ E]]]]]]].
          + destruct (feeds_comp layers W OUT _ _ F) as [_ [C3 C4]]. apply cat_differs in E; try assumption; [|apply oc_cat|apply ic_cat]. destruct E as [_ [E _]]. destruct k; discriminate.
          + revert E. apply path3_not_root; try assumption; [apply category_component, oc_cat|destruct k; reflexivity]. }
      destruct (hub_of_source layers fos cns hubs0 Hh _ HS) as [h [src [snk [[Hin [HC _]] [Hn _]]]]]. apply in_flat_map. exists h. split; [exact Hin|]. eapply Permutation_in; [symmetry; exact (class_sources layers cns h src snk HC)|]. apply in_flat_map. eexists. split; [exact Hn|now left].
  - intros t. set (fed := existsb (fun l => existsb (fun c => String.eqb (c_end c) (fst t) && String.eqb (c_input c) (snd t)) (l_outgoing l)) layers).
    assert (FB : fed = true <-> exists p, feeds layers p t).
    { unfold fed. rewrite existsb_exists. split.
      - intros [l [Hl H]]. apply existsb_exists in H. destruct H as [c [Hc' H]]. apply andb_true_iff in H. destruct H as [E1 E2]. apply String.eqb_eq in E1, E2. exists (c_start c, c_output c), l, c. repeat split; try assumption. destruct t; cbn in *; congruence.
      - intros [p [l [c [Hl [Hc' [_ ->]]]]]]. exists l. split; [exact Hl|]. apply existsb_exists. exists c. cbn. now rewrite !String.eqb_refl. }
    destruct fed.
    2: { exists (flat_map decode (flat_map h_sources hubs0)), [], []. cbn [app]. rewrite !app_nil_r. split; [reflexivity|]. split; [constructor|]. apply Forall_forall. intros p _ F. assert (X : false = true) by (apply FB; now exists p). discriminate. }
    destruct (proj1 FB eq_refl) as [p0 F0]. destruct (feeds_comp layers W OUT _ _ F0) as [_ [CT1 CT2]].
    assert (FC : forall p, In p (outputs layers) -> (In (opath true p, ipath true t) cns <-> feeds layers p t)).
    { intros p Hp. rewrite (feeds_cns layers W OUT cns Hc true p _ Hp). split; [|intros F; now exists t]. intros [q [F E]]. destruct (feeds_comp layers W OUT _ _ F) as [_ [C3 C4]]. apply ipath_inj in E; try assumption. destruct E as [_ ->]. exact F. }
    assert (E0 : In (opath true p0, ipath true t) cns) by (apply FC; [now apply (feeds_ends layers W OUT p0 t)|exact F0]).
    destruct (sink_hub layers W fos Hf cns Hc hubs0 Hh _ _ E0) as [k [h [sl [Hk [Ht [_ HS]]]]]].
    assert (Hin : In h hubs0) by (apply lhubs_In; now apply nth_error_In in Hk). destruct (hub_ok_of layers fos cns hubs0 Hh h Hin) as [src [snk [OK _]]].
    destruct (hub_block _ _ _ _ _ _ OK Ht) as [pre [mid [post [EH [B1 B2]]]]]. destruct (in_split _ _ Hin) as [H1 [H2 EL]].
    assert (ES : flat_map h_sources hubs0 = (flat_map h_sources H1 ++ pre) ++ mid ++ (post ++ flat_map h_sources H2)) by (rewrite EL, flat_map_app; cbn [flat_map]; rewrite EH, <- !app_assoc; reflexivity).
    rewrite ES in *. exists (flat_map decode (flat_map h_sources H1 ++ pre)), (flat_map decode mid), (flat_map decode (post ++ flat_map h_sources H2)). split; [now rewrite !flat_map_app|]. split.
    + apply Forall_forall. intros p Hp. apply in_flat_map in Hp. destruct Hp as [s [Hs Hp]]. destruct (DEC s p) as [-> Op]; [apply in_or_app; right; apply in_or_app; now left|exact Hp|]. apply FC; [exact Op|]. now apply B1.
    + apply Forall_forall. intros p Hp F. rewrite <- flat_map_app in Hp. apply in_flat_map in Hp. destruct Hp as [s [Hs Hp]].
      assert (Hs' : In s ((flat_map h_sources H1 ++ pre) ++ mid ++ (post ++ flat_map h_sources H2))) by (apply in_app_or in Hs; apply in_or_app; destruct Hs; [now left|right; apply in_or_app; now right]).
      destruct (DEC s p Hs' Hp) as [-> Op]. assert (Es := proj2 (FC p Op) F). assert (Hh2 := HS _ Es). apply In_nth_error in Hh2. destruct Hh2 as [i Hi]. assert (Bi := B2 i _ Hi Es). rewrite EH in Hi.
      rewrite nth_error_app2 in Hi by lia. rewrite nth_error_app1 in Hi by lia. apply nth_error_In in Hi. revert ND Hs Hi. generalize (opath true p). generalize (flat_map h_sources H1 ++ pre), (post ++ flat_map h_sources H2). clear. intros u v s ND Hs Hi.
      apply in_app_or in Hs. destruct Hs as [Hs|Hs].
      * induction u as [|x u IH]; [destruct Hs|]. cbn in ND. inversion ND; subst. destruct Hs as [->|Hs]; [apply H1; apply in_or_app; right; apply in_or_app; now left|now apply IH].
      * assert (N2 : NoDup (mid ++ v)) by (induction u; [exact ND|apply IHu; now inversion ND]). clear ND. induction mid as [|x mid IH]; [destruct Hi|]. cbn in N2. inversion N2; subst. destruct Hi as [->|Hi]; [apply H1; apply in_or_app; now right|now apply IH].
Qed.
