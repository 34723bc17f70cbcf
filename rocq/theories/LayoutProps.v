(** Property theorem C12: gradients mirror parameters. *)
From Coq Require Import String List Arith Bool Lia Permutation.
From Verif Require Import PyBase PyFacts UtilsModel UtilsProofs HubModel HubProofs LayoutModel LayoutProofs.
Import ListNotations.
Open Scope string_scope.
Open Scope list_scope.
Open Scope nat_scope.

Lemma create_layout_parts layers hubs lay : create_layout layers = LOk (hubs, lay) ->
  exists fos cns hubs0,
    get_forced_orders layers = LOk fos /\ get_connections layers = LOk cns /\
    group_into_hubs (get_all_sources fos cns (map fst (stub layers))) fos cns (fun s => dget s (stub layers)) = LOk hubs0 /\
    hubs = lhubs hubs0 /\
    lay = default_slice "gradients" (default_slice "parameters" (fill (layout_entries (lhubs hubs0)) [])).
Proof.
  unfold create_layout. destruct (get_forced_orders layers) as [fos|] eqn:E1; [|discriminate].
  destruct (get_connections layers) as [cns|] eqn:E2; [|discriminate].
  destruct (group_into_hubs _ _ _ _) as [hubs0|] eqn:E3; [|discriminate].
  destruct (forallb _ _); [|discriminate]. intros [= <- <-]. exists fos, cns, hubs0. auto.
Qed.
Lemma default_other name p d v : dget p d = Some v -> dget p (default_slice name d) = Some v.
Proof.
  intros H. unfold default_slice. destruct (dmem name d) eqn:E; [assumption|].
  rewrite dget_dset_other; [assumption|]. intros ->.
  apply dget_Some_key in H. apply smem_false in E. contradiction.
Qed.
Lemma default_new name p d v : dget p (default_slice name d) = Some v ->
  dget p d = Some v \/ p = name /\ v = (0, (0, 0)) /\ dget p d = None.
Proof.
  unfold default_slice. destruct (dmem name d) eqn:E; [now left|]. intros H.
  destruct (string_dec p name) as [->|N].
  - rewrite dget_dset_same in H. injection H as <-. right. split; [reflexivity|]. split; [reflexivity|].
    apply dget_None. now apply smem_false in E.
  - rewrite dget_dset_other in H by assumption. now left.
Qed.

(** C12: 'parameters' and 'gradients' have the same slice; so have each
    parameter and its gradient; all parameters lie in the memory of
    'parameters', all gradients in the memory of 'gradients'. *)
Theorem C12_same_offsets : forall layers hubs lay,
  wf_layers layers -> create_layout layers = LOk (hubs, lay) ->
  exists kp kg sl,
    dget "parameters" lay = Some (kp, sl) /\ dget "gradients" lay = Some (kg, sl) /\
    forall l p, In l layers -> In p (map fst (l_params l)) ->
      exists slp, dget (path3 (l_name l) "parameters" p) lay = Some (kp, slp) /\
                  dget (path3 (l_name l) "gradients" p) lay = Some (kg, slp) /\
                  fst sl <= fst slp /\ snd slp <= snd sl.
Proof.
  intros layers hubs lay W H. destruct (create_layout_parts _ _ _ H) as [fos [cns [hubs0 [Hf [Hc [Hh [-> ->]]]]]]].
  set (f := fill (layout_entries (lhubs hubs0)) []).
  destruct (existsb (fun l => negb (Nat.eqb (length (l_params l)) 0)) layers) eqn:Ex.
  - apply existsb_exists in Ex. destruct Ex as [l0 [Hl0 N0]].
    destruct (l_params l0) as [|[p0 st0] ps0] eqn:Ep; [discriminate N0|].
    assert (Hp0 : In p0 (map fst (l_params l0))) by (rewrite Ep; now left).
    assert (Ip := proj2 (to_parameters layers W cns Hc _) (ex_intro _ l0 (ex_intro _ p0 (conj Hl0 (conj Hp0 eq_refl))))).
    assert (Ig := proj2 (to_gradients layers W cns Hc _) (ex_intro _ l0 (ex_intro _ p0 (conj Hl0 (conj Hp0 eq_refl))))).
    destruct (sink_hub layers W fos Hf cns Hc hubs0 Hh _ _ Ip) as [kp [hp [sl [_ [_ [Dp _]]]]]].
    destruct (layout_mirror layers W fos Hf cns Hc hubs0 Hh _ _ _ (or_intror eq_refl) Dp) as [kg Dg].
    rewrite mirror_root in Dg. fold f in Dp, Dg.
    exists kp, kg, sl.
    split; [now apply default_other, default_other|]. split; [now apply default_other, default_other|].
    intros l p Hl Hp.
    assert (Ip' := proj2 (to_parameters layers W cns Hc _) (ex_intro _ l (ex_intro _ p (conj Hl (conj Hp eq_refl))))).
    assert (Ig' := proj2 (to_gradients layers W cns Hc _) (ex_intro _ l (ex_intro _ p (conj Hl (conj Hp eq_refl))))).
    destruct (sink_cells layers W fos Hf cns Hc hubs0 Hh _ _ _ _ Ip Dp) as [Ap _].
    destruct (sink_cells layers W fos Hf cns Hc hubs0 Hh _ _ _ _ Ig Dg) as [Ag _].
    destruct (Ap _ Ip') as [slp [D1 [L1 L2]]]. destruct (Ag _ Ig') as [slg [D2 _]].
    assert (Cp : component p) by (apply (names_comp (l_params l)); [now apply W | assumption]).
    assert (Fp : fwd layers (path3 (l_name l) "parameters" p)).
    { apply (fcon_fwd layers W _ "parameters"). now constructor. }
    destruct (layout_mirror layers W fos Hf cns Hc hubs0 Hh _ _ _ (or_introl Fp) D1) as [k' D3].
    assert (E : mirror (path3 (l_name l) "parameters" p) = path3 (l_name l) "gradients" p).
    { unfold mirror. rewrite split2_path3 by (assumption || cat || now apply W). reflexivity. }
    rewrite E in D3. rewrite D2 in D3. injection D3 as _ ->.
    exists slp. split; [now apply default_other, default_other|]. split; [now apply default_other, default_other|]. auto.
  - assert (NoP : forall l p, In l layers -> In p (map fst (l_params l)) -> False).
    { intros l p Hl Hp. assert (X : existsb (fun l => negb (Nat.eqb (length (l_params l)) 0)) layers = true).
      { apply existsb_exists. exists l. split; [assumption|]. destruct (l_params l); [destruct Hp | reflexivity]. }
      congruence. }
    assert (Fin : forall r, r = "parameters" \/ r = "gradients" -> dget r f = None).
    { intros r Hr. destruct (dget r f) as [[k sl]|] eqn:D; [exfalso|reflexivity].
      apply (layout_spec layers W fos Hf cns Hc hubs0 Hh) in D. destruct D as [h [Hk Hi]].
      assert (Hh0 : In h hubs0) by (apply (lhubs_In hubs0); eapply nth_error_In; eauto).
      destruct (class_of_hub layers fos cns hubs0 Hh h Hh0) as [src [snk [[_ [Hcr [n0 C]]] Hsrc]]].
      apply (in_map fst) in Hi. rewrite index_names in Hi. simpl in Hi. apply in_app_or in Hi. destruct Hi as [Hi|Hi].
      - apply (Permutation_in _ (class_sources layers cns h src snk Hcr)) in Hi. apply in_flat_map in Hi. destruct Hi as [n [Hn Hr']].
        assert (Ha := Hsrc n Hn). apply (all_sources_spec layers W fos Hf cns) in Ha. destruct Ha as [s [Ss [_ ->]]].
        assert (Em := merge_flat_eq layers W fos Hf s r Hr').
        assert (Er : merge_node fos r = Single r).
        { destruct Hr as [->| ->]; [apply (merge_sink layers W fos Hf "parameters"); now left|].
          rewrite <- mirror_root. apply (merge_sink layers W fos Hf "parameters"). now left. }
        rewrite Er in Em. destruct (merge_node_cases fos s) as [[fo [E' _]]|[E' _]]; rewrite E' in Em; [discriminate|].
        injection Em as <-. apply stub_names in Ss. destruct Ss as [l [c [d [x [Hl [Hd [Hx Es]]]]]]].
        destruct (entry_comp layers W l c d x Hl Hd Hx) as [C1 [C2 C3]]. symmetry in Es. revert Es. apply path3_not_root; try assumption.
        destruct Hr as [->| ->]; reflexivity.
      - apply (class_sinks layers cns h src snk Hcr) in Hi; [|apply C]. apply C in Hi. destruct Hi as [a [_ I]].
        apply (M_In layers W fos Hf cns Hc) in I. destruct I as [s [u [I [_ [= <-]]]]]. destruct Hr as [->| ->].
        + apply (to_parameters layers W cns Hc) in I. destruct I as [l [p [Hl [Hp _]]]]. now apply (NoP l p).
        + apply (to_gradients layers W cns Hc) in I. destruct I as [l [p [Hl [Hp _]]]]. now apply (NoP l p). }
    assert (D1 : dget "parameters" (default_slice "parameters" f) = Some (0, (0, 0))).
    { unfold default_slice. replace (dmem "parameters" f) with false; [apply dget_dset_same|]. symmetry. apply smem_false.
      apply dget_None. apply Fin. now left. }
    assert (D2 : dget "gradients" (default_slice "parameters" f) = None).
    { unfold default_slice. destruct (dmem "parameters" f); [apply Fin; now right|]. rewrite dget_dset_other by discriminate. apply Fin. now right. }
    exists 0, 0, (0, 0). split; [now apply default_other|]. split.
    + unfold default_slice at 1. replace (dmem "gradients" (default_slice "parameters" f)) with false; [apply dget_dset_same|].
      symmetry. apply smem_false. now apply dget_None.
    + intros l p Hl Hp. destruct (NoP l p Hl Hp).
Qed.
Print Assumptions C12_same_offsets.

(** C12: 'parameters' is a concatenation: its cells are exactly those of the
    parameters of the layers, each cell belongs to only one of them, and each
    parameter has as many cells as its shape says. *)
Theorem C12_concatenation : forall layers hubs lay kp sl,
  wf_layers layers -> create_layout layers = LOk (hubs, lay) ->
  dget "parameters" lay = Some (kp, sl) ->
  (forall pos, fst sl <= pos < snd sl <->
     exists l p slp, In l layers /\ In p (map fst (l_params l)) /\
       dget (path3 (l_name l) "parameters" p) lay = Some (kp, slp) /\ fst slp <= pos < snd slp) /\
  (forall l p slp l' p' slp' pos,
     In l layers -> In p (map fst (l_params l)) -> In l' layers -> In p' (map fst (l_params l')) ->
     dget (path3 (l_name l) "parameters" p) lay = Some (kp, slp) ->
     dget (path3 (l_name l') "parameters" p') lay = Some (kp, slp') ->
     fst slp <= pos < snd slp -> fst slp' <= pos < snd slp' -> l = l' /\ p = p') /\
  (forall l p st, In l layers -> In (p, st) (l_params l) ->
     exists start, dget (path3 (l_name l) "parameters" p) lay = Some (kp, (start, start + fold_right Nat.mul 1 (ls_feat st)))).
Proof.
  intros layers hubs lay kp sl W H Dp. destruct (create_layout_parts _ _ _ H) as [fos [cns [hubs0 [Hf [Hc [Hh [-> ->]]]]]]].
  set (f := fill (layout_entries (lhubs hubs0)) []) in *.
  set (lay := default_slice "gradients" (default_slice "parameters" f)) in *.
  assert (Sub : forall p v, dget p f = Some v -> dget p lay = Some v) by (intros; now apply default_other, default_other).
  assert (Par : forall l p, In l layers -> In p (map fst (l_params l)) -> In (path3 (l_name l) "parameters" p, "parameters") cns).
  { intros l p Hl Hp. apply (to_parameters layers W cns Hc). eauto. }
  (* the entry of a parameter in f is its entry in lay *)
  assert (Back : forall l p v, In l layers -> In p (map fst (l_params l)) ->
     dget (path3 (l_name l) "parameters" p) lay = Some v -> dget (path3 (l_name l) "parameters" p) f = Some v).
  { intros l p v Hl Hp D. destruct (sink_hub layers W fos Hf cns Hc hubs0 Hh _ _ (Par l p Hl Hp)) as [k [h [sl' [Hk [_ [_ Hs]]]]]].
    destruct (source_entry layers W fos Hf cns Hc hubs0 Hh k h _ Hk (Hs _ (Par l p Hl Hp))) as [i [st [_ [_ [_ E]]]]].
    fold f in E. rewrite (Sub _ _ E) in D. now rewrite E. }
  assert (Root : forall l p, In l layers -> In p (map fst (l_params l)) -> dget "parameters" f = Some (kp, sl)).
  { intros l p Hl Hp. destruct (sink_hub layers W fos Hf cns Hc hubs0 Hh _ _ (Par l p Hl Hp)) as [k [h [sl' [_ [_ [D _]]]]]].
    fold f in D. rewrite (Sub _ _ D) in Dp. now rewrite D. }
  split; [|split].
  - intros pos. split.
    + intros P. destruct (dget "parameters" f) as [[k s]|] eqn:D.
      * rewrite (Sub _ _ D) in Dp. injection Dp as -> ->.
        assert (E : exists s0, In (s0, "parameters") cns).
        { apply (layout_spec layers W fos Hf cns Hc hubs0 Hh) in D. destruct D as [h [Hk Hi]].
          assert (Hh0 : In h hubs0) by (apply (lhubs_In hubs0); eapply nth_error_In; eauto).
          destruct (class_of_hub layers fos cns hubs0 Hh h Hh0) as [src [snk [[_ [Hcr [n0 C]]] Hsrc]]].
          apply (in_map fst) in Hi. rewrite index_names in Hi. simpl in Hi. apply in_app_or in Hi. destruct Hi as [Hi|Hi].
          - exfalso. apply (Permutation_in _ (class_sources layers cns h src snk Hcr)) in Hi. apply in_flat_map in Hi. destruct Hi as [n [Hn Hr']].
            assert (Ha := Hsrc n Hn). apply (all_sources_spec layers W fos Hf cns) in Ha. destruct Ha as [s1 [Ss [_ ->]]].
            assert (Em := merge_flat_eq layers W fos Hf s1 _ Hr').
            destruct (merge_sink layers W fos Hf "parameters") as [Er _]; [now left|].
            rewrite Er in Em. destruct (merge_node_cases fos s1) as [[fo [E' _]]|[E' _]]; rewrite E' in Em; [discriminate|].
            injection Em as <-. apply stub_names in Ss. destruct Ss as [l [c [d [x [Hl [Hd [Hx Es]]]]]]].
            destruct (entry_comp layers W l c d x Hl Hd Hx) as [C1 [C2 C3]]. symmetry in Es. revert Es. now apply path3_not_root.
          - apply (class_sinks layers cns h src snk Hcr) in Hi; [|apply C]. apply C in Hi. destruct Hi as [a [_ I]].
            apply (M_In layers W fos Hf cns Hc) in I. destruct I as [s1 [u [I [_ [= <-]]]]]. eauto. }
        destruct E as [s0 I0].
        destruct (sink_cells layers W fos Hf cns Hc hubs0 Hh _ _ _ _ I0 D) as [_ A]. apply A in P.
        destruct P as [s1 [sls [I1 [D1 P1]]]]. apply (to_parameters layers W cns Hc) in I1. destruct I1 as [l [p [Hl [Hp ->]]]].
        exists l, p, sls. auto.
      * exfalso. unfold lay in Dp. apply default_new in Dp. destruct Dp as [Dp|[N _]]; [|discriminate].
        apply default_new in Dp. destruct Dp as [Dp|[_ [[= -> ->] _]]]; [congruence|]. simpl in P. lia.
    + intros [l [p [slp [Hl [Hp [D P]]]]]].
      destruct (sink_cells layers W fos Hf cns Hc hubs0 Hh _ _ _ _ (Par l p Hl Hp) (Root l p Hl Hp)) as [_ A]. apply A.
      exists (path3 (l_name l) "parameters" p), slp. auto.
  - intros l p slp l' p' slp' pos Hl Hp Hl' Hp' D D' P P'.
    destruct (sink_hub layers W fos Hf cns Hc hubs0 Hh _ _ (Par l p Hl Hp)) as [k [h [sl' [Hk [_ [Dk Hs]]]]]].
    fold f in Dk. rewrite (Root l p Hl Hp) in Dk. injection Dk as <- _.
    assert (E := sources_disjoint layers W fos Hf cns Hc hubs0 Hh kp h _ _ slp slp' pos Hk
      (Hs _ (Par l p Hl Hp)) (Hs _ (Par l' p' Hl' Hp')) (Back l p _ Hl Hp D) (Back l' p' _ Hl' Hp' D') P P').
    assert (Cp : component p) by (apply (names_comp (l_params l)); [now apply W | assumption]).
    assert (Cp' : component p') by (apply (names_comp (l_params l')); [now apply W | assumption]).
    apply path3_inj in E; try assumption; try cat; try (now apply W). destruct E as [E1 [_ E2]].
    split; [|assumption]. now apply (layer_unique layers W).
  - intros l p st Hl Hp. assert (Hp' := in_map fst _ _ Hp). simpl in Hp'.
    destruct (sink_hub layers W fos Hf cns Hc hubs0 Hh _ _ (Par l p Hl Hp')) as [k [h [sl' [Hk [_ [Dk Hs]]]]]].
    fold f in Dk. rewrite (Root l p Hl Hp') in Dk. injection Dk as <- _.
    destruct (source_entry layers W fos Hf cns Hc hubs0 Hh kp h _ Hk (Hs _ (Par l p Hl Hp'))) as [i [st' [_ [Hst [Ho E]]]]].
    exists (offset (h_sizes h) i). rewrite (Sub _ _ E). rewrite Ho.
    assert (Est : dget (path3 (l_name l) "parameters" p) (stub layers) = Some st).
    { apply In_dget; [now apply stub_NoDup|]. apply stub_In. exists l, "parameters", (l_params l), p. simpl. tauto. }
    rewrite Est in Hst. injection Hst as <-. reflexivity.
Qed.
Print Assumptions C12_concatenation.

(** C12: likewise for inputs and outputs: the deltas have the same slices, and
    every array has its memory. *)
Theorem C12_deltas : forall layers hubs lay,
  wf_layers layers -> create_layout layers = LOk (hubs, lay) ->
  forall l x, In l layers ->
    (In x (map fst (l_in l)) -> exists k k' sl,
       dget (path3 (l_name l) "inputs" x) lay = Some (k, sl) /\ dget (path3 (l_name l) "input_deltas" x) lay = Some (k', sl)) /\
    (In x (map fst (l_out l)) -> exists k k' sl,
       dget (path3 (l_name l) "outputs" x) lay = Some (k, sl) /\ dget (path3 (l_name l) "output_deltas" x) lay = Some (k', sl)) /\
    (In x (map fst (l_int l)) -> exists k sl, dget (path3 (l_name l) "internals" x) lay = Some (k, sl)).
Proof.
  intros layers hubs lay W H l x Hl. destruct (create_layout_parts _ _ _ H) as [fos [cns [hubs0 [Hf [Hc [Hh [-> ->]]]]]]].
  set (f := fill (layout_entries (lhubs hubs0)) []).
  assert (Sub : forall p v, dget p f = Some v -> dget p (default_slice "gradients" (default_slice "parameters" f)) = Some v) by (intros; now apply default_other, default_other).
  assert (Cl : component (l_name l)) by now apply W.
  split; [|split].
  - intros Hx. assert (Cx : component x) by (apply (names_comp (l_in l)); [now apply W | assumption]).
    assert (F : fwd layers (path3 (l_name l) "inputs" x)) by (apply fwd_in; assumption).
    destruct (layout_total layers W fos Hf cns Hc hubs0 Hh _ (proj1 (fwd_stub layers W cns Hc _ F))) as [k [sl D]].
    destruct (layout_mirror layers W fos Hf cns Hc hubs0 Hh _ _ _ (or_introl F) D) as [k' D'].
    assert (E : mirror (path3 (l_name l) "inputs" x) = path3 (l_name l) "input_deltas" x).
    { unfold mirror. rewrite split2_path3 by (assumption || cat). reflexivity. }
    rewrite E in D'. exists k, k', sl. auto.
  - intros Hx. assert (Cx : component x) by (apply (names_comp (l_out l)); [now apply W | assumption]).
    assert (F : fwd layers (path3 (l_name l) "outputs" x)) by (apply fwd_out; assumption).
    destruct (layout_total layers W fos Hf cns Hc hubs0 Hh _ (proj1 (fwd_stub layers W cns Hc _ F))) as [k [sl D]].
    destruct (layout_mirror layers W fos Hf cns Hc hubs0 Hh _ _ _ (or_introl F) D) as [k' D'].
    assert (E : mirror (path3 (l_name l) "outputs" x) = path3 (l_name l) "output_deltas" x).
    { unfold mirror. rewrite split2_path3 by (assumption || cat). reflexivity. }
    rewrite E in D'. exists k, k', sl. auto.
  - intros Hx. destruct (layout_total layers W fos Hf cns Hc hubs0 Hh (path3 (l_name l) "internals" x)) as [k [sl D]].
    + apply stub_names. exists l, "internals", (l_int l), x. split; [assumption|]. split; [simpl; tauto | auto].
    + exists k, sl. auto.
Qed.
Print Assumptions C12_deltas.

(** A network of five layers with a recurrent connection, a shared weight
    matrix ('..parameters.W') and an internal used as output. *)
Definition st2 (n : nat) := mkStruct 2 [n] 0 false.
Definition st1 (n : nat) := mkStruct 2 [n] 1 false.
Definition st0 (sh : list nat) := mkStruct 0 sh 0 false.
Definition ex_layers : list layer :=
  [ mkLayer "Input" [] [("default", st2 4)] [] []
      [mkConn "Input" "default" "B" "default"; mkConn "Input" "default" "A" "default"];
    mkLayer "B" [("default", st2 4)] [("default", st2 3)] [("W", st0 [3; 4]); ("b", st0 [3])] []
      [mkConn "B" "default" "C" "default"];
    mkLayer "A" [("default", st2 4)] [("default", st1 2)] [("W", st0 [2; 4]); ("b", st0 [2])] [("H", st1 2); ("dH", mkStruct 2 [2] 1 true)]
      [mkConn "A" "default" "C" "default"; mkConn "A" "..internals.H" "D" "default"; mkConn "A" "..parameters.W" "D" "w"];
    mkLayer "C" [("default", st2 5)] [("default", st2 5)] [] [] [];
    mkLayer "D" [("default", st2 2); ("w", st0 [2; 4])] [("default", st2 1)] [] [] [] ].

Example C12_example_layout :
  exists hubs lay, create_layout ex_layers = LOk (hubs, lay) /\
    map (fun p => dget p lay)
      ["parameters"; "A.parameters.W"; "A.parameters.b"; "B.parameters.W"; "B.parameters.b"; "D.inputs.w"]
    = map Some [(0, (0, 25)); (0, (0, 8)); (0, (8, 10)); (0, (10, 22)); (0, (22, 25)); (0, (0, 8))] /\
    map (fun p => dget p lay)
      ["gradients"; "A.gradients.W"; "A.gradients.b"; "B.gradients.W"; "B.gradients.b"; "D.input_deltas.w"]
    = map Some [(6, (0, 25)); (6, (0, 8)); (6, (8, 10)); (6, (10, 22)); (6, (22, 25)); (6, (0, 8))].
Proof. eexists. eexists. split; [vm_compute; reflexivity|]. split; vm_compute; reflexivity. Qed.

Example C12_example_wf : wf_layers ex_layers.
Proof.
  Ltac cmp := apply dec_component; reflexivity.
  assert (Inv : forall x cat y, out_ref x (cat, y) ->
     x = y /\ cat = "outputs" \/ x = dotdot_path "internals" y /\ cat = "internals" \/ x = dotdot_path "parameters" y /\ cat = "parameters").
  { intros x cat y H. inversion H; subst; auto. }
  assert (Inj : forall x y, dotdot_path "internals" x = dotdot_path "internals" y -> x = y) by (intros x y [= H]; exact H).
  split.
  - repeat constructor; simpl; intuition discriminate.
  - intros l Hl. simpl in Hl. intuition subst; cmp.
  - intros l Hl. simpl in Hl. intuition subst; split; simpl; repeat constructor; simpl; try cmp; intuition discriminate.
  - intros l Hl. simpl in Hl. intuition subst; split; simpl; repeat constructor; simpl; try cmp; intuition discriminate.
  - intros l Hl. simpl in Hl. intuition subst; split; simpl; repeat constructor; simpl; try cmp; intuition discriminate.
  - intros l Hl. simpl in Hl. intuition subst; split; simpl; repeat constructor; simpl; try cmp; intuition discriminate.
  - assert (D : forall x, component x -> out_ref x ("outputs", x)) by (intros; now constructor).
    assert (Out : forall l c cat x, out_ref (c_output c) (cat, x) -> In x (map fst (category_of l cat)) ->
      exists cat x, out_ref (c_output c) (cat, x) /\ In x (map fst (category_of l cat))) by (intros; eauto).
    assert (In' : forall c l', In l' ex_layers -> c_end c = l_name l' -> In (c_input c) (map fst (l_in l')) ->
      exists l', In l' ex_layers /\ c_end c = l_name l' /\ In (c_input c) (map fst (l_in l'))) by (intros; eauto).
    Ltac dflt D Out := apply (Out _ _ "outputs" "default"); [apply D; cmp | simpl; tauto].
    Ltac stop In' n := apply (In' _ (nth n ex_layers (mkLayer "" [] [] [] [] []))); simpl; tauto.
    intros l c [<-|[<-|[<-|[<-|[<-|[]]]]]] Hc; simpl in Hc.
    + destruct Hc as [<-|[<-|[]]]; (split; [reflexivity|]); (split; [dflt D Out|]); [stop In' 1 | stop In' 2].
    + destruct Hc as [<-|[]]; (split; [reflexivity|]); (split; [dflt D Out|]); stop In' 3.
    + destruct Hc as [<-|[<-|[<-|[]]]]; (split; [reflexivity|]).
      * split; [dflt D Out | stop In' 3].
      * split; [|stop In' 4]. apply (Out _ _ "internals" "H"); [apply (out_internal "H"); cmp | simpl; tauto].
      * split; [|stop In' 4]. apply (Out _ _ "parameters" "W"); [apply (out_parameter "W"); cmp | simpl; tauto].
    + destruct Hc.
    + destruct Hc.
  - intros l c x st [<-|[<-|[<-|[<-|[<-|[]]]]]] Hc Ho Hx; simpl in Hx; try contradiction.
    assert (Ex : x = "H").
    { simpl in Hc. destruct Hc as [<-|[<-|[<-|[]]]]; apply Inv in Ho; simpl in Ho;
        destruct Ho as [[_ E]|[[E _]|[_ E]]]; try discriminate E. symmetry. now apply Inj. }
    subst x. destruct Hx as [[= <-]|[[=]|[]]]. split; [cmp|]. split.
    + intros st' [[=]|[[= <-]|[]]]. split; reflexivity.
    + intros c' Hc' Ho'. simpl in Hc'. destruct Hc' as [<-|[<-|[<-|[]]]]; apply Inv in Ho'; simpl in Ho';
        destruct Ho' as [[_ E]|[[E _]|[_ E]]]; discriminate E.
Qed.
