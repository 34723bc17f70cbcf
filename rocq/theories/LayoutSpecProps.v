(** C72: the networks of spec lines have a layout. *)
From Coq Require Import String Ascii List ZArith NArith QArith Bool Lia Arith Permutation.
From Verif Require Import PyBase PyFacts UtilsModel UtilsProofs NamesModel NamesProofs ArchModel ShapesModel SetupModel SetupProofs InstanceProofs InstanceProps HubModel LayoutModel LayoutProofs NetLayoutProofs NetLayoutProps NetMemoryModel NetMemoryProofs ModNetProps SpecModel SpecProofs SpecChain SpecNet SpecParse SpecProps LayoutExist LayoutNet LayoutExistProps.
Import ListNotations.
Open Scope string_scope.
Open Scope list_scope.
Open Scope nat_scope.

Lemma starts_from_names a layers : named a -> instantiate a = SOk layers -> (forall l c, In l layers -> In c (li_incoming l) -> component (c_out c)) -> starts_at_outputs layers.
Proof.
  intros HN HI H l c Hl Hc. destruct (ne_conn a layers HN HI l c Hl Hc) as [l' [Hl' [E1 [Hc' [_ E2]]]]]. assert (C := H l' c Hl' Hc').
  destruct (con_source a layers HN HI l' c Hl' Hc') as [l2 [cat [x [s [Hl2 [E3 [_ [_ [_ [_ [O _]]]]]]]]]]].
  assert (l2 = l) by (apply (ne_unique a layers HN HI); congruence). subst l2. destruct O as [y b Hy|y b Hy|y b Hy].
  - now apply (in_map fst) in Hy.
  - exfalso. now apply (component_no_dot _ ("." ++ "internals." ++ y) C).
  - exfalso. now apply (component_no_dot _ ("." ++ "parameters." ++ y) C).
Qed.
Lemma few_perm l n cs : Permutation (li_incoming l) cs -> NoDup (map c_in cs) -> length (input_from l n) <= 1.
Proof.
  intros P ND. unfold input_from, conns. rewrite map_length. assert (Q : Permutation (filter (fun c => String.eqb (c_in c) n) (li_incoming l)) (filter (fun c => String.eqb (c_in c) n) cs)).
  { clear ND. induction P as [|x u v P IH|x y u|u v w P1 IH1 P2 IH2]; cbn [filter].
    - constructor.
    - destruct (String.eqb (c_in x) n); [now constructor|exact IH].
    - destruct (String.eqb (c_in x) n), (String.eqb (c_in y) n); repeat constructor; apply Permutation_refl.
    - now transitivity (filter (fun c => String.eqb (c_in c) n) v). }
  rewrite (Permutation_length Q). clear P Q. induction cs as [|c r IH]; [cbn; lia|]. cbn [map] in ND. inversion_clear ND as [|? ? N1 N2]. cbn [filter]. destruct (String.eqb_spec (c_in c) n) as [E|E]; [|now apply IH].
  cbn [length]. replace (filter (fun c => String.eqb (c_in c) n) r) with (@nil connection); [cbn; lia|]. symmetry. clear -N1 E. induction r as [|d r IH]; [reflexivity|]. cbn [filter]. destruct (String.eqb_spec (c_in d) n) as [E2|E2].
  - exfalso. apply N1. left. congruence.
  - apply IH. intros H. apply N1. now right.
Qed.

(** With the hypotheses of C71_network, the network has a memory layout as well, so it is created ([created]: the hypotheses of C66 to C70 together). *)
Theorem C72_spec_lines : forall task ty m t in_shape features targets_name mask use_conv space text its items order,
  task_of task ty m t -> (0 < m)%Z -> in_shape <> [] -> nn in_shape ->
  component targets_name /\ targets_name <> "default" -> (forall k, mask = Some k -> component k /\ k <> "default" /\ k <> targets_name) ->
  all_of is_space space -> writes text its -> Forall2 means its items -> run_flows items in_shape features ->
  Permutation order (seq 0 (length items + match mask with Some _ => 5 | None => 4 end)) ->
  exists p ar layers hubs lay,
    spec_program task in_shape [m] (string_of_list_ascii (space ++ text)) "default" targets_name mask use_conv = SOk p /\
    architecture_in p order = Some ar /\ created ar layers hubs lay.
Proof.
  intros task ty m t in_shape features targets_name mask use_conv space text its items order H1 H2 H3 H4 H5 H6 H7 H8 H9 H10 H11.
  destruct (C71_network task ty m t in_shape features targets_name mask use_conv space text its items order H1 H2 H3 H4 H5 H6 H7 H8 H9 H10 H11) as [p [ar [layers [input [ls [proj [out [rest [E1 [E2 [E3 [D [N [Z [SU F]]]]]]]]]]]]]]].
  assert (LL : length ls = length items). { assert (X := ds_kwargs _ _ _ _ _ _ _ _ _ _ _ _ _ _ _ D). clear -X. induction X; cbn; congruence. }
  assert (IN : forall l, In l layers -> li_in l = [] \/ exists cs, Permutation (li_incoming l) cs /\ NoDup (map c_in cs) /\ Forall (fun c => component (c_out c)) cs).
  { assert (Cd : component "default") by (apply component_b_ok; reflexivity). assert (Cl : component "loss") by (apply component_b_ok; reflexivity).
    intros l Hl. apply In_nth_error in Hl. destruct Hl as [i Hi]. destruct i as [|i].
    - left. rewrite (ds_layers _ _ _ _ _ _ _ _ _ _ _ _ _ _ _ D) in Hi. injection Hi as <-. apply (ds_input _ _ _ _ _ _ _ _ _ _ _ _ _ _ _ D).
    - right. destruct (le_lt_dec i (length items)) as [L|L].
      + destruct (nth_error layers i) as [la|] eqn:Ea; [|apply nth_error_None in Ea; assert (X : S i < length layers) by (apply nth_error_Some; congruence); lia].
        rewrite (ds_flow _ _ _ _ _ _ _ _ _ _ _ _ _ _ _ D i la l L Ea Hi). eexists. split; [apply Permutation_refl|]. split; [cbn; constructor; [intros []|constructor]|]. constructor; [cbn [c_out]; assumption|constructor].
      + rewrite (ds_layers _ _ _ _ _ _ _ _ _ _ _ _ _ _ _ D) in Hi. replace (S i) with (length ls + S (i - length ls)) in Hi by lia. rewrite (nth_back input ls _ (length ls) _ eq_refl) in Hi.
        destruct (i - length ls) as [|[|j]] eqn:Ej; [lia| |].
        * cbn [nth_error app] in Hi. injection Hi as <-. destruct (ds_output _ _ _ _ _ _ _ _ _ _ _ _ _ _ _ D) as [_ [_ [_ P]]]. eexists. split; [exact P|]. split; [cbn; repeat constructor; cbn; intuition discriminate|]. constructor; [exact Cd|constructor; [apply H5|constructor]].
        * cbn [nth_error app] in Hi. assert (R := ds_rest _ _ _ _ _ _ _ _ _ _ _ _ _ _ _ D). destruct mask as [k|].
          -- destruct R as [ml [l0 [-> [_ [P [_ E]]]]]]. destruct j as [|[|j]]; cbn [nth_error] in Hi; [| |destruct j; discriminate].
             ++ injection Hi as <-. eexists. split; [exact P|]. split; [cbn; repeat constructor; cbn; intuition discriminate|]. constructor; [exact Cl|constructor; [apply (H6 k eq_refl)|constructor]].
             ++ injection Hi as <-. rewrite E. eexists. split; [apply Permutation_refl|]. split; [cbn; constructor; [intros []|constructor]|]. constructor; [cbn [c_out]; assumption|constructor].
          -- destruct R as [l0 [-> [_ E]]]. destruct j as [|j]; cbn [nth_error] in Hi; [|destruct j; discriminate]. injection Hi as <-. rewrite E. eexists. split; [apply Permutation_refl|]. split; [cbn; constructor; [intros []|constructor]|]. constructor; [cbn [c_out]; assumption|constructor]. }
  assert (ST : starts_at_outputs layers).
  { apply (starts_from_names ar layers N E3). intros l c Hl Hc. destruct (IN l Hl) as [E|[cs [P [_ FC]]]].
    - destruct (ne_conn_in ar layers N E3 l c Hl Hc) as [_ [_ [_ [_ [_ X]]]]]. rewrite E in X. destruct X.
    - rewrite Forall_forall in FC. apply FC. eapply Permutation_in; [exact P|exact Hc]. }
  destruct (C72_single_sources ar layers N E3 ST) as [hubs [lay HL]].
  { intros l n Hl Hn. destruct (IN l Hl) as [E|[cs [P [ND _]]]]; [rewrite E in Hn; destruct Hn|]. exact (few_perm l n cs P ND). }
  exists p, ar, layers, hubs, lay. split; [exact E1|]. split; [exact E2|]. now constructor.
Qed.
Print Assumptions C72_spec_lines.

(** The line of C71's example, with a mask, for one of the orders in which the layers may be iterated. *)
Example C72_spec_lines_ex : exists p ar layers hubs lay,
  spec_program "classification" [4; 4; 1]%Z [10%Z] "Ct8:3 p1 P2s2D.2 F20" "default" "targets" (Some "mask") None = SOk p /\
  architecture_in p [8; 3; 5; 0; 1; 7; 6; 4; 2] = Some ar /\ created ar layers hubs lay.
Proof.
  apply (C72_spec_lines "classification" "SoftmaxCE" 10 [1%Z] [4; 4; 1]%Z [20%Z] "targets" (Some "mask") None [] line_text (map (fun e => snd (fst e)) line) (map snd line)); try reflexivity.
  - now constructor.
  - discriminate.
  - repeat constructor; lia.
  - split; [now apply component_b_ok|discriminate].
  - intros k [= <-]. split; [now apply component_b_ok|split; discriminate].
  - exact line_writes.
  - exact line_means.
  - exact line_flows.
  - apply NoDup_Permutation; [repeat constructor; cbn; intuition lia|apply seq_NoDup|]. intros x. cbn. intuition lia.
Qed.
