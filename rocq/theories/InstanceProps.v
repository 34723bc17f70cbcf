(** C62: the structures of the layers of a network follow from its connections. *)
From Coq Require Import String Ascii List ZArith QArith Bool Lia Permutation.
From Verif Require Import PyBase PyFacts UtilsModel UtilsProofs NamesModel ArchModel ArchProofs ShapesModel ShapesProofs SetupModel PassShapesModel SetupProofs PassShapesProofs SetupProps InstanceProofs.
From Verif Require LayoutProofs.
Import ListNotations.
Open Scope string_scope.
Open Scope list_scope.
Open Scope nat_scope.

(** An architecture is a dictionary; the names of the outputs of Input layers,
    which the user chooses, are not empty and contain neither dots nor '@'. *)
Record named (a : karch) : Prop := {
  nm_keys : NoDup (map fst a);
  nm_inputs : forall n r kw, In (n, (r, kw)) a -> r_type r = TypeString "Input" -> names_good (input_names kw)
}.

Lemma class_input ty : get_layer_class ty = SOk CInput -> ty = "Input".
Proof.
  unfold get_layer_class. destruct (dget ty class_table) as [c|] eqn:E; [|discriminate]. intros [= ->].
  apply dget_In in E. unfold class_table in E. cbn [In] in E.
  repeat (destruct E as [E|E]; [congruence|]). contradiction.
Qed.

Lemma expected_names_good c : names_good (map fst (expected_inputs c)).
Proof. destruct c; apply names_b_ok; vm_compute; reflexivity. Qed.

Lemma smap_fst {B} (f : string -> sres B) (g : string -> B -> string * B) l : forall ys,
  (forall n b, g n b = (n, b)) -> smap (fun n => sbind (f n) (fun b => SOk (g n b))) l = SOk ys -> map fst ys = l.
Proof.
  intros ys Hg. revert ys. induction l as [|x l IH]; intros ys; cbn [smap]; [intros [= <-]; reflexivity|].
  destruct (f x) as [b|]; [|discriminate]. cbn [sbind]. destruct (smap _ l) as [zs|]; [|discriminate]. cbn [sbind].
  intros [= <-]. cbn. rewrite Hg. cbn. f_equal. now apply IH.
Qed.

(** The dictionaries of a made layer. *)
Record sound_layer (l : linst) : Prop := {
  sl_in : names_good (map fst (li_in l));
  sl_out : names_good (map fst (li_out l));
  sl_params : names_good (map fst (li_params l));
  sl_int : names_good (map fst (li_int l));
  sl_vin : all_valid (li_in l);
  sl_vout : all_valid (li_out l);
  sl_vparams : all_valid (li_params l);
  sl_vint : all_valid (li_int l);
  sl_deltas : deltas_alike (li_int l)
}.

Lemma input_structures_keys pre inc ins : input_structures pre inc = SOk ins ->
  map fst ins = nodup string_dec (map c_in inc).
Proof. unfold input_structures. apply (smap_fst (input_structure pre inc) (fun n b => (n, b))). reflexivity. Qed.
Lemma input_structures_In pre inc ins n b : input_structures pre inc = SOk ins -> In (n, b) ins ->
  In n (map c_in inc) /\ input_structure pre inc n = SOk b.
Proof.
  intros H Hb. destruct (smap_In _ _ _ _ H Hb) as [n' [Hn E]].
  destruct (input_structure pre inc n') as [b'|] eqn:E2; [|discriminate]. cbn [sbind] in E.
  injection E as <- <-. split; [now apply nodup_In in Hn|exact E2].
Qed.

Lemma ins_names ins c : NoDup (map fst ins) ->
  let ins' := isort (fun a b => String.leb (fst a) (fst b)) ins in
  validate_in_shapes c ins' = true -> names_good (map fst ins').
Proof.
  intros H ins' HV. split.
  - eapply Permutation_NoDup; [apply Permutation_map, Permutation_sym, isort_perm|]. exact H.
  - unfold validate_in_shapes in HV. apply andb_prop in HV. destruct HV as [HV _]. apply andb_prop in HV. destruct HV as [HV _].
    rewrite forallb_forall in HV. apply Forall_forall. intros x Hx. apply in_map_iff in Hx. destruct Hx as [e [<- He]].
    apply HV in He. apply smem_In in He. destruct (expected_names_good c) as [_ F]. rewrite Forall_forall in F. now apply F.
Qed.
Lemma ins_valid pre inc ins : input_structures pre inc = SOk ins -> NoDup (map fst ins) /\ all_valid ins.
Proof.
  intros H. split; [rewrite (input_structures_keys _ _ _ H); apply NoDup_nodup|].
  intros n b Hb. destruct (input_structures_In _ _ _ _ _ H Hb) as [_ E].
  unfold input_structure in E. destruct (smap _ _); [|discriminate]. cbn [sbind] in E.
  now destruct (combine_input_like _ _ E).
Qed.
Lemma isort_valid f ins : all_valid ins -> all_valid (isort f ins).
Proof. intros H n b Hb. apply isort_In in Hb. now apply (H n). Qed.

Lemma made_sound a cns layers l : named a -> made_from a cns layers l -> sound_layer l.
Proof.
  intros HN [pre [r [kw [ty [c [ins [Hpre [Hd [Hty [Hc [Hi Hm]]]]]]]]]]].
  apply make_layer_inv in Hm. destruct Hm as [HV [sp [HS ->]]].
  destruct (ins_valid _ _ _ Hi) as [F0 F2]. assert (F1 := ins_names _ _ F0 HV). apply (isort_valid (fun a b => String.leb (fst a) (fst b))) in F2.
  assert (S : sound_spec sp).
  { apply (setup_sound (li_name l) kw _ F2 F1 c sp); [|exact HS].
    intros ->. apply class_input in Hc. subst ty. apply dget_In in Hd.
    apply (nm_inputs _ HN _ _ _ Hd Hty). }
  destruct S. constructor; assumption.
Qed.

Definition valid_layer (l : linst) : Prop :=
  all_valid (li_in l) /\ all_valid (li_out l) /\ all_valid (li_params l) /\ all_valid (li_int l).
Lemma make_layer_valid c name ins inc outg kw l : make_layer c name ins inc outg kw = SOk l ->
  NoDup (map fst ins) -> all_valid ins -> valid_layer l.
Proof.
  intros Hm F0 F2.
  apply make_layer_inv in Hm. destruct Hm as [HV [sp [HS ->]]].
  assert (F1 := ins_names _ _ F0 HV). apply (isort_valid (fun a b => String.leb (fst a) (fst b))) in F2.
  unfold valid_layer. cbn [li_in li_out li_params li_int]. split; [exact F2|].
  assert (D : c = CInput \/ c <> CInput) by (destruct c; (now left) || (right; discriminate)).
  destruct D as [->|D].
  - cbn [setup] in HS. unfold setup_input in HS. destruct (dget "out_shapes" kw) as [v|]; [|discriminate].
    destruct (isort _ ins); [|discriminate]. cbn [guard sbind] in HS.
    destruct v as [| | | |d|]; try discriminate.
    destruct (build _) as [outs|] eqn:E; [|discriminate]. cbn [sbind] in HS. injection HS as <-.
    cbn [sp_out sp_params sp_int]. split; [|split; apply all_valid_nil].
    apply (build_valid _ _ E). intros n b Hb. apply in_map_iff in Hb. destruct Hb as [[n' v] [Hb _]].
    apply (f_equal snd) in Hb. eapply structure_of_kval_valid. exact Hb.
  - destruct (setup_sound name kw _ F2 F1 c sp) as [_ _ _ H1 H2 H3 _]; [tauto|exact HS|]. auto.
Qed.
Lemma made_valid a cns layers l : made_from a cns layers l -> valid_layer l.
Proof.
  intros [pre [r [kw [ty [c [ins [Hpre [Hd [Hty [Hc [Hi Hm]]]]]]]]]]].
  destruct (ins_valid _ _ _ Hi). eapply make_layer_valid; eauto.
Qed.

(** ** C62: every structure is valid *)
Theorem C62_structures_valid a layers l n b :
  instantiate a = SOk layers -> In l layers ->
  In (n, b) (li_in l) \/ In (n, b) (li_out l) \/ In (n, b) (li_params l) \/ In (n, b) (li_int l) ->
  exists k f, wf_structure (bs_shape b) k f /\ (0 <= bs_ctx b)%Z /\ (bs_ctx b <> 0%Z -> k = Time).
Proof.
  intros H Hl Hb. apply instantiate_made in H. destruct H as [cns [order [_ [_ [_ [_ H]]]]]].
  destruct (made_valid _ _ _ _ (H l Hl)) as [H1 [H2 [H3 H4]]].
  assert (V : valid b) by (destruct Hb as [Hb|[Hb|[Hb|Hb]]]; eauto).
  unfold valid in V. apply structure_valid_spec in V. destruct V as [k [f [c [V1 [[= <-] [V2 V3]]]]]].
  exists k, f. auto.
Qed.
Print Assumptions C62_structures_valid.

(** ** C62: the structure of an input *)
(** The structure a connection takes its values from: an output, or with
    "..internals.x" and "..parameters.x" another buffer of the layer. *)
Inductive output_of (l : linst) : string -> bstruct -> Prop :=
| oo_output x b : In (x, b) (li_out l) -> output_of l x b
| oo_internal x b : In (x, b) (li_int l) -> output_of l ("..internals." ++ x) b
| oo_parameter x b : In (x, b) (li_params l) -> output_of l ("..parameters." ++ x) b.

Lemma partition_dot_join s : forall a b, partition_dot s = (a, b) -> b <> "" -> s = (a ++ "." ++ b)%string.
Proof.
  induction s as [|c s IH]; intros a b; cbn [partition_dot]; [intros [= <- <-]; congruence|].
  destruct (Ascii.eqb_spec c "."%char) as [->|N].
  - intros [= <- <-] _. reflexivity.
  - destruct (partition_dot s) as [a' b'] eqn:E. intros [= <- <-] Hb. cbn. f_equal. now apply IH.
Qed.
Lemma dotted_drop s : dotted s = true -> s = (".." ++ drop2 s)%string.
Proof.
  unfold dotted. destruct s as [|c1 [|c2 s]]; cbn [String.prefix]; intros H; try discriminate H.
  - destruct (ascii_dec "." c1); discriminate H.
  - destruct (ascii_dec "." c1) as [<-|]; [|discriminate H]. destruct (ascii_dec "." c2) as [<-|]; [|discriminate H]. reflexivity.
Qed.

Lemma path2 a x : component a -> component x -> get_normalized_path [a; x] = PathOk (a ++ "." ++ x).
Proof.
  intros A X. assert (H := normalized_path_spec [mkArg 0 [a]; mkArg 0 [x]]).
  cbn [map] in H. unfold render in H. simpl in H. rewrite H; [reflexivity|].
  repeat constructor; try discriminate; simpl; intros; apply A || apply X.
Qed.
Lemma path2_dotdot a c x : component a -> component c -> component x ->
  get_normalized_path [a; (".." ++ c ++ "." ++ x)%string] = PathOk (c ++ "." ++ x).
Proof.
  intros A C X. assert (H := normalized_path_spec [mkArg 0 [a]; mkArg 1 [c; x]]).
  cbn [map] in H. unfold render in H. simpl in H. simpl. rewrite H; [reflexivity|].
  repeat constructor; try discriminate; simpl; intros; apply A || apply C || apply X.
Qed.
Lemma component_not_dotted x : component x -> dotted x = false.
Proof.
  intros [_ [H _]]. unfold dotted. destruct x as [|c x]; [reflexivity|]. cbn [String.prefix].
  destruct (ascii_dec "." c) as [<-|]; [|reflexivity]. exfalso. apply H. now left.
Qed.

(** What a validated connection starts from. *)
Definition sources_of (l : linst) (out : string) : Prop :=
  In out (map fst (li_out l)) \/
  (exists x, out = ("..internals." ++ x)%string /\ In x (map fst (li_int l))) \/
  (exists x, out = ("..parameters." ++ x)%string /\ In x (map fst (li_params l))).

Lemma dmem_fst {V} x (d : list (string * V)) : PyBase.dmem x d = true <-> In x (map fst d).
Proof. unfold PyBase.dmem. apply smem_In. Qed.

Lemma made_outgoing a cns layers l c : named a -> made_from a cns layers l -> In c cns -> c_start c = li_name l ->
  sources_of l (c_out c).
Proof.
  intros HN HM Hc Hs. assert (S := made_sound _ _ _ _ HN HM).
  destruct HM as [pre [r [kw [ty [cl [ins [_ [_ [_ [_ [_ Hm]]]]]]]]]]].
  unfold make_layer in Hm. set (ins' := isort _ ins) in *.
  destruct (validate_kwargs cl kw); [|discriminate]. cbn [guard sbind] in Hm.
  destruct (validate_in_shapes cl ins'); [|discriminate]. cbn [guard sbind] in Hm.
  destruct (setup cl (li_name l) kw ins') as [sp|] eqn:HS; [|discriminate]. cbn [sbind] in Hm.
  unfold validate_connections in Hm.
  destruct (negb (forallb _ _)) eqn:E1; [discriminate|]. destruct (negb (forallb (valid_outgoing sp) _)) eqn:E2; [discriminate|].
  apply negb_false_iff in E2. rewrite forallb_forall in E2.
  assert (Hv : valid_outgoing sp c = true).
  { apply E2. unfold con_set. apply nodup_In, filter_In. split; [exact Hc|]. now apply String.eqb_eq. }
  assert (El : li_out l = sp_out sp /\ li_params l = sp_params sp /\ li_int l = sp_int sp).
  { destruct cl; [..]; cbn [sbind] in Hm; try (injection Hm as <-; auto).
    destruct (con_set _ cns); [|discriminate Hm]. injection Hm as <-. auto. }
  destruct El as [El1 [El2 El3]]. unfold sources_of. rewrite El1, El2, El3.
  unfold valid_outgoing in Hv. destruct (dotted (c_out c)) eqn:Ed.
  - apply dotted_drop in Ed. destruct (partition_dot (drop2 (c_out c))) as [cat x] eqn:Ep.
    destruct (String.eqb_spec cat "parameters") as [->|].
    + apply dmem_fst in Hv. right. right. exists x. split; [|exact Hv].
      rewrite Ed. rewrite (partition_dot_join _ _ _ Ep); [reflexivity|].
      assert (C : component x). { destruct (sl_params _ S) as [_ F]. rewrite Forall_forall in F. apply F. now rewrite El2. }
      apply C.
    + destruct (String.eqb_spec cat "internals") as [->|]; [|discriminate].
      apply dmem_fst in Hv. right. left. exists x. split; [|exact Hv].
      rewrite Ed. rewrite (partition_dot_join _ _ _ Ep); [reflexivity|].
      assert (C : component x). { destruct (sl_int _ S) as [_ F]. rewrite Forall_forall in F. apply F. now rewrite El3. }
      apply C.
  - left. now apply dmem_fst.
Qed.

Lemma partition_component c x : ~ In "."%char (chars c) -> partition_dot (c ++ "." ++ x) = (c, x).
Proof.
  induction c as [|a c IH]; intros H; [reflexivity|]. cbn. destruct (Ascii.eqb_spec a "."%char) as [->|].
  - exfalso. apply H. now left.
  - change (c ++ String "." x)%string with (c ++ "." ++ x)%string. rewrite IH; [reflexivity|]. intros I. apply H. now right.
Qed.

Lemma get_shape_output l out b : sound_layer l -> sources_of l out ->
  match get_normalized_path ["outputs"; out] with PathOk p => get_shape l p | _ => SErr EAssertion end = SOk b ->
  output_of l out b.
Proof.
  intros S [H|[[x [-> H]]|[x [-> H]]]].
  - assert (C : component out). { destruct (sl_out _ S) as [_ F]. rewrite Forall_forall in F. now apply F. }
    rewrite path2 by (exact C || (apply component_b_ok; reflexivity)).
    unfold get_shape. rewrite partition_component by (cbn; intuition discriminate).
    cbn [String.eqb Ascii.eqb Bool.eqb]. rewrite split_dot_nodot by apply C.
    destruct (dget out (li_out l)) as [b'|] eqn:E; [|discriminate]. intros [= <-]. constructor. now apply dget_In.
  - assert (C : component x). { destruct (sl_int _ S) as [_ F]. rewrite Forall_forall in F. now apply F. }
    change ("..internals." ++ x)%string with (".." ++ "internals" ++ "." ++ x)%string.
    rewrite path2_dotdot by (exact C || (apply component_b_ok; reflexivity)).
    unfold get_shape. rewrite partition_component by (cbn; intuition discriminate).
    cbn [String.eqb Ascii.eqb Bool.eqb]. rewrite split_dot_nodot by apply C.
    destruct (dget x (li_int l)) as [b'|] eqn:E; [|discriminate]. intros [= <-].
    apply oo_internal. now apply dget_In.
  - assert (C : component x). { destruct (sl_params _ S) as [_ F]. rewrite Forall_forall in F. now apply F. }
    change ("..parameters." ++ x)%string with (".." ++ "parameters" ++ "." ++ x)%string.
    rewrite path2_dotdot by (exact C || (apply component_b_ok; reflexivity)).
    unfold get_shape. rewrite partition_component by (cbn; intuition discriminate).
    cbn [String.eqb Ascii.eqb Bool.eqb]. rewrite split_dot_nodot by apply C.
    destruct (dget x (li_params l)) as [b'|] eqn:E; [|discriminate]. intros [= <-].
    apply oo_parameter. now apply dget_In.
Qed.

Lemma smap_Forall2 {A B} (f : A -> sres B) l : forall ys, smap f l = SOk ys -> Forall2 (fun x y => f x = SOk y) l ys.
Proof.
  induction l as [|x l IH]; intros ys; cbn [smap]; [intros [= <-]; constructor|].
  destruct (f x) as [y|] eqn:E; [|discriminate]. cbn [sbind]. destruct (smap f l) as [zs|]; [|discriminate]. cbn [sbind].
  intros [= <-]. constructor; auto.
Qed.
Lemma Forall2_In_r {A B} (P : A -> B -> Prop) l m y : Forall2 P l m -> In y m -> exists x, In x l /\ P x y.
Proof.
  induction 1 as [|x y' l m H1 H IH]; [intros []|]. intros [<-|Hy].
  - exists x. split; [now left|exact H1].
  - destruct (IH Hy) as [x' [I1 I2]]. exists x'. split; [now right|exact I2].
Qed.
Lemma Forall2_imp {A B} (P Q : A -> B -> Prop) l m :
  (forall x y, In x l -> P x y -> Q x y) -> Forall2 P l m -> Forall2 Q l m.
Proof.
  intros H F. induction F as [|x y l m H1 F IH]; constructor.
  - apply H; [now left|exact H1].
  - apply IH. intros x' y' Hx. apply H. now right.
Qed.

(** An input joins the structures of its sources: all have the same scaling
    (time, batch or none) and agree in all but the last feature dimension, the
    input has the sum of the last dimensions. *)
Theorem C62_inputs a layers l n b :
  named a -> instantiate a = SOk layers -> In l layers -> In (n, b) (li_in l) ->
  exists sources k fixed lasts,
    Forall2 (fun c s => exists l', In l' layers /\ li_name l' = c_start c /\ output_of l' (c_out c) s)
      (filter (fun c => String.eqb (c_in c) n) (li_incoming l)) sources /\
    sources <> [] /\ compatible k fixed lasts (map bs_shape sources) /\
    bs_shape b = prefix k ++ ints (fixed ++ [sum lasts]) /\ bs_ctx b = 0%Z.
Proof.
  intros HN H Hl Hb. apply instantiate_made in H. destruct H as [cns [order [_ [_ [_ [_ H]]]]]].
  destruct (H l Hl) as [pre [r [kw [ty [c [ins [Hpre [_ [_ [_ [Hi Hm]]]]]]]]]]].
  assert (Hinc := proj1 (proj2 (proj2 (make_layer_name _ _ _ _ _ _ _ Hm)))).
  apply make_layer_inv in Hm. destruct Hm as [_ [sp [_ El]]].
  assert (Hb' : In (n, b) ins). { rewrite El in Hb. cbn [li_in] in Hb. now apply isort_In in Hb. }
  rewrite Hinc. set (inc := con_set _ cns) in *.
  destruct (input_structures_In _ _ _ _ _ Hi Hb') as [Hn E].
  unfold input_structure in E. destruct (smap _ _) as [sources|] eqn:Es; [|discriminate]. cbn [sbind] in E.
  apply smap_Forall2 in Es.
  assert (F : Forall2 (fun c s => exists l', In l' layers /\ li_name l' = c_start c /\ output_of l' (c_out c) s)
      (filter (fun c => String.eqb (c_in c) n) inc) sources).
  { eapply Forall2_imp; [|exact Es]. intros k s Hk Hs. apply filter_In in Hk. destruct Hk as [Hk _].
    unfold inc, con_set in Hk. apply nodup_In, filter_In in Hk. destruct Hk as [Hk _].
    unfold source_shape in Hs. destruct (find _ pre) as [l'|] eqn:Ef; [|discriminate].
    apply find_some in Ef. destruct Ef as [Hp En]. apply String.eqb_eq in En.
    exists l'. assert (Hl' : In l' layers) by (destruct Hpre as [post ->]; apply in_or_app; now left). split; [exact Hl'|]. split; [exact En|].
    apply get_shape_output; [eapply made_sound; eauto| |exact Hs].
    eapply made_outgoing; eauto. }
  assert (NE : sources <> []).
  { intros ->. inversion F as [E0|]. apply in_map_iff in Hn. destruct Hn as [k [Hk1 Hk2]].
    assert (X : In k (filter (fun c => String.eqb (c_in c) n) inc)).
    { apply filter_In. split; [exact Hk2|]. now apply String.eqb_eq. }
    rewrite <- E0 in X. destruct X. }
  exists sources. unfold combine_structs in E.
  destruct (combine_buffer_structures _) as [sh| | |] eqn:Ec; try discriminate.
  apply new_structure_ok in E. destruct E as [-> _]. cbn [bs_shape bs_ctx].
  apply combine_spec in Ec.
  - destruct Ec as [k [fixed [lasts [C1 C2]]]]. exists k, fixed, lasts. auto.
  - intros E0. apply map_eq_nil in E0. contradiction.
  - intros s Hs. apply in_map_iff in Hs. destruct Hs as [st [<- Hst]].
    destruct (Forall2_In_r _ _ _ _ F Hst) as [k [_ [l' [Hl' [_ O]]]]].
    destruct (made_valid _ _ _ _ (H l' Hl')) as [H1 [H2 [H3 H4]]].
    assert (V : valid st) by (destruct O as [x st O|x st O|x st O]; eauto).
    unfold valid in V. apply structure_valid_spec in V. destruct V as [k' [f [c' [V1 _]]]]. eauto.
Qed.
Print Assumptions C62_inputs.

(** Every connection of the architecture leads from an existing buffer of a
    layer to an existing input of a later layer, and these are all the
    connections the layers get. *)
Theorem C62_connections a layers cns :
  named a -> instantiate a = SOk layers -> collect_all_connections (raw_of a) = Some cns ->
  (forall l c, In l layers -> (In c (li_incoming l) <-> In c cns /\ c_end c = li_name l) /\
                              (In c (li_outgoing l) <-> In c cns /\ c_start c = li_name l)) /\
  forall c, In c cns -> exists before_l l after_l l',
    layers = before_l ++ l :: after_l /\ In l' before_l /\ li_name l = c_end c /\ li_name l' = c_start c /\
    In (c_in c) (map fst (li_in l)) /\ exists b, output_of l' (c_out c) b.
Proof.
  intros HN H HC. apply instantiate_made in H. destruct H as [cns' [order [HC' [HO [HV [Hnames H]]]]]].
  rewrite HC in HC'. injection HC' as <-.
  assert (Hset : forall p c, In c (con_set p cns) <-> In c cns /\ p c = true).
  { intros p c. unfold con_set. rewrite nodup_In. apply filter_In. }
  assert (G : forall l c, In l layers -> (In c (li_incoming l) <-> In c cns /\ c_end c = li_name l) /\
                              (In c (li_outgoing l) <-> In c cns /\ c_start c = li_name l)).
  { intros l c Hl. destruct (H l Hl) as [pre [r [kw [ty [cl [ins [_ [_ [_ [_ [_ Hm]]]]]]]]]]].
    destruct (make_layer_name _ _ _ _ _ _ _ Hm) as [_ [_ [E1 E2]]]. rewrite E1, E2, !Hset, !String.eqb_eq. tauto. }
  split; [exact G|]. intros c Hc.
  assert (ND : NoDup (dkeys (raw_of a))).
  { unfold dkeys, raw_of. rewrite map_map. cbn [fst]. apply HN. }
  apply validate_spec in HV; [|exact ND]. destruct HV as [_ [[cns' [HC' HE]] _]]. rewrite HC in HC'. injection HC' as <-.
  assert (HE' : forall c, In c cns -> In (c_end c) (dkeys (raw_of a))) by (intros; now apply HE).
  destruct (order_cases _ _ ND HC HE') as [k [lo [_ [_ [[Hincl HO']|[_ HO']]]]]]; [|congruence].
  rewrite HO in HO'. injection HO' as ->.
  assert (He : In (c_end c) (map li_name layers)).
  { rewrite Hnames. apply -> in_rev. apply Hincl, HE', Hc. }
  apply in_map_iff in He. destruct He as [l [El Hl]].
  destruct (H l Hl) as [pre [r [kw [ty [cl [ins [[post Hpost] [_ [_ [_ [Hi Hm]]]]]]]]]]].
  set (inc := con_set _ cns) in *.
  assert (Hci : In c inc). { apply Hset. rewrite String.eqb_eq. auto. }
  assert (Hk : In (c_in c) (map fst ins)).
  { rewrite (input_structures_keys _ _ _ Hi). apply nodup_In, in_map, Hci. }
  apply in_map_iff in Hk. destruct Hk as [[n b] [En Hb]]. cbn [fst] in En. subst n.
  destruct (input_structures_In _ _ _ _ _ Hi Hb) as [_ E].
  unfold input_structure in E. destruct (smap _ _) as [sources|] eqn:Es; [|discriminate].
  apply smap_Forall2 in Es.
  assert (X : exists s, source_shape pre c = SOk s).
  { assert (Y : In c (filter (fun k => String.eqb (c_in k) (c_in c)) inc)) by (apply filter_In; split; [exact Hci|apply String.eqb_refl]).
    clear -Es Y. induction Es as [|x y xs ys Hx _ IH]; [destruct Y|]. destruct Y as [->|Y]; eauto. }
  destruct X as [s Hs]. unfold source_shape in Hs. destruct (find _ pre) as [l'|] eqn:Ef; [|discriminate].
  apply find_some in Ef. destruct Ef as [Hp En]. apply String.eqb_eq in En.
  assert (Hl' : In l' layers) by (rewrite Hpost; apply in_or_app; now left).
  exists pre, l, post, l'. split; [exact Hpost|]. split; [exact Hp|]. split; [now symmetry|]. split; [exact En|]. split.
  - apply make_layer_inv in Hm. destruct Hm as [_ [sp [_ ->]]]. cbn [li_in].
    apply (in_map fst) in Hb. cbn [fst] in Hb. eapply Permutation_in; [|exact Hb]. apply Permutation_map, Permutation_sym, isort_perm.
  - exists s. apply get_shape_output; [eapply made_sound; eauto| |exact Hs]. eapply made_outgoing; eauto.
Qed.
Print Assumptions C62_connections.

(** ** C62: the order in which sets are iterated over does not matter *)
Section Order.
  (** The orders in which the sets of incoming and outgoing connections of a
      layer and the set of its input names are iterated over. *)
  Record orders := mkOrders {
    o_in : string -> list connection -> list connection;
    o_out : string -> list connection -> list connection;
    o_names : string -> list string -> list string
  }.
  Definition lawful (o : orders) : Prop :=
    (forall n l, Permutation (o_in o n l) l) /\ (forall n l, Permutation (o_out o n l) l) /\
    (forall n l, Permutation (o_names o n l) l).
  (** [instantiate] with these orders. *)
  Definition input_structures_with (o : orders) (name : string) (layers : list linst) (incoming : list connection) : sres (list (string * bstruct)) :=
    smap (fun n => sbind (input_structure layers incoming n) (fun b => SOk (n, b))) (o_names o name (nodup string_dec (map c_in incoming))).
  Definition instantiate_one_with (o : orders) (a : karch) (cns : list connection) (layers : list linst) (name : string) : sres (list linst) :=
    match dget name a with
    | None => SErr EKey
    | Some (r, kw) =>
        match r_type r with
        | TypeString ty =>
            sbind (get_layer_class ty) (fun c =>
            let incoming := o_in o name (con_set (fun k => String.eqb (c_end k) name) cns) in
            let outgoing := o_out o name (con_set (fun k => String.eqb (c_start k) name) cns) in
            sbind (input_structures_with o name layers incoming) (fun ins =>
            sbind (make_layer c name ins incoming outgoing kw) (fun l => SOk (layers ++ [l]))))
        | _ => SErr EType
        end
    end.
  Fixpoint loop_with (o : orders) (a : karch) (cns : list connection) (order : list string) (layers : list linst) : sres (list linst) :=
    match order with
    | [] => SOk layers
    | n :: r => sbind (instantiate_one_with o a cns layers n) (loop_with o a cns r)
    end.
  Definition instantiate_with (o : orders) (a : karch) : sres (list linst) :=
    match validate_architecture (raw_of a) with
    | ValidationError => SErr ENetworkValidation
    | KeyError => SErr EKey
    | Accepted =>
        match collect_all_connections (raw_of a) with
        | None => SErr EKey
        | Some cns =>
            match get_canonical_layer_order (raw_of a) with
            | OrderOk order => loop_with o a cns order []
            | OrderAssertionError => SErr EAssertion
            | _ => SErr EKey
            end
        end
    end.

  (** Layers that differ in the order of their connections at most. *)
  Definition same_layer (l l' : linst) : Prop :=
    li_cls l = li_cls l' /\ li_name l = li_name l' /\ li_in l = li_in l' /\ li_out l = li_out l' /\
    li_params l = li_params l' /\ li_int l = li_int l' /\ li_cfg l = li_cfg l' /\
    Permutation (li_incoming l) (li_incoming l') /\ Permutation (li_outgoing l) (li_outgoing l').

  Lemma find_same f layers layers' : Forall2 same_layer layers layers' -> (forall l l', same_layer l l' -> f l = f l') ->
    match find f layers, find f layers' with
    | Some l, Some l' => same_layer l l'
    | None, None => True
    | _, _ => False
    end.
  Proof.
    intros F Hf. induction F as [|l l' r r' H F IH]; cbn [find]; [exact I|].
    rewrite <- (Hf _ _ H). destruct (f l); [exact H|exact IH].
  Qed.
  Lemma source_shape_same layers layers' c : Forall2 same_layer layers layers' -> source_shape layers c = source_shape layers' c.
  Proof.
    intros F. unfold source_shape.
    assert (H := find_same (fun l => String.eqb (li_name l) (c_start c)) _ _ F).
    destruct (find _ layers) as [l|], (find _ layers') as [l'|]; try (exfalso; apply H; intros ? ? S; f_equal; apply S); [|reflexivity].
    assert (S : same_layer l l') by (apply H; intros ? ? S; f_equal; apply S).
    destruct (get_normalized_path _); try reflexivity.
    unfold get_shape. destruct S as [_ [_ [-> [-> [-> [-> _]]]]]]. reflexivity.
  Qed.
  Lemma smap_ext {A B} (f g : A -> sres B) l : (forall x, In x l -> f x = g x) -> smap f l = smap g l.
  Proof.
    induction l as [|x l IH]; intros H; [reflexivity|]. cbn [smap]. rewrite (H x (or_introl eq_refl)), IH; [reflexivity|].
    intros y Hy. apply H. now right.
  Qed.
  Lemma smap_perm {A B} (f : A -> sres B) l l' : Permutation l l' -> forall ys, smap f l = SOk ys ->
    exists ys', smap f l' = SOk ys' /\ Permutation ys ys'.
  Proof.
    induction 1 as [|x l l' P IH|x y l|l1 l2 l3 P1 IH1 P2 IH2]; intros ys; cbn [smap].
    - intros [= <-]. exists []. auto.
    - destruct (f x) as [b|]; [|discriminate]. cbn [sbind]. destruct (smap f l) as [bs|]; [|discriminate]. cbn [sbind].
      intros [= <-]. destruct (IH bs eq_refl) as [ys' [-> P']]. cbn [sbind]. exists (b :: ys'). auto.
    - destruct (f y) as [by_|]; [|discriminate]. cbn [sbind]. destruct (f x) as [bx|]; [|discriminate]. cbn [sbind].
      destruct (smap f l) as [bs|]; [|discriminate]. cbn [sbind]. intros [= <-]. exists (bx :: by_ :: bs). split; [reflexivity|constructor].
    - intros H. destruct (IH1 _ H) as [ys1 [H1 Q1]]. destruct (IH2 _ H1) as [ys2 [H2 Q2]]. exists ys2. split; [exact H2|]. now transitivity ys1.
  Qed.
  Lemma filter_perm {A} (f : A -> bool) l l' : Permutation l l' -> Permutation (filter f l) (filter f l').
  Proof.
    induction 1 as [|x l l' P IH|x y l|l1 l2 l3 P1 IH1 P2 IH2]; cbn.
    - constructor.
    - destruct (f x); [now constructor|exact IH].
    - destruct (f x), (f y); try constructor; reflexivity.
    - now transitivity (filter f l2).
  Qed.
  Lemma sum_perm l l' : Permutation l l' -> sum l = sum l'.
  Proof. unfold sum. induction 1; cbn [fold_right]; lia. Qed.

  Lemma combine_perm shapes shapes' b : Permutation shapes shapes' -> Forall valid shapes ->
    combine_structs shapes = SOk b -> combine_structs shapes' = SOk b.
  Proof.
    intros P V. unfold combine_structs.
    destruct shapes as [|s0 rest]; [apply Permutation_nil in P; subst; auto|].
    assert (NE' : shapes' <> []). { intros ->. symmetry in P. now apply Permutation_nil in P. }
    set (shapes := s0 :: rest) in *. assert (NE : shapes <> []) by discriminate. clearbody shapes.
    assert (W : forall l, Forall valid l -> forall s, In s (map bs_shape l) -> exists k f, wf_structure s k f).
    { intros l F s Hs. rewrite Forall_forall in F. apply in_map_iff in Hs. destruct Hs as [st [<- Hst]]. apply F in Hst.
      unfold valid in Hst. apply structure_valid_spec in Hst. destruct Hst as [k [f [c [H1 _]]]]. eauto. }
    assert (V' : Forall valid shapes'). { rewrite Forall_forall in *. intros s Hs. apply V. eapply Permutation_in; [symmetry; exact P|exact Hs]. }
    destruct (combine_buffer_structures (map bs_shape shapes)) as [r| | |] eqn:E; try discriminate.
    intros H. apply combine_spec in E; [|intros X; apply map_eq_nil in X; contradiction|now apply W].
    destruct E as [k [fixed [lasts [C ->]]]].
    assert (Q : Permutation (map bs_shape shapes') (map (fun n => prefix k ++ ints (fixed ++ [n])) lasts)).
    { unfold compatible in C. rewrite <- C. apply Permutation_map. now symmetry. }
    apply Permutation_map_inv in Q. destruct Q as [lasts' [E Q]].
    replace (combine_buffer_structures (map bs_shape shapes')) with (Combined (prefix k ++ ints (fixed ++ [sum lasts]))); [exact H|].
    symmetry. apply combine_spec; [intros X; apply map_eq_nil in X; contradiction|now apply W|].
    exists k, fixed, lasts'. split; [exact E|]. now rewrite (sum_perm _ _ Q).
  Qed.

  Lemma input_structure_same layers layers' inc inc' n b :
    Forall2 same_layer layers layers' -> Forall valid_layer layers -> Permutation inc inc' ->
    input_structure layers inc n = SOk b -> input_structure layers' inc' n = SOk b.
  Proof.
    intros F V P. unfold input_structure.
    destruct (smap (source_shape layers) _) as [shapes|] eqn:E; [|discriminate]. cbn [sbind].
    destruct (smap_perm _ _ _ (filter_perm (fun c => String.eqb (c_in c) n) _ _ P) _ E) as [shapes' [E' P']].
    rewrite <- (smap_ext (source_shape layers)) by (intros; now apply source_shape_same). rewrite E'. cbn [sbind].
    apply combine_perm; [exact P'|]. apply smap_Forall2 in E. apply Forall_forall. intros s Hs.
    destruct (Forall2_In_r _ _ _ _ E Hs) as [c [_ Hc]]. unfold source_shape in Hc.
    destruct (find _ layers) as [l|] eqn:Ef; [|discriminate]. apply find_some in Ef. destruct Ef as [Hl _].
    rewrite Forall_forall in V. destruct (V l Hl) as [V1 [V2 [V3 V4]]].
    destruct (get_normalized_path _); try discriminate. unfold get_shape in Hc.
    destruct (partition_dot _) as [cat sub]. destruct (split_dot sub) as [|x [|]]; [..|];
      repeat match type of Hc with
      | (if ?b then _ else _) = _ => destruct b
      | match dget x ?d with _ => _ end = _ => destruct (dget x d) eqn:Ed; [|discriminate Hc]; injection Hc as <-; apply dget_In in Ed; eauto
      end; try discriminate Hc.
  Qed.

  Definition value_of (f : string -> sres bstruct) (n : string) : bstruct :=
    match f n with SOk b => b | SErr _ => mkB [] 0 false end.
  Lemma smap_pairs (f : string -> sres bstruct) ns : forall ins, smap (fun n => sbind (f n) (fun b => SOk (n, b))) ns = SOk ins ->
    ins = map (fun n => (n, value_of f n)) ns /\ forall n, In n ns -> f n = SOk (value_of f n).
  Proof.
    unfold value_of. induction ns as [|n ns IH]; intros ins; cbn [smap]; [intros [= <-]; split; [reflexivity|intros n []]|].
    destruct (f n) as [b|] eqn:E; [|discriminate]. cbn [sbind]. destruct (smap _ ns) as [r|]; [|discriminate]. cbn [sbind].
    intros [= <-]. destruct (IH r eq_refl) as [-> H]. cbn. rewrite E. split; [reflexivity|].
    intros n' [<-|Hn]; [now rewrite E|now apply H].
  Qed.
  Lemma smap_ok (f : string -> sres bstruct) ns : (forall n, In n ns -> f n = SOk (value_of f n)) ->
    smap (fun n => sbind (f n) (fun b => SOk (n, b))) ns = SOk (map (fun n => (n, value_of f n)) ns).
  Proof.
    induction ns as [|n ns IH]; intros H; [reflexivity|]. cbn [smap map]. rewrite (H n) at 1 by now left. cbn [sbind].
    rewrite IH by (intros; apply H; now right). reflexivity.
  Qed.
  Lemma nodup_perm l l' : Permutation l l' -> Permutation (nodup string_dec l) (nodup string_dec l').
  Proof.
    intros P. apply NoDup_Permutation; [apply NoDup_nodup|apply NoDup_nodup|]. intros x. rewrite !nodup_In.
    split; apply Permutation_in; [exact P|now symmetry].
  Qed.

  Variables o o' : orders.
  Hypothesis Ho : lawful o.
  Hypothesis Ho' : lawful o'.

  Lemma forallb_perm {A} (f : A -> bool) l l' : Permutation l l' -> forallb f l = forallb f l'.
  Proof.
    induction 1 as [|x l l' P IH|x y l|l1 l2 l3 P1 IH1 P2 IH2]; cbn; [reflexivity|congruence| |congruence].
    rewrite !andb_assoc. f_equal. apply andb_comm.
  Qed.

  Lemma one_same a cns layers layers' n r :
    Forall2 same_layer layers layers' -> Forall valid_layer layers ->
    instantiate_one_with o a cns layers n = SOk r ->
    exists r', instantiate_one_with o' a cns layers' n = SOk r' /\ Forall2 same_layer r r' /\ Forall valid_layer r.
  Proof.
    intros F V. unfold instantiate_one_with. destruct (dget n a) as [[rl kw]|]; [|discriminate].
    destruct (r_type rl) as [|ty|]; try discriminate. destruct (get_layer_class ty) as [c|]; [|discriminate].
    cbn [sbind]. cbv zeta. set (inc := con_set (fun k => String.eqb (c_end k) n) cns). set (outg := con_set (fun k => String.eqb (c_start k) n) cns).
    destruct (input_structures_with o n layers (o_in o n inc)) as [ins|] eqn:Ei; [|discriminate]. cbn [sbind].
    assert (P : Permutation (o_in o n inc) (o_in o' n inc)) by (rewrite (proj1 Ho), (proj1 Ho'); reflexivity).
    assert (Po : Permutation (o_out o n outg) (o_out o' n outg)) by (rewrite (proj1 (proj2 Ho)), (proj1 (proj2 Ho')); reflexivity).
    unfold input_structures_with in Ei. apply smap_pairs in Ei. destruct Ei as [Eins Hf].
    set (ns := o_names o n (nodup string_dec (map c_in (o_in o n inc)))) in *.
    set (ns' := o_names o' n (nodup string_dec (map c_in (o_in o' n inc)))).
    assert (Pn : Permutation ns ns').
    { unfold ns, ns'. rewrite (proj2 (proj2 Ho)), (proj2 (proj2 Ho')). apply nodup_perm, Permutation_map, P. }
    set (f := input_structure layers (o_in o n inc)) in *. set (f' := input_structure layers' (o_in o' n inc)).
    assert (Hf' : forall m, In m ns' -> f' m = SOk (value_of f m)).
    { intros m Hm. unfold f'. apply (input_structure_same layers _ (o_in o n inc)); [exact F|exact V|exact P|]. apply Hf.
      eapply Permutation_in; [symmetry; exact Pn|exact Hm]. }
    assert (Hv' : forall m, In m ns' -> value_of f' m = value_of f m) by (intros m Hm; unfold value_of at 1; now rewrite Hf').
    unfold input_structures_with. rewrite (smap_ok f') by (intros m Hm; rewrite Hv' by exact Hm; now apply Hf'). cbn [sbind].
    fold ns'. assert (Em : map (fun m => (m, value_of f' m)) ns' = map (fun m => (m, value_of f m)) ns').
    { apply map_ext_in. intros m Hm. now rewrite Hv'. }
    rewrite Em. set (ins' := map (fun m => (m, value_of f m)) ns').
    assert (Esort : isort (fun a b => String.leb (fst a) (fst b)) ins = isort (fun a b => String.leb (fst a) (fst b)) ins').
    { subst ins. unfold ins'. rewrite !(LayoutProofs.isort_map_in _ String.leb) by reflexivity. f_equal.
      apply isort_permutation_eq; [apply String.leb_total|apply string_leb_trans|apply String.leb_antisym|exact Pn]. }
    destruct (make_layer c n ins _ _ kw) as [l|] eqn:El; [|discriminate]. cbn [sbind]. intros [= <-].
    assert (Vl : valid_layer l).
    { eapply make_layer_valid; [exact El| |].
      - subst ins. rewrite map_map. cbn [fst]. rewrite map_id.
        eapply Permutation_NoDup; [symmetry; apply (proj2 (proj2 Ho))|apply NoDup_nodup].
      - subst ins. intros m b Hb. apply in_map_iff in Hb. destruct Hb as [m' [[= <- <-] Hm]]. apply Hf in Hm.
        unfold f, input_structure in Hm. destruct (smap _ _); [|discriminate]. cbn [sbind] in Hm. now destruct (combine_input_like _ _ Hm). }
    unfold make_layer in *. rewrite <- Esort. set (insS := isort _ ins) in *.
    destruct (validate_kwargs c kw); [|discriminate]. cbn [guard sbind] in *.
    destruct (validate_in_shapes c insS); [|discriminate]. cbn [guard sbind] in *.
    destruct (setup c n kw insS) as [sp|]; [|discriminate]. cbn [sbind] in *.
    assert (Ev : validate_connections c insS sp (o_in o' n inc) (o_out o' n outg) = validate_connections c insS sp (o_in o n inc) (o_out o n outg)).
    { unfold validate_connections. rewrite <- (forallb_perm _ _ _ P), <- (forallb_perm _ _ _ Po).
      destruct (negb _); [reflexivity|]. destruct (negb _); [reflexivity|]. destruct c; try reflexivity.
      destruct (o_in o n inc) eqn:E1, (o_in o' n inc) eqn:E2; try reflexivity.
      - now apply Permutation_nil in P.
      - symmetry in P. now apply Permutation_nil in P. }
    rewrite Ev. destruct (validate_connections c insS sp _ _); [|discriminate]. cbn [sbind] in *.
    eexists. split; [reflexivity|]. split.
    - apply Forall2_app; [exact F|]. constructor; [|constructor]. injection El as <-. repeat split; assumption.
    - apply Forall_app. split; [exact V|]. constructor; [exact Vl|constructor].
  Qed.

  Lemma loop_same a cns order : forall layers layers' r,
    Forall2 same_layer layers layers' -> Forall valid_layer layers ->
    loop_with o a cns order layers = SOk r ->
    exists r', loop_with o' a cns order layers' = SOk r' /\ Forall2 same_layer r r'.
  Proof.
    induction order as [|n rest IH]; intros layers layers' r F V; cbn [loop_with].
    - intros [= <-]. eauto.
    - destruct (instantiate_one_with o a cns layers n) as [m|] eqn:E; [|discriminate]. cbn [sbind]. intros H.
      destruct (one_same _ _ _ _ _ _ F V E) as [m' [-> [F' V']]]. cbn [sbind]. eapply IH; eauto.
  Qed.

  (** For any two orders of iteration the construction succeeds for both or for
      neither, and the layers are the same. *)
  Theorem C62_order_irrelevant a layers : instantiate_with o a = SOk layers ->
    exists layers', instantiate_with o' a = SOk layers' /\ Forall2 same_layer layers layers'.
  Proof.
    unfold instantiate_with. destruct (validate_architecture _); try discriminate.
    destruct (collect_all_connections _) as [cns|]; [|discriminate].
    destruct (get_canonical_layer_order _) as [order| | |]; try discriminate.
    apply loop_same; constructor.
  Qed.
End Order.
Print Assumptions C62_order_irrelevant.

(** [instantiate] is the construction with the order of the sorted connections. *)
Definition sorted_orders : orders := mkOrders (fun _ l => l) (fun _ l => l) (fun _ l => l).
Lemma instantiate_sorted a : instantiate a = instantiate_with sorted_orders a.
Proof.
  unfold instantiate, instantiate_with. destruct (validate_architecture _); try reflexivity.
  destruct (collect_all_connections _) as [cns|]; [|reflexivity].
  destruct (get_canonical_layer_order _) as [order| | |]; try reflexivity.
  generalize (@nil linst) as layers. induction order as [|n r IH]; intros layers; [reflexivity|].
  cbn [instantiate_loop loop_with]. change (instantiate_one_with sorted_orders a cns layers n) with (instantiate_one a cns layers n).
  destruct (instantiate_one a cns layers n) as [m|]; [|reflexivity]. cbn [sbind]. apply IH.
Qed.
Lemma sorted_lawful : lawful sorted_orders.
Proof. split; [|split]; intros; reflexivity. Qed.

(** ** Examples for C62 *)
(** The layer FC3 gets the outputs of two layers with 2 and 3 units and the
    internal state Ha of the second. *)
Definition two_sources : karch :=
  [entry "Input" "Input" [("default", ["FC1"; "Rec"])] [("out_shapes", KDict [("default", tb_shape [4%Z])])];
   entry "FC1" "FullyConnected" [("default", ["FC3"])] [("size", KInt 2)];
   entry "Rec" "Recurrent" [("default", ["FC3"]); ("..internals.Ha", ["FC3"])] [("size", KInt 3)];
   entry "FC3" "FullyConnected" [("default", [])] [("size", KInt 1)]].
Lemma two_sources_named : named two_sources.
Proof.
  constructor.
  - apply nodup_b_ok. reflexivity.
  - intros n r kw H E. cbn [In two_sources entry] in H. destruct H as [H|[H|[H|[H|[]]]]]; injection H as <- <- <-; try discriminate E.
    apply names_b_ok. reflexivity.
Qed.
Example C62_example :
  instantiate two_sources = SOk (layers_of two_sources) /\ named two_sources /\
  map (fun l => (li_name l, map (fun e => (fst e, bs_shape (snd e))) (li_in l), length (li_incoming l))) (layers_of two_sources) =
    [("Input", [], 0); ("FC1", [("default", [DT; DB; DInt 4])], 1); ("Rec", [("default", [DT; DB; DInt 4])], 1);
     ("FC3", [("default", [DT; DB; DInt 8])], 3)].
Proof. split; [vm_compute; reflexivity|]. split; [apply two_sources_named|]. vm_compute. reflexivity. Qed.
Definition reversed_orders : orders := mkOrders (fun _ l => rev l) (fun _ l => rev l) (fun _ l => rev l).
Example C62_order_example :
  lawful sorted_orders /\ lawful reversed_orders /\
  exists layers, instantiate_with reversed_orders two_sources = SOk layers /\
    map (fun l => map c_start (li_incoming l)) layers = [[]; ["Input"]; ["Input"]; ["Rec"; "Rec"; "FC1"]].
Proof.
  split; [apply sorted_lawful|]. split; [split; [|split]; intros; symmetry; apply Permutation_rev|].
  eexists. split; [vm_compute; reflexivity|]. reflexivity.
Qed.
