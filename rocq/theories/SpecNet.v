(** Lemmas for C71: the program of create_net_from_spec and its network. *)
From Coq Require Import String Ascii List ZArith QArith Bool Lia Arith Permutation Relations.
From Verif Require Import PyBase PyFacts UtilsModel UtilsProofs NamesModel NamesProofs NamesProps ArchModel ArchProofs ShapesModel SetupModel SetupProofs InstanceProofs InstanceProps NetLayoutProps NetMemoryModel NetMemoryProofs SpecModel SpecProofs SpecChain.
Import ListNotations.
Open Scope string_scope.
Open Scope list_scope.
Open Scope nat_scope.

(** ** The operations for the layers of a spec line *)
Definition prev (cur next j : nat) : nat := match j with 0 => cur | S j' => next + j' end.
Lemma add_layers_spec items : forall cur next,
  created (fst (add_layers items cur next)) = map fst items /\ created_types (fst (add_layers items cur next)) = map fst items /\
  wirings (fst (add_layers items cur next)) = map (fun j => (prev cur next j, "default", "default", next + j)) (seq 0 (length items)) /\
  snd (add_layers items cur next) = prev cur next (length items).
Proof.
  induction items as [|[ty kw] r IH]; intros cur next; [repeat split|]. cbn [add_layers]. destruct (add_layers r next (S next)) as [ops last] eqn:E. destruct (IH next (S next)) as [H1 [H2 [H3 H4]]]. rewrite E in H1, H2, H3, H4. cbn [fst snd] in *.
  assert (P : forall j, prev next (S next) j = prev cur next (S j)) by (intros [|j]; cbn; lia). repeat split.
  - cbn. f_equal. exact H1.
  - cbn. f_equal. exact H2.
  - cbn [wirings flat_map app length seq map]. fold (wirings ops). rewrite H3, <- seq_shift, map_map. cbn [prev]. rewrite Nat.add_0_r. f_equal. apply map_ext. intros j. rewrite P. replace (next + S j) with (S next + j) by lia. reflexivity.
  - rewrite H4, P. reflexivity.
Qed.
Fixpoint wf_from (n : nat) (ops : list op) : Prop :=
  match ops with [] => True | o :: r => wf_op n o /\ wf_from (n + length (created [o])) r end.
Lemma wf_from_program ops : wf_from 0 ops -> wf_program ops.
Proof.
  assert (G : forall ops n, wf_from n ops -> forall pre o post, ops = pre ++ o :: post -> wf_op (n + length (created pre)) o).
  { clear. induction ops as [|x ops IH]; intros n H pre o post E; [destruct pre; discriminate|]. destruct H as [Hx H]. destruct pre as [|y pre]; cbn [app] in E; injection E as -> E.
    - cbn. now rewrite Nat.add_0_r.
    - replace (length (created (y :: pre))) with (length (created [y]) + length (created pre)) by (destruct y as [? []|]; reflexivity). rewrite Nat.add_assoc. eapply IH; eauto. }
  intros H pre o post E. exact (G ops 0 H pre o post E).
Qed.
Lemma wf_from_app l1 l2 n : wf_from n l1 -> wf_from (n + length (created l1)) l2 -> wf_from n (l1 ++ l2).
Proof.
  revert n. induction l1 as [|x l1 IH]; intros n H1 H2; cbn [app wf_from]; [cbn in H2; now rewrite Nat.add_0_r in H2|]. destruct H1 as [Hx H1]. split; [exact Hx|]. apply IH; [exact H1|].
  replace (length (created (x :: l1))) with (length (created [x]) + length (created l1)) in H2 by (destruct x as [? []|]; reflexivity). now rewrite Nat.add_assoc in H2.
Qed.
Lemma add_layers_wf items : Forall (fun it => is_valid_layer_name (fst it) = true) items -> forall cur next, cur < next -> wf_from next (fst (add_layers items cur next)).
Proof.
  induction 1 as [|[ty kw] r H F IH]; intros cur next L; [exact I|]. cbn [add_layers]. destruct (add_layers r next (S next)) as [ops last] eqn:E. assert (G := IH next (S next) ltac:(lia)). rewrite E in G. cbn [fst wf_from wf_op created flat_map app length] in *. replace (next + 1 + 0) with (S next) by lia.
  split; [exact H|]. split; [lia|exact G].
Qed.

Inductive run_flows : list layer_call -> list Z -> list Z -> Prop :=
| rf_nil f : run_flows [] f f
| rf_cons it r f g h : flows it f g -> run_flows r g h -> run_flows (it :: r) f h.
Definition item_types : list string := ["FullyConnected"; "Recurrent"; "Lstm"; "Dropout"; "BatchNorm"; "Convolution2D"; "Pooling2D"].
Lemma flows_type it f g : flows it f g -> In (fst it) item_types.
Proof. intros H. inversion H; cbn; tauto. Qed.
Lemma run_flows_types items f g : run_flows items f g -> Forall (fun it => In (fst it) item_types) items.
Proof. induction 1; constructor; [eapply flows_type; eassumption|assumption]. Qed.

Section Net.
  Variables (task ty : string) (m : Z) (t : list Z) (f0 g : list Z) (tn : string) (mask : option string) (items : list layer_call).
  Hypothesis TASK : task_of task ty m t.
  Hypothesis M0 : (0 < m)%Z.
  Hypothesis F0 : f0 <> [].
  Hypothesis P0 : nn f0.
  Hypothesis FLOW : run_flows items f0 g.
  Hypothesis TN : component tn /\ tn <> "default".
  Hypothesis MASK : forall k, mask = Some k -> component k /\ k <> "default" /\ k <> tn.

  Definition masked : bool := match mask with Some _ => true | None => false end.
  Definition n0 : nat := if masked then 5 else 4.
  Definition L : nat := length items.
  Definition shapes : list (string * list Z) := [("default", f0); (tn, t)] ++ match mask with Some k => [(k, [1%Z])] | None => [] end.
  Definition proj_call : layer_call := ("FullyConnected", [("size", KSeq (map KInt [m])); ("activation", KStr "linear")]).
  Definition input_call : layer_call := ("Input", [("out_shapes", KDict (map shape_entry shapes))]).
  Definition end_calls : list layer_call := (if masked then [("Mask", [])] else []) ++ [("Loss", [("importance", KNum 1)])].
  Definition base_calls : list layer_call := [proj_call; (ty, []); input_call] ++ end_calls.
  Definition base_ops : list op :=
    [Create "FullyConnected" (Some "Output_projection"); Create ty (Some "Output"); Wire 0 "default" "default" 1] ++
    match mask with
    | None => [Create "Input" None; Wire 2 tn "targets" 1; Create "Loss" None; Wire 1 "loss" "default" 3]
    | Some k => [Create "Input" None; Create "Mask" None; Wire 2 tn "targets" 1; Wire 1 "loss" "default" 3; Create "Loss" None; Wire 3 "default" "default" 4; Wire 2 k "mask" 3]
    end.
  Definition ops : list op := base_ops ++ fst (add_layers items 2 n0) ++ [Wire (prev 2 n0 L) "default" "default" 0].
  Definition kws : list kwargs := map snd (base_calls ++ items).

  Lemma valid_types : Forall (fun it : layer_call => is_valid_layer_name (fst it) = true) items.
  Proof.
    assert (T := run_flows_types _ _ _ FLOW). rewrite Forall_forall in *. intros it Hit. specialize (T it Hit). cbn in T. repeat (destruct T as [<-|T]; [reflexivity|]). contradiction.
  Qed.
  Lemma type_ok : is_valid_layer_name ty = true.
  Proof. destruct TASK as [[_ [-> _]]|[[_ [-> _]]|[_ [-> _]]]]; reflexivity. Qed.
  Lemma created_ops : created ops = ["Output_projection"; "Output"; "Input"] ++ (if masked then ["Mask"] else []) ++ ["Loss"] ++ map fst items.
  Proof.
    unfold ops, created. rewrite !flat_map_app. fold (created base_ops) (created (fst (add_layers items 2 n0))). destruct (add_layers_spec items 2 n0) as [H _]. rewrite H. cbn [flat_map]. rewrite app_nil_r. unfold base_ops, masked. destruct mask; reflexivity.
  Qed.
  Lemma types_ops : created_types ops = map fst (base_calls ++ items).
  Proof.
    unfold ops, created_types. rewrite !flat_map_app. fold (created_types base_ops) (created_types (fst (add_layers items 2 n0))). destruct (add_layers_spec items 2 n0) as [_ [H _]]. rewrite H. cbn [flat_map]. rewrite app_nil_r, map_app. unfold base_ops, base_calls, end_calls, masked. destruct mask; reflexivity.
  Qed.
  Definition tot : nat := n0 + L.
  Lemma length_created : length (created ops) = tot.
  Proof. rewrite created_ops, !app_length, map_length. unfold tot, n0, L. destruct masked; reflexivity. Qed.
  Lemma wf_ops : wf_program ops.
  Proof.
    apply wf_from_program. unfold ops. apply wf_from_app.
    - unfold base_ops. assert (T := type_ok). destruct mask; cbn; rewrite T; repeat split; lia.
    - assert (B : length (created base_ops) = n0) by (unfold base_ops, n0, masked; destruct mask; reflexivity). rewrite B. apply wf_from_app; [apply add_layers_wf; [exact valid_types|unfold n0; destruct masked; lia]|].
      destruct (add_layers_spec items 2 n0) as [H _]. rewrite H. replace (length (map fst items)) with L by (unfold L; now rewrite map_length). cbn [wf_from wf_op]. unfold prev, n0. split; [|exact I]. destruct L as [|j], masked; lia.
  Qed.
  (** The layer at a position of the chain *)
  Definition idat (p : nat) : nat := if p =? 0 then 2 else if p <=? L then n0 + (p - 1) else if p <=? L + 2 then p - (L + 1) else p - L.
  Ltac at_tac := unfold idat, tot, n0, prev in *; repeat match goal with |- context [?x =? ?y] => destruct (Nat.eqb_spec x y) | |- context [?x <=? ?y] => destruct (Nat.leb_spec x y) end; destruct masked; lia.
  Lemma idat_inj p q : p < tot -> q < tot -> idat p = idat q -> p = q.
  Proof. unfold idat, tot, n0. generalize L. intros L0. destruct masked; repeat match goal with |- context [?x =? ?y] => destruct (Nat.eqb_spec x y) | |- context [?x <=? ?y] => destruct (Nat.leb_spec x y) end; lia. Qed.
  Lemma idat_lt p : p < tot -> idat p < tot.
  Proof. unfold idat, tot, n0. generalize L. intros L0. destruct masked; repeat match goal with |- context [?x =? ?y] => destruct (Nat.eqb_spec x y) | |- context [?x <=? ?y] => destruct (Nat.leb_spec x y) end; lia. Qed.
  Lemma idat_perm : Permutation (map idat (seq 0 tot)) (seq 0 tot).
  Proof.
    apply NoDup_Permutation_bis.
    - assert (G : forall l, NoDup l -> (forall p, In p l -> p < tot) -> NoDup (map idat l)).
      { induction 1 as [|p l Hp N IH]; intros B; [constructor|]. cbn. constructor; [|apply IH; intros; apply B; now right]. intros I. apply in_map_iff in I. destruct I as [q [E Hq]]. apply Hp. rewrite <- (idat_inj q p); [exact Hq|apply B; now right|apply B; now left|exact E]. }
      apply G; [apply seq_NoDup|]. intros p Hp. apply in_seq in Hp. lia.
    - now rewrite map_length.
    - intros x Hx. apply in_map_iff in Hx. destruct Hx as [p [<- Hp]]. apply in_seq in Hp. apply in_seq. split; [lia|]. apply idat_lt. lia.
  Qed.
  Lemma idat_item j : j < L -> idat (S j) = n0 + j. Proof. intros H. unfold idat. cbn [Nat.eqb]. destruct (Nat.leb_spec (S j) L); [f_equal; lia|lia]. Qed.
  Lemma idat_prev j : j <= L -> idat j = prev 2 n0 j. Proof. intros H. destruct j as [|j]; [reflexivity|]. rewrite idat_item by lia. reflexivity. Qed.
  Lemma idat_end i : 0 < i -> idat (L + i) = if i <=? 2 then i - 1 else i.
  Proof. intros H. unfold idat. destruct (Nat.eqb_spec (L + i) 0); [lia|]. destruct (Nat.leb_spec (L + i) L); [lia|]. destruct (Nat.leb_spec (L + i) (L + 2)), (Nat.leb_spec i 2); lia. Qed.
  (** All wirings, by positions *)
  Definition wires : list (nat * string * string * nat) :=
    map (fun j => (j, "default", "default", S j)) (seq 0 (L + 2)) ++ [(0, tn, "targets", L + 2); (L + 2, "loss", "default", L + 3)] ++
    match mask with Some k => [(L + 3, "default", "default", L + 4); (0, k, "mask", L + 3)] | None => [] end.
  Definition at_ids (x : nat * string * string * nat) : nat * string * string * nat := match x with (a, o, i, b) => (idat a, o, i, idat b) end.
  Lemma wirings_ops x : In x (wirings ops) <-> In x (map at_ids wires).
  Proof.
    unfold ops. assert (W : forall l1 l2, wirings (l1 ++ l2) = wirings l1 ++ wirings l2) by (intros; unfold wirings; apply flat_map_app). rewrite !W. destruct (add_layers_spec items 2 n0) as [_ [_ [H _]]]. rewrite H. fold L.
    assert (E : map at_ids (map (fun j => (j, "default", "default", S j)) (seq 0 (L + 2))) = map (fun j => (prev 2 n0 j, "default", "default", n0 + j)) (seq 0 L) ++ [(prev 2 n0 L, "default", "default", 0)] ++ [(0, "default", "default", 1)]).
    { rewrite map_map. replace (L + 2) with (L + 1 + 1) by lia. rewrite !seq_app, !map_app, <- app_assoc. f_equal; [|f_equal].
      - apply map_ext_in. intros j Hj. apply in_seq in Hj. unfold at_ids. rewrite idat_item, idat_prev by lia. reflexivity.
      - cbn [seq map at_ids Nat.add]. rewrite idat_prev by lia. replace (S L) with (L + 1) by lia. rewrite idat_end by lia. reflexivity.
      - cbn [seq map at_ids Nat.add]. replace (S (L + 1)) with (L + 2) by lia. rewrite !idat_end by lia. reflexivity. }
    unfold wires. rewrite map_app, E. set (I := map _ (seq 0 L)). unfold base_ops. clearbody I. destruct mask as [k|]; cbn [wirings flat_map app map at_ids]; rewrite ?idat_end by lia; cbn [Nat.leb Nat.sub]; change (idat 0) with 2; repeat rewrite ?in_app_iff; cbn [In]; rewrite ?in_app_iff; cbn [In]; tauto.
  Qed.
  Lemma L_types : forall it, In it items -> In (fst it) item_types.
  Proof. assert (T := run_flows_types _ _ _ FLOW). now rewrite Forall_forall in T. Qed.
  Lemma in_wires_chain j : j < L + 2 -> In (j, "default", "default", S j) wires.
  Proof. intros H. unfold wires. apply in_or_app. left. apply in_map_iff. exists j. split; [reflexivity|]. apply in_seq. lia. Qed.
  Lemma in_wires_targets : In (0, tn, "targets", L + 2) wires.
  Proof. unfold wires. apply in_or_app. right. apply in_or_app. left. now left. Qed.
  Lemma in_wires_loss : In (L + 2, "loss", "default", L + 3) wires.
  Proof. unfold wires. apply in_or_app. right. apply in_or_app. left. right. now left. Qed.
  Lemma in_wires_mask k : mask = Some k -> In (L + 3, "default", "default", L + 4) wires /\ In (0, k, "mask", L + 3) wires.
  Proof. intros E. unfold wires. rewrite E. split; apply in_or_app; right; apply in_or_app; right; [now left|right; now left]. Qed.
  Lemma wires_inv a o i b : In (a, o, i, b) wires ->
    (a < L + 2 /\ o = "default" /\ i = "default" /\ b = S a) \/ (a = 0 /\ o = tn /\ i = "targets" /\ b = L + 2) \/ (a = L + 2 /\ o = "loss" /\ i = "default" /\ b = L + 3) \/
    exists k, mask = Some k /\ ((a = L + 3 /\ o = "default" /\ i = "default" /\ b = L + 4) \/ (a = 0 /\ o = k /\ i = "mask" /\ b = L + 3)).
  Proof.
    unfold wires. intros H. apply in_app_or in H. destruct H as [H|H].
    - apply in_map_iff in H. destruct H as [j [[= <- <- <- <-] H]]. apply in_seq in H. left. repeat split; lia.
    - apply in_app_or in H. destruct H as [[[= <- <- <- <-]|[[= <- <- <- <-]|[]]]|H]; [tauto|tauto|].
      destruct mask as [k|]; [|contradiction]. do 3 right. exists k. split; [reflexivity|]. destruct H as [[= <- <- <- <-]|[[= <- <- <- <-]|[]]]; tauto.
  Qed.
  Lemma tot_eq : tot = if masked then L + 5 else L + 4. Proof. unfold tot, n0. destruct masked; lia. Qed.
  Lemma wires_lt a o i b : In (a, o, i, b) wires -> a < b /\ b < tot.
  Proof.
    intros H. rewrite tot_eq. destruct (wires_inv _ _ _ _ H) as [H'|[H'|[H'|[k [E H']]]]]; unfold masked; [| | |rewrite E]; destruct mask; lia.
  Qed.
  Lemma next_wire p : S p < tot -> exists o i, In (p, o, i, S p) wires.
  Proof.
    rewrite tot_eq. intros H. destruct (Nat.lt_ge_cases p (L + 2)); [exists "default", "default"; now apply in_wires_chain|].
    destruct (Nat.eq_dec p (L + 2)) as [->|]; [exists "loss", "default"; replace (S (L + 2)) with (L + 3) by lia; exact in_wires_loss|].
    unfold masked in H. destruct mask as [k|] eqn:E; [|lia]. exists "default", "default". replace p with (L + 3) by lia. replace (S (L + 3)) with (L + 4) by lia. now apply (in_wires_mask k).
  Qed.
  Lemma wired_at a o i b : In (a, o, i, b) wires -> In (idat a, o, i, idat b) (wirings ops).
  Proof. intros H. apply wirings_ops. now apply (in_map at_ids) in H. Qed.
  Lemma all_connected x : x < length (created ops) -> connected ops 0 x.
  Proof.
    rewrite length_created. intros Hx.
    assert (C : forall p, p < tot -> connected ops (idat 0) (idat p)).
    { induction p as [|p IH]; intros Hp; [apply rst_refl|]. eapply rst_trans; [apply IH; lia|]. destruct (next_wire p Hp) as [o [i W]]. apply rst_step. exists o, i. now apply wired_at. }
    assert (S0 : exists p, p < tot /\ idat p = 0). { exists (L + 1). split; [rewrite tot_eq; destruct masked; lia|]. now rewrite idat_end by lia. }
    assert (Sx : exists p, p < tot /\ idat p = x). { assert (I : In x (map idat (seq 0 tot))) by (apply (Permutation_in _ (Permutation_sym idat_perm)), in_seq; lia). apply in_map_iff in I. destruct I as [p [E I]]. apply in_seq in I. exists p. split; [lia|exact E]. }
    destruct S0 as [p [Hp <-]], Sx as [q [Hq <-]]. eapply rst_trans; [apply rst_sym|]; apply C; assumption.
  Qed.
  Lemma plain_names : Forall plain_name (created ops).
  Proof.
    rewrite created_ops. apply Forall_app. split; [repeat constructor|]. apply Forall_app. split; [destruct masked; repeat constructor|]. apply Forall_app. split; [repeat constructor|].
    apply Forall_forall. intros x Hx. apply in_map_iff in Hx. destruct Hx as [it [<- Hit]]. assert (T := L_types it Hit). cbn in T. repeat (destruct T as [<-|T]; [split; reflexivity|]). contradiction.
  Qed.
  Lemma architecture_exists order : Permutation order (seq 0 tot) -> exists nm ar cns, architecture_in (mkProg ops kws) order = Some ar /\ program_arch ops kws nm ar cns.
  Proof.
    intros P. destruct (C01_programs_run ops wf_ops) as [w R]. rewrite <- length_created in P.
    destruct (program_architecture ops kws w order R) as [nm [ar [cns [H1 [H2 _]]]]]; [rewrite length_created, tot_eq; destruct masked; lia|exact all_connected|exact P|exact plain_names|]. now exists nm, ar, cns.
  Qed.
  Lemma spec_program_ops spec use_conv : smap (fun it => create_layer (fst it) (snd it)) (read_spec spec) = SOk items -> spec_program task f0 [m] spec "default" tn mask use_conv = SOk (mkProg ops kws).
  Proof.
    intros R. unfold spec_program, get_in_out_layers, projection. cbn [length Nat.eqb orb sbind or_name fst snd]. 
    assert (OT : out_layer_type task = SOk ty) by (destruct TASK as [[-> [-> _]]|[[-> [-> _]]|[-> [-> _]]]]; reflexivity).
    assert (TS : target_shape task [m] = t) by (destruct TASK as [[-> [_ ->]]|[[-> [_ ->]]|[-> [_ ->]]]]; reflexivity).
    rewrite OT, TS. cbn [sbind]. destruct TN as [_ TNd].
    assert (D1 : dset tn (tb_value t) (dset "default" (tb_value f0) []) = [("default", tb_value f0); (tn, tb_value t)]).
    { cbn [dset]. destruct (String.eqb_spec tn "default"); [congruence|]. reflexivity. }
    rewrite D1. destruct (add_layers_spec items 2 n0) as [_ [_ [_ Hl]]].
    destruct mask as [k|] eqn:Ek.
    - destruct (MASK k eq_refl) as [_ [Kd Kt]].
      assert (D2 : dset k (tb_value [1%Z]) [("default", tb_value f0); (tn, tb_value t)] = [("default", tb_value f0); (tn, tb_value t); (k, tb_value [1%Z])]).
      { cbn [dset]. destruct (String.eqb_spec k "default"); [congruence|]. destruct (String.eqb_spec k tn); [congruence|]. reflexivity. }
      rewrite D2, R. cbn [sbind pg_ops pg_kwargs length app]. unfold n0, masked in Hl. rewrite Ek in Hl. destruct (add_layers items 2 5) as [iops last] eqn:A. cbn [snd] in Hl. subst last. unfold ops, kws, base_ops, base_calls, end_calls, input_call, shapes, n0, masked, L. rewrite Ek, A. reflexivity.
    - rewrite R. cbn [sbind pg_ops pg_kwargs length app]. unfold n0, masked in Hl. rewrite Ek in Hl. destruct (add_layers items 2 4) as [iops last] eqn:A. cbn [snd] in Hl. subst last. unfold ops, kws, base_ops, base_calls, end_calls, input_call, shapes, n0, masked, L. rewrite Ek, A. reflexivity.
  Qed.

  (** ** Instantiation *)
  Section Arch.
  Variables (nm : nat -> string) (ar : karch) (cns : list connection).
  Hypothesis PA : program_arch ops kws nm ar cns.
  Definition at_name (p : nat) : string := nm (idat p).
  Lemma at_inj p q : p < tot -> q < tot -> at_name p = at_name q -> p = q.
  Proof. intros Hp Hq E. apply idat_inj; [exact Hp|exact Hq|]. apply (pa_inj _ _ _ _ _ PA); [rewrite length_created; now apply idat_lt..|exact E]. Qed.
  Definition at_con (x : nat * string * string * nat) : connection := match x with (a, o, i, b) => mkCon (at_name a) o (at_name b) i end.
  Lemma wires_in a o i b : In (a, o, i, b) wires -> default_input i = i.
  Proof. intros H. destruct (wires_inv _ _ _ _ H) as [[_ [_ [-> _]]]|[[_ [_ [-> _]]]|[[_ [_ [-> _]]]|[k [_ [[_ [_ [-> _]]]|[_ [_ [-> _]]]]]]]]]; reflexivity. Qed.
  Lemma cns_iff k : In k cns <-> exists x, In x wires /\ k = at_con x.
  Proof.
    split.
    - intros H. apply (Permutation_in _ (pa_perm _ _ _ _ _ PA)), in_map_iff in H. destruct H as [x [<- H]]. apply wirings_ops, in_map_iff in H. destruct H as [[[[a o] i] b] [<- H]]. exists (a, o, i, b). split; [exact H|]. cbn. unfold at_name. now rewrite (wires_in a o i b H).
    - intros [[[[a o] i] b] [H ->]]. apply (Permutation_in _ (Permutation_sym (pa_perm _ _ _ _ _ PA))). apply in_map_iff. exists (idat a, o, i, idat b). split; [cbn; unfold at_name; now rewrite (wires_in a o i b H)|now apply wired_at].
  Qed.
  Definition names : list string := map at_name (seq 0 tot).
  Lemma nth_names p : p < tot -> nth_error names p = Some (at_name p).
  Proof. intros H. unfold names. apply map_nth_error. rewrite (nth_error_nth' _ 0) by (rewrite seq_length; lia). now rewrite seq_nth by lia. Qed.
  Lemma nth_names_inv p x : nth_error names p = Some x -> p < tot /\ x = at_name p.
  Proof. intros H. assert (p < tot) by (assert (Hl : p < length names) by (apply nth_error_Some; congruence); unfold names in Hl; now rewrite map_length, seq_length in Hl). split; [assumption|]. rewrite nth_names in H by assumption. congruence. Qed.
  Lemma names_perm : Permutation (map fst ar) names.
  Proof. rewrite (pa_keys _ _ _ _ _ PA), length_created. unfold names, at_name. rewrite <- (map_map idat nm). apply Permutation_map. symmetry. exact idat_perm. Qed.
  Lemma order_names : get_canonical_layer_order (raw_of ar) = OrderOk names.
  Proof.
    apply chain_order with (cns := cns).
    - exact (pa_cns _ _ _ _ _ PA).
    - rewrite dkeys_raw. exact names_perm.
    - eapply Permutation_NoDup; [exact names_perm|exact (pa_nodup _ _ _ _ _ PA)].
    - intros k Hk. apply cns_iff in Hk. destruct Hk as [[[[a o] i] b] [H ->]]. destruct (wires_lt _ _ _ _ H). exists a, b. split; [lia|]. cbn. split; apply nth_names; lia.
    - intros p x y Hx Hy. destruct (nth_names_inv _ _ Hx) as [Hp ->], (nth_names_inv _ _ Hy) as [Hq ->]. destruct (next_wire p Hq) as [o [i W]]. exists (at_con (p, o, i, S p)). split; [apply cns_iff; eauto|split; reflexivity].
  Qed.
  Definition base_name (p : nat) (s : string) : Prop := p < tot /\ nth_error (created ops) (idat p) = Some s /\ (forall y, nth_error (created ops) y = Some s -> y = idat p).
  Lemma base_at p s : base_name p s -> at_name p = s.
  Proof. intros [_ [H U]]. now apply (pa_base _ _ _ _ _ PA). Qed.
  Lemma unshared s x : nth_error (["Output_projection"; "Output"; "Input"] ++ (if masked then ["Mask"] else []) ++ ["Loss"]) x = Some s -> ~ In s item_types ->
    forall y, nth_error (created ops) y = Some s -> y = x.
  Proof.
    intros H NI y Hy. rewrite created_ops in Hy. assert (NDs : NoDup (["Output_projection"; "Output"; "Input"] ++ (if masked then ["Mask"] else []) ++ ["Loss"])) by (destruct masked; repeat constructor; cbn; intuition discriminate).
    set (B := ["Output_projection"; "Output"; "Input"] ++ (if masked then ["Mask"] else []) ++ ["Loss"]) in *.
    replace (["Output_projection"; "Output"; "Input"] ++ (if masked then ["Mask"] else []) ++ ["Loss"] ++ map fst items) with (B ++ map fst items) in Hy by (unfold B; now rewrite <- !app_assoc). clearbody B.
    destruct (Nat.lt_ge_cases y (length B)) as [Lt|Ge].
    - rewrite nth_error_app1 in Hy by exact Lt. apply (proj1 (NoDup_nth_error B) NDs); congruence.
    - exfalso. apply NI. rewrite nth_error_app2 in Hy by exact Ge. apply nth_error_In, in_map_iff in Hy. destruct Hy as [it [<- Hit]]. now apply L_types.
  Qed.
  Lemma input_name : at_name 0 = "Input".
  Proof.
    apply base_at. split; [rewrite tot_eq; destruct masked; lia|]. change (idat 0) with 2. split; [rewrite created_ops; reflexivity|]. apply unshared; [reflexivity|cbn; intuition discriminate].
  Qed.
  Lemma output_name : at_name (L + 2) = "Output".
  Proof.
    apply base_at. split; [rewrite tot_eq; destruct masked; lia|]. rewrite idat_end by lia. cbn [Nat.leb Nat.sub]. split; [rewrite created_ops; reflexivity|]. apply unshared; [reflexivity|cbn; intuition discriminate].
  Qed.
  Lemma loss_name : at_name (tot - 1) = "Loss".
  Proof.
    apply base_at. split; [rewrite tot_eq; destruct masked; lia|]. replace (idat (tot - 1)) with (n0 - 1) by (rewrite tot_eq; unfold n0; destruct masked; [replace (L + 5 - 1) with (L + 4) by lia|replace (L + 4 - 1) with (L + 3) by lia]; rewrite idat_end by lia; reflexivity).
    split; [rewrite created_ops; unfold n0; destruct masked; reflexivity|]. apply unshared; [unfold n0; destruct masked; reflexivity|cbn; intuition discriminate].
  Qed.
  Lemma accepted : validate_architecture (raw_of ar) = Accepted.
  Proof.
    apply (program_validated ops kws nm ar cns 2 PA).
    - exact input_name.
    - rewrite types_ops. reflexivity.
    - rewrite length_created, tot_eq. destruct masked; lia.
    - intros a o i b H. apply wirings_ops, in_map_iff in H. destruct H as [[[[a' o'] i'] b'] [[= <- <- <- <-] H]]. destruct (wires_lt _ _ _ _ H). rewrite length_created. split; [apply idat_lt; lia|]. intros E. change 2 with (idat 0) in E. apply idat_inj in E; lia.
  Qed.
  Lemma instantiate_names : instantiate ar = instantiate_loop ar cns names [].
  Proof. unfold instantiate. rewrite accepted, (pa_cns _ _ _ _ _ PA), order_names. reflexivity. Qed.
  (** The description of the layer at a position *)
  Definition call_at (p : nat) : option layer_call := nth_error (base_calls ++ items) (idat p).
  Lemma entry_at p c : call_at p = Some c -> exists d, dget (at_name p) ar = Some (mkRaw (TypeString (fst c)) (OutDict d), snd c).
  Proof.
    intros H. unfold call_at in H. destruct (pa_entry _ _ _ _ _ PA (idat p) (fst c)) as [d Hd]; [rewrite types_ops; now apply map_nth_error|]. exists d. unfold at_name. rewrite Hd. repeat f_equal. unfold kws.
    change ([] : kwargs) with (snd ("", [] : kwargs)). rewrite map_nth. f_equal. now apply nth_error_nth with (d := ("", [])).
  Qed.
  Lemma call_item j it : nth_error items j = Some it -> call_at (S j) = Some it.
  Proof.
    intros H. assert (j < L) by (apply nth_error_Some; congruence). unfold call_at. rewrite idat_item by assumption. rewrite nth_error_app2; replace (length base_calls) with n0 by (unfold base_calls, end_calls, n0; destruct masked; reflexivity); [|lia]. now replace (n0 + j - n0) with j by lia.
  Qed.
  Lemma call_input : call_at 0 = Some input_call. Proof. reflexivity. Qed.
  Lemma call_proj : call_at (L + 1) = Some proj_call. Proof. unfold call_at. rewrite idat_end by lia. reflexivity. Qed.
  Lemma call_output : call_at (L + 2) = Some (ty, []). Proof. unfold call_at. rewrite idat_end by lia. reflexivity. Qed.
  Lemma call_mask : masked = true -> call_at (L + 3) = Some ("Mask", []).
  Proof. intros E. unfold call_at. rewrite idat_end by lia. unfold base_calls, end_calls. rewrite E. reflexivity. Qed.
  Lemma call_loss : call_at (tot - 1) = Some ("Loss", [("importance", KNum 1)]).
  Proof.
    unfold call_at. rewrite tot_eq. unfold base_calls, end_calls. destruct masked; [replace (L + 5 - 1) with (L + 4) by lia|replace (L + 4 - 1) with (L + 3) by lia]; rewrite idat_end by lia; reflexivity.
  Qed.
  (** Connections of the layer at a position *)
  Definition ends p := con_set (fun k => String.eqb (c_end k) (at_name p)) cns.
  Definition starts p := con_set (fun k => String.eqb (c_start k) (at_name p)) cns.
  Lemma ends_iff p k : p < tot -> (In k (ends p) <-> exists a o i, In (a, o, i, p) wires /\ k = mkCon (at_name a) o (at_name p) i).
  Proof.
    intros Hp. unfold ends. rewrite con_set_In, cns_iff. split.
    - intros [[[[[a o] i] b] [H ->]] E]. cbn in E. apply String.eqb_eq in E. destruct (wires_lt _ _ _ _ H). apply at_inj in E; [|lia|lia]. subst b. exists a, o, i. split; [exact H|reflexivity].
    - intros [a [o [i [H ->]]]]. split; [exists (a, o, i, p); split; [exact H|reflexivity]|apply String.eqb_refl].
  Qed.
  Lemma starts_iff p k : p < tot -> (In k (starts p) <-> exists b o i, In (p, o, i, b) wires /\ k = mkCon (at_name p) o (at_name b) i).
  Proof.
    intros Hp. unfold starts. rewrite con_set_In, cns_iff. split.
    - intros [[[[[a o] i] b] [H ->]] E]. cbn in E. apply String.eqb_eq in E. destruct (wires_lt _ _ _ _ H). apply at_inj in E; [|lia|lia]. subst a. exists b, o, i. split; [exact H|reflexivity].
    - intros [b [o [i [H ->]]]]. split; [exists (p, o, i, b); split; [exact H|reflexivity]|apply String.eqb_refl].
  Qed.
  Lemma ends_one p a o i : p < tot -> In (a, o, i, p) wires -> (forall a' o' i', In (a', o', i', p) wires -> (a', o', i') = (a, o, i)) -> ends p = [mkCon (at_name a) o (at_name p) i].
  Proof.
    intros Hp H U. apply con_one. intros k. transitivity (In k (ends p)); [symmetry; apply con_set_In|]. rewrite ends_iff by exact Hp. split.
    - intros [a' [o' [i' [H' ->]]]]. specialize (U _ _ _ H'). now injection U as -> -> ->.
    - intros ->. now exists a, o, i.
  Qed.
  Lemma ends_two p a1 o1 i1 a2 o2 i2 : p < tot -> i1 <> i2 -> In (a1, o1, i1, p) wires -> In (a2, o2, i2, p) wires -> (forall a' o' i', In (a', o', i', p) wires -> (a', o', i') = (a1, o1, i1) \/ (a', o', i') = (a2, o2, i2)) ->
    Permutation (ends p) [mkCon (at_name a1) o1 (at_name p) i1; mkCon (at_name a2) o2 (at_name p) i2].
  Proof.
    intros Hp N H1 H2 U. apply con_two; [congruence|]. intros k. transitivity (In k (ends p)); [symmetry; apply con_set_In|]. rewrite ends_iff by exact Hp. split.
    - intros [a' [o' [i' [H' ->]]]]. destruct (U _ _ _ H') as [[= -> -> ->]|[= -> -> ->]]; tauto.
    - intros [->| ->]; eauto.
  Qed.
  Lemma into_chain p : 0 < p <= L + 1 -> ends p = [mkCon (at_name (p - 1)) "default" (at_name p) "default"].
  Proof.
    intros Hp. apply ends_one; [rewrite tot_eq; destruct masked; lia| |].
    - assert (H := in_wires_chain (p - 1) ltac:(lia)). now replace (S (p - 1)) with p in H by lia.
    - intros a o i H. destruct (wires_inv _ _ _ _ H) as [[Ha [-> [-> ->]]]|[[_ [_ [_ E]]]|[[_ [_ [_ E]]]|[k [_ [[_ [_ [_ E]]]|[_ [_ [_ E]]]]]]]]]; try lia. f_equal. f_equal. lia.
  Qed.
  Lemma into_output : Permutation (ends (L + 2)) [mkCon (at_name (L + 1)) "default" (at_name (L + 2)) "default"; mkCon (at_name 0) tn (at_name (L + 2)) "targets"].
  Proof.
    apply ends_two; [rewrite tot_eq; destruct masked; lia|discriminate| |exact in_wires_targets|].
    - assert (H := in_wires_chain (L + 1) ltac:(lia)). now replace (S (L + 1)) with (L + 2) in H by lia.
    - intros a o i H. destruct (wires_inv _ _ _ _ H) as [[Ha [-> [-> E]]]|[[-> [-> [-> E]]]|[[_ [_ [_ E]]]|[k [_ [[_ [_ [_ E]]]|[_ [_ [_ E]]]]]]]]]; try lia; [left|now right]. f_equal. f_equal. lia.
  Qed.
  Lemma into_mask k : mask = Some k -> Permutation (ends (L + 3)) [mkCon (at_name (L + 2)) "loss" (at_name (L + 3)) "default"; mkCon (at_name 0) k (at_name (L + 3)) "mask"].
  Proof.
    intros Ek. apply ends_two; [rewrite tot_eq; unfold masked; rewrite Ek; lia|discriminate|exact in_wires_loss|now apply in_wires_mask|].
    intros a o i H. destruct (wires_inv _ _ _ _ H) as [[Ha [-> [-> E]]]|[[-> [-> [-> E]]]|[[-> [-> [-> E]]]|[k' [Ek' [[_ [_ [_ E]]]|[-> [-> [-> E]]]]]]]]]; try lia; [now left|right]. congruence.
  Qed.
  Lemma into_loss : ends (tot - 1) = [mkCon (at_name (tot - 2)) (if masked then "default" else "loss") (at_name (tot - 1)) "default"].
  Proof.
    rewrite tot_eq. destruct masked eqn:Em.
    - replace (L + 5 - 2) with (L + 3) by lia. replace (L + 5 - 1) with (L + 4) by lia. assert (Ek : exists k, mask = Some k) by (unfold masked in Em; clear - Em; destruct mask as [k|]; [now exists k|discriminate]). destruct Ek as [k Ek]. apply ends_one; [rewrite tot_eq; unfold masked; rewrite Ek; lia|now apply (in_wires_mask k)|].
      intros a o i H. destruct (wires_inv _ _ _ _ H) as [[Ha [-> [-> E]]]|[[-> [-> [-> E]]]|[[-> [-> [-> E]]]|[k' [Ek' [[-> [-> [-> E]]]|[-> [-> [-> E]]]]]]]]]; try lia. reflexivity.
    - replace (L + 4 - 2) with (L + 2) by lia. replace (L + 4 - 1) with (L + 3) by lia. apply ends_one; [rewrite tot_eq, Em; lia|exact in_wires_loss|].
      unfold masked in Em. intros a o i H. destruct (wires_inv _ _ _ _ H) as [[Ha [-> [-> E]]]|[[-> [-> [-> E]]]|[[-> [-> [-> E]]]|[k' [Ek' [[-> [-> [-> E]]]|[-> [-> [-> E]]]]]]]]]; try lia; try reflexivity; rewrite Ek' in Em; discriminate.
  Qed.
  Lemma into_input : ends 0 = [].
  Proof. apply con_none. intros k Hk. apply cns_iff in Hk. destruct Hk as [[[[a o] i] b] [H ->]]. cbn. destruct (wires_lt _ _ _ _ H). apply String.eqb_neq. intros E. apply at_inj in E; [lia|lia|]. rewrite tot_eq. destruct masked; lia. Qed.
  Lemma from_input k : In k (starts 0) -> In (c_out k) (map fst shapes).
  Proof.
    intros H. apply starts_iff in H; [|rewrite tot_eq; destruct masked; lia]. destruct H as [b [o [i [H ->]]]]. cbn [c_out]. unfold shapes. rewrite map_app. apply in_or_app.
    destruct (wires_inv _ _ _ _ H) as [[Ha [-> [-> E]]]|[[_ [-> [-> E]]]|[[Ha [-> [-> E]]]|[k' [Ek' [[Ha [-> [-> E]]]|[_ [-> [-> E]]]]]]]]]; try lia; [left; now left|left; right; now left|right; rewrite Ek'; now left].
  Qed.
  Lemma from_chain p : 0 < p <= L + 1 -> to_default (starts p).
  Proof.
    intros Hp k H. apply starts_iff in H; [|rewrite tot_eq; destruct masked; lia]. destruct H as [b [o [i [H ->]]]]. cbn [c_out].
    destruct (wires_inv _ _ _ _ H) as [[Ha [-> [-> E]]]|[[Ha [-> [-> E]]]|[[Ha [-> [-> E]]]|[k' [Ek' [[Ha [-> [-> E]]]|[Ha [-> [-> E]]]]]]]]]; try lia; reflexivity.
  Qed.
  Lemma from_output k : In k (starts (L + 2)) -> c_out k = "loss".
  Proof.
    intros H. apply starts_iff in H; [|rewrite tot_eq; destruct masked; lia]. destruct H as [b [o [i [H ->]]]]. cbn [c_out].
    destruct (wires_inv _ _ _ _ H) as [[Ha [-> [-> E]]]|[[Ha [-> [-> E]]]|[[Ha [-> [-> E]]]|[k' [Ek' [[Ha [-> [-> E]]]|[Ha [-> [-> E]]]]]]]]]; try lia; reflexivity.
  Qed.
  Lemma from_mask : masked = true -> to_default (starts (L + 3)).
  Proof.
    intros Em k H. apply starts_iff in H; [|rewrite tot_eq, Em; lia]. destruct H as [b [o [i [H ->]]]]. cbn [c_out].
    destruct (wires_inv _ _ _ _ H) as [[Ha [-> [-> E]]]|[[Ha [-> [-> E]]]|[[Ha [-> [-> E]]]|[k' [Ek' [[Ha [-> [-> E]]]|[Ha [-> [-> E]]]]]]]]]; try lia; reflexivity.
  Qed.
  Lemma from_loss : starts (tot - 1) = [].
  Proof.
    apply con_none. intros k Hk. apply cns_iff in Hk. destruct Hk as [[[[a o] i] b] [H ->]]. cbn. destruct (wires_lt _ _ _ _ H). apply String.eqb_neq. intros E. apply at_inj in E; lia.
  Qed.

  (** The layers and what they are *)
  Definition fact (p : nat) (l : linst) : Prop := li_name l = at_name p /\ li_incoming l = ends p /\ li_outgoing l = starts p /\ sizes_ok l.
  Inductive chained : list layer_call -> list linst -> list Z -> list Z -> Prop :=
  | ch_nil f : chained [] [] f f
  | ch_cons it r l ls f h ctx k : flows it f h -> li_cls l = class_of_type (fst it) -> li_in l = [("default", tb f 0 false)] -> li_out l = [("default", tb h ctx false)] -> supported l = true -> chained r ls h k -> chained (it :: r) (l :: ls) f k.
  Lemma numbered_grow layers l p : numbered at_name tot layers -> length layers = p -> p < tot -> fact p l -> numbered at_name tot (layers ++ [l]).
  Proof. intros H E Hp [F _]. exact (grow at_name tot layers l p H E Hp F). Qed.
  Lemma component_default : component "default". Proof. now apply component_b_ok. Qed.
  Lemma add_items post : forall pre f layers last ctx, items = pre ++ post -> run_flows post f g -> f <> [] -> nn f ->
    numbered at_name tot layers -> length layers = S (length pre) -> nth_error layers (length pre) = Some last -> dget "default" (li_out last) = Some (tb f ctx false) ->
    exists ls ctx' last', instantiate_loop ar cns (map at_name (seq (S (length pre)) (length post))) layers = SOk (layers ++ ls) /\ numbered at_name tot (layers ++ ls) /\ length ls = length post /\
      chained post ls f g /\ (forall j l, nth_error ls j = Some l -> fact (S (length pre) + j) l) /\ nth_error (layers ++ ls) L = Some last' /\ dget "default" (li_out last') = Some (tb g ctx' false) /\ g <> [] /\ nn g.
  Proof.
    induction post as [|it r IH]; intros pre f layers last ctx E R Nf Pf Nu Ll Hlast Dl.
    - inversion R; subst. exists [], ctx, last. cbn. rewrite app_nil_r. rewrite app_nil_r in E. unfold L. rewrite E. split; [reflexivity|]. split; [exact Nu|]. split; [reflexivity|]. split; [constructor|]. split; [intros [|j] l; discriminate|]. repeat split; assumption.
    - inversion R as [|it' r' f' h g' FI RI]; subst it' r' f' g'. destruct (make_item it f h FI Nf Pf) as [Ph [Nh [GC [_ [ctx1 MK]]]]].
      assert (LL : L = length pre + S (length r)) by (unfold L; rewrite E, app_length; reflexivity). set (p := S (length pre)) in *.
      assert (Hp : 0 < p <= L) by (unfold p; lia). assert (Hpt : p < tot) by (rewrite tot_eq; destruct masked; lia).
      assert (Ein : ends p = [mkCon (at_name (length pre)) "default" (at_name p) "default"]) by (rewrite into_chain by lia; unfold p; now replace (S (length pre) - 1) with (length pre) by lia).
      destruct (MK (at_name p) (ends p) (starts p)) as [l [[M1 [M2 [M3 [M4 [M5 [M6 [M7 M8]]]]]]] M9]].
      { rewrite Ein. intros k [<-|[]]. reflexivity. } { apply from_chain. lia. }
      destruct (entry_at p it) as [d De]. { apply call_item. rewrite E. rewrite nth_error_app2, Nat.sub_diag by lia. reflexivity. }
      assert (St : instantiate_one ar cns layers (at_name p) = SOk (layers ++ [l])).
      { eapply step_one with (c := class_of_type (fst it)) (k := mkCon (at_name (length pre)) "default" (at_name p) "default") (f := f) (ctx := ctx); [exact De|exact GC|exact Ein|reflexivity| |exact Nf|].
        - apply (source_at at_name tot at_inj layers (length pre) last); [exact Nu|exact Hlast|exact component_default|exact Dl].
        - rewrite <- Ein. exact M1. }
      assert (Fa : fact p l) by (repeat split; assumption).
      assert (Nu' := numbered_grow layers l p Nu Ll Hpt Fa).
      destruct (IH (pre ++ [it]) h (layers ++ [l]) l ctx1) as [ls [ctx' [last' [H1 [H2 [H3 [H4 [H5 [H6 H7]]]]]]]]].
      { rewrite <- app_assoc. exact E. } { exact RI. } { exact Nh. } { exact Ph. } { exact Nu'. } { rewrite !app_length. cbn. lia. } { rewrite app_length. cbn. rewrite nth_error_app2 by lia. replace (length pre + 1 - length layers) with 0 by lia. reflexivity. } { rewrite M7. reflexivity. }
      assert (EL : length (pre ++ [it]) = p) by (rewrite app_length; cbn; unfold p; lia). rewrite EL in H1, H5.
      exists (l :: ls), ctx', last'. cbn [length seq map instantiate_loop]. rewrite St. cbn [sbind]. rewrite H1. rewrite <- app_assoc. cbn [app]. replace ((layers ++ [l]) ++ ls) with (layers ++ l :: ls) in H2, H6 by (now rewrite <- app_assoc).
      split; [reflexivity|]. split; [exact H2|]. split; [now rewrite H3|]. split; [econstructor; eassumption|]. split; [|split; [exact H6|exact H7]].
      intros [|j] l' Hj; cbn in Hj; [injection Hj as <-; rewrite Nat.add_0_r; exact Fa|]. replace (p + S j) with (S p + j) by lia. now apply H5.
  Qed.
  Lemma t_ok : t <> [] /\ nn t.
  Proof. destruct TASK as [[_ [_ ->]]|[[_ [_ ->]]|[_ [_ ->]]]]; (split; [discriminate|repeat constructor; lia]). Qed.
  Lemma shapes_ok x f : In (x, f) shapes -> (f <> [] /\ nn f) /\ component x.
  Proof.
    unfold shapes. intros H. destruct H as [[= <- <-]|[[= <- <-]|H]].
    - split; [now split|exact component_default].
    - split; [exact t_ok|apply TN].
    - destruct mask as [k|] eqn:Ek; [|contradiction]. destruct H as [[= <- <-]|[]]. split; [split; [discriminate|repeat constructor; lia]|apply (MASK k eq_refl)].
  Qed.
  Definition outs_of_input : list (string * bstruct) := map (fun e => (fst e, tb (snd e) 0 false)) shapes.
  Lemma out_default : dget "default" outs_of_input = Some (tb f0 0 false). Proof. reflexivity. Qed.
  Lemma out_targets : dget tn outs_of_input = Some (tb t 0 false).
  Proof. unfold outs_of_input, shapes. cbn [map app dget fst snd]. destruct TN as [_ H]. rewrite (proj2 (String.eqb_neq _ _) H), String.eqb_refl. reflexivity. Qed.
  Lemma out_mask k : mask = Some k -> dget k outs_of_input = Some (tb [1%Z] 0 false).
  Proof.
    intros E. destruct (MASK k E) as [_ [H1 H2]]. unfold outs_of_input, shapes. rewrite E. cbn [map app dget fst snd]. rewrite (proj2 (String.eqb_neq _ _) H1), (proj2 (String.eqb_neq _ _) H2), String.eqb_refl. reflexivity.
  Qed.
  Lemma class_ok : get_layer_class ty = SOk (class_of_type ty).
  Proof. destruct TASK as [[_ [-> _]]|[[_ [-> _]]|[_ [-> _]]]]; reflexivity. Qed.

  Record spec_layers (i : linst) (ls : list linst) (p o : linst) (rest : list linst) : Prop := mkSpecLayers {
    sl_input : li_cls i = CInput /\ li_in i = [] /\ li_out i = outs_of_input;
    sl_chain : chained items ls f0 g;
    sl_proj : li_cls p = CFullyConnected /\ li_in p = [("default", tb g 0 false)] /\ li_out p = [("default", tb [m] 0 false)];
    sl_output : li_cls o = class_of_type ty /\ li_in o = [("default", tb [m] 0 false); ("targets", tb t 0 false)] /\ li_out o = [("predictions", tb [m] 0 false); ("loss", tb t 0 false)];
    sl_rest : if masked then exists k l, rest = [k; l] /\ li_cls k = CMask /\ li_in k = [("default", tb t 0 false); ("mask", tb [1%Z] 0 false)] /\ li_cls l = CLoss /\ li_in l = [("default", tb t 0 false)]
              else exists l, rest = [l] /\ li_cls l = CLoss /\ li_in l = [("default", tb t 0 false)];
    sl_facts : forall q l, nth_error (i :: ls ++ [p; o] ++ rest) q = Some l -> fact q l;
    sl_supported : forall l, In l (ls ++ [p; o] ++ rest) -> supported l = true
  }.
  Lemma chained_supported its ls f h : chained its ls f h -> forall l, In l ls -> supported l = true.
  Proof. induction 1; intros x Hx; [contradiction|]. destruct Hx as [<-|Hx]; auto. Qed.
  Lemma facts_app layers l p : (forall q x, nth_error layers q = Some x -> fact q x) -> length layers = p -> fact p l -> forall q x, nth_error (layers ++ [l]) q = Some x -> fact q x.
  Proof.
    intros H E F q x Hq. destruct (Nat.lt_ge_cases q (length layers)) as [Lt|Ge]; [rewrite nth_error_app1 in Hq by exact Lt; auto|]. rewrite nth_error_app2 in Hq by exact Ge. destruct (q - length layers) as [|[|]] eqn:Eq; cbn in Hq; try discriminate. injection Hq as <-. now replace q with p by lia.
  Qed.
  Lemma network_layers : exists i ls p o rest, instantiate ar = SOk (i :: ls ++ [p; o] ++ rest) /\ spec_layers i ls p o rest.
  Proof.
    rewrite instantiate_names.
    assert (T0 : 0 < tot) by (rewrite tot_eq; destruct masked; lia).
    (* Input *)
    destruct (make_input (at_name 0) shapes (starts 0)) as [i [I1 [I2 [I3 [I4 [I5 [I6 [I7 I8]]]]]]]].
    { intros x f H. now destruct (shapes_ok x f H). }
    { intros k Hk. assert (H := from_input k Hk). split; [exact H|]. apply in_map_iff in H. destruct H as [[x f] [E H]]. cbn [fst] in E. rewrite <- E. apply component_not_dotted. now destruct (shapes_ok x f H). }
    destruct (entry_at 0 input_call call_input) as [d0 D0].
    assert (S0 : instantiate_one ar cns [] (at_name 0) = SOk [i]). { apply (step_input ar cns at_name [] 0 (OutDict d0) (snd input_call)); [exact D0|exact into_input|exact I1]. }
    assert (Fi : fact 0 i) by (repeat split; [exact I3|rewrite into_input; exact I4|exact I5|exact I8]).
    assert (N1 : numbered at_name tot [i]) by (split; cbn; [now rewrite I3|lia]).
    (* items *)
    destruct (add_items items [] f0 [i] i 0 eq_refl FLOW F0 P0 N1 eq_refl eq_refl) as [ls [ctx [last [A1 [A2 [A3 [A4 [A5 [A6 [A7 [A8 A9]]]]]]]]]]].
    { rewrite I7. exact out_default. }
    set (l1 := [i] ++ ls) in *. assert (Ll1 : length l1 = L + 1) by (unfold l1; rewrite app_length, A3; cbn; unfold L; lia).
    assert (Fl1 : forall q x, nth_error l1 q = Some x -> fact q x). { intros [|q] x Hq; cbn in Hq; [now injection Hq as <-|]. exact (A5 q x Hq). }
    (* projection *)
    assert (T1 : L + 1 < tot) by (rewrite tot_eq; destruct masked; lia).
    assert (Ein : ends (L + 1) = [mkCon (at_name L) "default" (at_name (L + 1)) "default"]) by (rewrite into_chain by lia; now replace (L + 1 - 1) with L by lia).
    destruct (make_projection m g (at_name (L + 1)) (ends (L + 1)) (starts (L + 1))) as [p [[P1 [P2 [P3 [P4 [P5 [P6 [P7 P8]]]]]]] P9]]; [lia|exact A8|exact A9|rewrite Ein; intros k [<-|[]]; reflexivity|apply from_chain; lia|].
    destruct (entry_at (L + 1) proj_call call_proj) as [d1 D1].
    assert (S1 : instantiate_one ar cns l1 (at_name (L + 1)) = SOk (l1 ++ [p])).
    { eapply step_one with (c := CFullyConnected) (f := g) (ctx := ctx); [exact D1|reflexivity|exact Ein|reflexivity| |exact A8|].
      - apply (source_at at_name tot at_inj l1 L last); [exact A2|exact A6|exact component_default|exact A7].
      - rewrite <- Ein. exact P1. }
    assert (Fp : fact (L + 1) p) by (repeat split; assumption).
    assert (N2 := numbered_grow l1 p (L + 1) A2 Ll1 T1 Fp). assert (Fl2 := facts_app l1 p (L + 1) Fl1 Ll1 Fp). set (l2 := l1 ++ [p]) in *. assert (Ll2 : length l2 = L + 2) by (unfold l2; rewrite app_length, Ll1; cbn; lia).
    assert (G0 : nth_error l2 0 = Some i) by reflexivity. assert (Gp : nth_error l2 (L + 1) = Some p) by (unfold l2; rewrite nth_error_app2 by lia; now rewrite Ll1, Nat.sub_diag).
    (* output *)
    assert (T2 : L + 2 < tot) by (rewrite tot_eq; destruct masked; lia).
    destruct (entry_at (L + 2) (ty, []) call_output) as [d2 D2]. cbn [fst snd] in D2.
    destruct (step_two ar cns at_name l2 (L + 2) ty (class_of_type ty) (OutDict d2) [] _ _ [m] t 0 0 D2 class_ok into_output) as [ins [Pins K2]].
    { discriminate. } { apply (source_at at_name tot at_inj l2 (L + 1) p); [exact N2|exact Gp|exact component_default|rewrite P7; reflexivity]. }
    { apply (source_at at_name tot at_inj l2 0 i); [exact N2|exact G0|apply TN|rewrite I7; exact out_targets]. } { discriminate. } { apply t_ok. }
    cbn [c_in] in Pins.
    destruct (make_output task ty m t (at_name (L + 2)) ins (ends (L + 2)) (starts (L + 2)) TASK M0 Pins) as [o [O1 [O2 [O3 [O4 [O5 [O6 [O7 [O8 [O9 _]]]]]]]]]].
    { intros k Hk. apply (Permutation_in _ into_output) in Hk. destruct Hk as [<-|[<-|[]]]; cbn; tauto. } { exact from_output. }
    assert (S2 := K2 o O1).
    assert (Fo : fact (L + 2) o) by (repeat split; assumption).
    assert (N3 := numbered_grow l2 o (L + 2) N2 Ll2 T2 Fo). assert (Fl3 := facts_app l2 o (L + 2) Fl2 Ll2 Fo). set (l3 := l2 ++ [o]) in *. assert (Ll3 : length l3 = L + 3) by (unfold l3; rewrite app_length, Ll2; cbn; lia).
    assert (H0 : nth_error l3 0 = Some i) by reflexivity. assert (Ho : nth_error l3 (L + 2) = Some o) by (unfold l3; rewrite nth_error_app2 by lia; now rewrite Ll2, Nat.sub_diag).
    assert (Names : names = [at_name 0] ++ map at_name (seq 1 (length items)) ++ [at_name (L + 1)] ++ [at_name (L + 2)] ++ (if masked then [at_name (L + 3)] else []) ++ [at_name (tot - 1)]).
    { unfold names. rewrite tot_eq. destruct masked.
      - replace (L + 5) with (1 + (length items + 4)) by (unfold L; lia). rewrite !seq_app, !map_app. cbn [seq map app Nat.add]. unfold L. replace (S (length items + 4) - 1) with (S (S (S (S (length items))))) by lia. replace (length items + 1) with (S (length items)) by lia. replace (length items + 2) with (S (S (length items))) by lia. replace (length items + 3) with (S (S (S (length items)))) by lia. reflexivity.
      - replace (L + 4) with (1 + (length items + 3)) by (unfold L; lia). rewrite !seq_app, !map_app. cbn [seq map app Nat.add]. unfold L. replace (S (length items + 3) - 1) with (S (S (S (length items)))) by lia. replace (length items + 1) with (S (length items)) by lia. replace (length items + 2) with (S (S (length items))) by lia. reflexivity. }
    assert (B0 : instantiate_loop ar cns [at_name 0] [] = SOk [i]) by (cbn [instantiate_loop]; rewrite S0; reflexivity).
    assert (B1 : instantiate_loop ar cns [at_name (L + 1)] l1 = SOk l2) by (cbn [instantiate_loop]; rewrite S1; reflexivity).
    assert (B2 : instantiate_loop ar cns [at_name (L + 2)] l2 = SOk l3) by (cbn [instantiate_loop]; rewrite S2; reflexivity).
    rewrite Names, (loop_app _ _ _ _ _ _ B0). cbn [length] in A1. rewrite (loop_app _ _ _ _ _ _ A1). fold l1. rewrite (loop_app _ _ _ _ _ _ B1), (loop_app _ _ _ _ _ _ B2).
    destruct t_ok as [Nt Pt].
    assert (Ln : at_name (tot - 1) <> "total_loss") by (rewrite loss_name; discriminate).
    destruct (entry_at (tot - 1) _ call_loss) as [d4 D4]. cbn [fst snd] in D4.
    destruct (make_loss t (at_name (tot - 1)) (ends (tot - 1)) Nt Pt Ln) as [l [Z1 [Z2 [Z3 [Z4 [Z5 [Z6 [Z7 [Z8 Z9]]]]]]]]]; [rewrite into_loss; intros k [<-|[]]; reflexivity|].
    assert (Fl : fact (tot - 1) l) by (split; [exact Z3|split; [exact Z4|split; [rewrite from_loss; exact Z5|exact Z8]]]).
    assert (Finish : forall layers src out, numbered at_name tot layers -> nth_error layers (tot - 2) = Some src -> component out -> dget out (li_out src) = Some (tb t 0 false) -> ends (tot - 1) = [mkCon (at_name (tot - 2)) out (at_name (tot - 1)) "default"] ->
      instantiate_loop ar cns [at_name (tot - 1)] layers = SOk (layers ++ [l])).
    { intros layers src out Nu Hs Co Do Ei. cbn [instantiate_loop].
      assert (Sl : instantiate_one ar cns layers (at_name (tot - 1)) = SOk (layers ++ [l])); [|rewrite Sl; reflexivity].
      eapply step_one with (c := CLoss) (f := t) (ctx := 0%Z); [exact D4|reflexivity|exact Ei|reflexivity| |exact Nt|].
      - now apply (source_at at_name tot at_inj layers (tot - 2) src).
      - rewrite <- Ei. change (con_set (fun k : connection => String.eqb (c_start k) (at_name (tot - 1))) cns) with (starts (tot - 1)). rewrite from_loss. exact Z1. }
    assert (EI := into_loss). destruct masked eqn:Em.
    - assert (Ek : exists k, mask = Some k) by (unfold masked in Em; clear - Em; destruct mask as [k|]; [now exists k|discriminate]). destruct Ek as [k Ek].
      assert (T3 : L + 3 < tot) by (rewrite tot_eq, Em; lia).
      destruct (entry_at (L + 3) _ (call_mask Em)) as [d3 D3]. cbn [fst snd] in D3.
      destruct (step_two ar cns at_name l3 (L + 3) "Mask" CMask (OutDict d3) [] _ _ t [1%Z] 0 0 D3 eq_refl (into_mask k Ek)) as [insk [Pk K3]].
      { discriminate. } { apply (source_at at_name tot at_inj l3 (L + 2) o); [exact N3|exact Ho|now apply component_b_ok|rewrite O7; reflexivity]. }
      { apply (source_at at_name tot at_inj l3 0 i); [exact N3|exact H0|apply (MASK k Ek)|rewrite I7; now apply out_mask]. } { exact Nt. } { discriminate. }
      cbn [c_in] in Pk.
      destruct (make_mask t (at_name (L + 3)) insk (ends (L + 3)) (starts (L + 3)) Nt Pt Pk) as [q [Q1 [Q2 [Q3 [Q4 [Q5 [Q6 [Q7 [Q8 Q9]]]]]]]]].
      { intros c Hc. apply (Permutation_in _ (into_mask k Ek)) in Hc. destruct Hc as [<-|[<-|[]]]; cbn; tauto. } { exact (from_mask Em). }
      assert (S3 := K3 q Q1). assert (Fq : fact (L + 3) q) by (repeat split; assumption).
      assert (N4 := numbered_grow l3 q (L + 3) N3 Ll3 T3 Fq). assert (Fl4 := facts_app l3 q (L + 3) Fl3 Ll3 Fq). set (l4 := l3 ++ [q]) in *. assert (Ll4 : length l4 = L + 4) by (unfold l4; rewrite app_length, Ll3; cbn; lia).
      assert (B3 : instantiate_loop ar cns [at_name (L + 3)] l3 = SOk l4) by (cbn [instantiate_loop]; rewrite S3; reflexivity).
      rewrite (loop_app _ _ _ _ _ _ B3).
      assert (Et : tot - 2 = L + 3) by (rewrite tot_eq, Em; lia).
      rewrite (Finish l4 q "default"); [|exact N4|rewrite Et; unfold l4; rewrite nth_error_app2 by lia; now rewrite Ll3, Nat.sub_diag|exact component_default|rewrite Q7; reflexivity|exact EI].
      assert (Fl5 := facts_app l4 l (tot - 1) Fl4 ltac:(rewrite Ll4, tot_eq, Em; lia) Fl).
      exists i, ls, p, o, [q; l]. assert (El : l4 ++ [l] = i :: ls ++ [p; o] ++ [q; l]) by (unfold l4, l3, l2, l1; rewrite <- !app_assoc; reflexivity). rewrite El in *.
      split; [reflexivity|]. constructor; auto.
      + rewrite Em. exists q, l. repeat split; assumption.
      + intros x Hx. apply in_app_or in Hx. destruct Hx as [Hx|[<-|[<-|[<-|[<-|[]]]]]]; auto. eapply chained_supported; eassumption.
    - rewrite app_nil_l. assert (Et : tot - 2 = L + 2) by (rewrite tot_eq, Em; lia).
      rewrite (Finish l3 o "loss"); [|exact N3|rewrite Et; exact Ho|now apply component_b_ok|rewrite O7; reflexivity|exact EI].
      assert (Fl5 := facts_app l3 l (tot - 1) Fl3 ltac:(rewrite Ll3, tot_eq, Em; lia) Fl).
      exists i, ls, p, o, [l]. assert (El : l3 ++ [l] = i :: ls ++ [p; o] ++ [l]) by (unfold l3, l2, l1; rewrite <- !app_assoc; reflexivity). rewrite El in *.
      split; [reflexivity|]. constructor; auto.
      + rewrite Em. exists l. repeat split; assumption.
      + intros x Hx. apply in_app_or in Hx. destruct Hx as [Hx|[<-|[<-|[<-|[]]]]]; auto. eapply chained_supported; eassumption.
  Qed.
  (** What training needs *)
  Lemma spec_named : named ar.
  Proof.
    constructor; [exact (pa_nodup _ _ _ _ _ PA)|]. intros n r kw H E. destruct (pa_all _ _ _ _ _ PA _ _ H) as [x [ty' [d [Hx [-> [Ht [= -> ->]]]]]]]. cbn in E. injection E as ->.
    assert (X : x = 2).
    { rewrite types_ops in Ht. unfold base_calls in Ht. rewrite <- app_assoc, map_app in Ht. destruct x as [|[|[|x]]]; cbn in Ht.
      - discriminate.
      - exfalso. destruct TASK as [[_ [E _]]|[[_ [E _]]|[_ [E _]]]]; rewrite E in Ht; discriminate.
      - reflexivity.
      - exfalso. apply nth_error_In, in_map_iff in Ht. destruct Ht as [it [Et Hit]]. apply in_app_or in Hit. destruct Hit as [Hit|Hit].
        + unfold end_calls in Hit. destruct masked; cbn in Hit; intuition (subst; discriminate).
        + assert (T := L_types it Hit). rewrite Et in T. cbn in T. intuition discriminate. }
    subst x. assert (EN : input_names (nth 2 kws []) = map fst shapes).
    { change (nth 2 kws []) with [("out_shapes", KDict (map shape_entry shapes))]. unfold input_names. change (dget "out_shapes" [("out_shapes", KDict (map shape_entry shapes))]) with (Some (KDict (map shape_entry shapes))). cbn iota. rewrite map_map. reflexivity. }
    change (names_good (input_names (nth 2 kws []))). rewrite EN. clear EN. split.
    - unfold shapes. destruct TN as [_ Td]. destruct mask as [k|] eqn:Ek; cbn [map app fst]; repeat constructor; cbn [In].
      + destruct (MASK k eq_refl) as [_ [K1 K2]]. intuition congruence. + destruct (MASK k eq_refl) as [_ [K1 K2]]. intuition congruence. + intuition. + intuition congruence. + intuition.
    - apply Forall_forall. intros x Ix. apply in_map_iff in Ix. destruct Ix as [[y f] [<- Hy]]. now destruct (shapes_ok y f Hy).
  Qed.
  Section Layers.
  Variables (i : linst) (ls : list linst) (p o : linst) (rest : list linst).
  Hypothesis SL : spec_layers i ls p o rest.
  Definition layers := i :: ls ++ [p; o] ++ rest.
  Lemma spec_nonnegative : nonnegative layers.
  Proof.
    intros l cat x b z Hl Hb Hz. apply In_nth_error in Hl. destruct Hl as [q Hq]. destruct (sl_facts _ _ _ _ _ SL q l Hq) as [_ [_ [_ S]]]. apply (S x b z); [|exact Hz].
    rewrite !in_app_iff. unfold buffers_of in Hb. repeat (destruct (String.eqb _ _); [tauto|]). destruct Hb.
  Qed.
  Lemma length_chained its l f h : chained its l f h -> length l = length its.
  Proof. induction 1; cbn; congruence. Qed.
  Lemma chained_classes its l f h : chained its l f h -> f <> [] -> nn f -> forall x, In x l -> out_names (li_cls x) = ["default"].
  Proof.
    induction 1 as [|it r x xs f h ctx k FI C1 C2 C3 C4 CH IH]; intros N P y Hy; [contradiction|]. destruct (make_item it f h FI N P) as [Ph [Nh [_ [T _]]]].
    destruct Hy as [<-|Hy]; [|now apply IH]. rewrite C1. cbn in T. repeat (destruct T as [<-|T]; [reflexivity|]). contradiction.
  Qed.
  Lemma source_default q l : 0 < q <= L + 1 -> nth_error layers q = Some l -> out_names (li_cls l) = ["default"].
  Proof.
    intros Hq H. assert (Ln := length_chained _ _ _ _ (sl_chain _ _ _ _ _ SL)). fold L in Ln. destruct q as [|q]; [lia|]. cbn in H. destruct (Nat.lt_ge_cases q (length ls)).
    - rewrite nth_error_app1 in H by assumption. eapply chained_classes; [exact (sl_chain _ _ _ _ _ SL)|exact F0|exact P0|eapply nth_error_In; eauto].
    - rewrite nth_error_app2 in H by assumption. replace (q - length ls) with 0 in H by lia. injection H as <-. destruct (sl_proj _ _ _ _ _ SL) as [-> _]. reflexivity.
  Qed.
  Lemma length_layers : length layers = tot.
  Proof.
    assert (Ln := length_chained _ _ _ _ (sl_chain _ _ _ _ _ SL)). unfold layers. cbn [length]. rewrite !app_length, Ln, tot_eq. fold L. assert (R := sl_rest _ _ _ _ _ SL). destruct masked; [destruct R as [k [l [-> _]]]|destruct R as [l [-> _]]]; cbn; lia.
  Qed.
  Lemma const_names_ok c : smem "default" (const_names c) = false. Proof. destruct c; reflexivity. Qed.
  Lemma at_output l : nth_error layers (L + 2) = Some l -> l = o.
  Proof.
    assert (Ln := length_chained _ _ _ _ (sl_chain _ _ _ _ _ SL)). fold L in Ln. replace (L + 2) with (S (L + 1)) by lia. cbn. rewrite nth_error_app2 by lia. replace (L + 1 - length ls) with 1 by lia. cbn. congruence.
  Qed.
  Lemma at_mask l : masked = true -> nth_error layers (L + 3) = Some l -> li_cls l = CMask.
  Proof.
    intros Em. assert (Ln := length_chained _ _ _ _ (sl_chain _ _ _ _ _ SL)). fold L in Ln. replace (L + 3) with (S (L + 2)) by lia. cbn. rewrite nth_error_app2 by lia. replace (L + 2 - length ls) with 2 by lia. cbn. assert (R := sl_rest _ _ _ _ _ SL). rewrite Em in R. destruct R as [k [z [-> [C _]]]]. cbn. congruence.
  Qed.
  Lemma layer_at q : q < tot -> exists l, nth_error layers q = Some l /\ li_name l = at_name q.
  Proof.
    intros H. rewrite <- length_layers in H. destruct (nth_error layers q) as [l|] eqn:E; [|apply nth_error_None in E; lia]. exists l. split; [reflexivity|]. apply (sl_facts _ _ _ _ _ SL q l E).
  Qed.
  Lemma const_at out q i0 : In out (map fst shapes) -> const_source layers (mkCon (at_name 0) out q i0) = true.
  Proof.
    intros H. unfold const_source, layers. cbn [c_start c_out]. destruct (sl_facts _ _ _ _ _ SL 0 i eq_refl) as [-> _]. rewrite String.eqb_refl. cbn [andb]. destruct (sl_input _ _ _ _ _ SL) as [_ [_ ->]]. apply PyFacts.smem_In. unfold outs_of_input. rewrite map_map. exact H.
  Qed.
  Lemma delta_at a out q i0 l : 0 < a -> nth_error layers a = Some l -> In out (out_names (li_cls l)) -> delta_source layers (mkCon (at_name a) out q i0) = true.
  Proof.
    intros Ha Hl Ho. unfold delta_source. apply orb_true_intro. right. apply existsb_exists. exists l. split.
    - destruct a as [|a]; [lia|]. cbn in Hl. unfold layers. cbn [tl]. eapply nth_error_In; eauto.
    - cbn [c_start c_out]. destruct (sl_facts _ _ _ _ _ SL a l Hl) as [-> _]. rewrite String.eqb_refl. now apply PyFacts.smem_In.
  Qed.
  Lemma shape_names : In "default" (map fst shapes) /\ In tn (map fst shapes) /\ (forall k, mask = Some k -> In k (map fst shapes)).
  Proof. unfold shapes. split; [now left|]. split; [right; now left|]. intros k ->. right. right. now left. Qed.
  Lemma spec_differentiable : differentiable layers = true.
  Proof.
    apply forallb_forall. intros l Hl. apply In_nth_error in Hl. destruct Hl as [q Hq]. assert (Hq' : nth_error layers (S q) = Some l) by exact Hq.
    destruct (sl_facts _ _ _ _ _ SL (S q) l Hq') as [_ [Ei _]]. rewrite Ei. assert (Lq : S q < tot) by (rewrite <- length_layers; apply nth_error_Some; congruence).
    apply forallb_forall. intros c Hc. apply ends_iff in Hc; [|exact Lq]. destruct Hc as [a [out [inp [W ->]]]]. cbn [c_in]. destruct shape_names as [S1 [S2 S3]].
    destruct (wires_inv _ _ _ _ W) as [[Ha [-> [-> E]]]|[[-> [-> [-> E]]]|[[-> [-> [-> E]]]|[k [Ek H]]]]].
    - rewrite const_names_ok. destruct a as [|a].
      + unfold delta_source. rewrite const_at by exact S1. reflexivity.
      + destruct (layer_at (S a)) as [la [Hla _]]; [rewrite tot_eq; destruct masked; lia|]. eapply delta_at; [lia|exact Hla|]. rewrite (source_default (S a) la) by (assumption || lia). now left.
    - rewrite E in Hq'. apply at_output in Hq'. subst l. destruct (sl_output _ _ _ _ _ SL) as [-> _].
      assert (T : smem "targets" (const_names (class_of_type ty)) = true) by (destruct TASK as [[_ [-> _]]|[[_ [-> _]]|[_ [-> _]]]]; reflexivity). rewrite T. now apply const_at.
    - rewrite const_names_ok. destruct (layer_at (L + 2)) as [la [Hla _]]; [rewrite tot_eq; destruct masked; lia|]. eapply delta_at; [lia|exact Hla|]. rewrite (at_output la Hla). destruct (sl_output _ _ _ _ _ SL) as [-> _].
      destruct TASK as [[_ [-> _]]|[[_ [-> _]]|[_ [-> _]]]]; now left.
    - assert (Em : masked = true) by (unfold masked; now rewrite Ek). destruct H as [[-> [-> [-> E]]]|[-> [-> [-> E]]]].
      + rewrite const_names_ok. destruct (layer_at (L + 3)) as [la [Hla _]]; [rewrite tot_eq, Em; lia|]. eapply delta_at; [lia|exact Hla|]. rewrite (at_mask la Em Hla). now left.
      + rewrite E in Hq'. rewrite (at_mask l Em Hq'). change (smem "mask" (const_names CMask)) with true. cbn iota. apply const_at. now apply S3.
  Qed.
  End Layers.
  End Arch.
End Net.
