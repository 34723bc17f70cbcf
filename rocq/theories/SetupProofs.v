(** Facts about the structures made by the layers ([SetupModel]) and about the
    shapes and operations of [PassShapesModel]. *)
From Coq Require Import String List ZArith QArith Bool Lia Permutation.
From Verif Require Import PyBase PyFacts UtilsModel NamesModel ArchModel ShapesModel SetupModel PassShapesModel.
Import ListNotations.
Open Scope string_scope.
Open Scope list_scope.
Open Scope nat_scope.

(** A structure with shape ('T', 'B', *fs), and one without 'T' and 'B'. *)
Definition tb (fs : list Z) (ctx : Z) (bwd : bool) : bstruct := mkB (DT :: DB :: map DInt fs) ctx bwd.
Definition pl (fs : list Z) : bstruct := mkB (map DInt fs) 0 false.
Definition nats (fs : list Z) : shape := map Z.to_nat fs.

Lemma sdim_eqb_eq a b : sdim_eqb a b = true <-> a = b.
Proof.
  destruct a, b; cbn; try (split; congruence).
  - rewrite Z.eqb_eq. split; congruence.
  - rewrite Nat.eqb_eq. split; congruence.
Qed.

Lemma dims_eqb_eq a : forall b, dims_eqb a b = true <-> a = b.
Proof.
  induction a as [|x a IH]; intros [|y b]; cbn; try (split; congruence).
  rewrite andb_true_iff, sdim_eqb_eq, IH. split; [intros [-> ->]; reflexivity|intros [= -> ->]; auto].
Qed.

Lemma zs_eqb_eq a : forall b, zs_eqb a b = true <-> a = b.
Proof.
  induction a as [|x a IH]; intros [|y b]; cbn; try (split; congruence).
  rewrite andb_true_iff, Z.eqb_eq, IH. split; [intros [-> ->]; reflexivity|intros [= -> ->]; auto].
Qed.

Lemma dim_values fs : map dim_value (map DInt fs) = fs.
Proof. induction fs; cbn; congruence. Qed.

Lemma dmem_ints x fs : (forall z, x <> DInt z) -> ShapesModel.dmem x (map DInt fs) = false.
Proof.
  intros H. induction fs as [|z r IH]; [reflexivity|]. cbn [map ShapesModel.dmem existsb]. fold (ShapesModel.dmem x (map DInt r)).
  rewrite IH, orb_false_r. destruct (sdim_eqb x (DInt z)) eqn:E; [|reflexivity].
  apply sdim_eqb_eq in E. destruct (H z E).
Qed.

Lemma is_int_list l : forallb is_int l = true -> exists fs, l = map DInt fs.
Proof.
  induction l as [|x l IH]; [intros _; exists []; reflexivity|].
  cbn. rewrite andb_true_iff. intros [H1 H2]. destruct (IH H2) as [fs ->].
  destruct x; try discriminate. now exists (z :: fs).
Qed.

Lemma features_tb fs ctx w : features (tb fs ctx w) = fs.
Proof. unfold features, tb, feature_shape. cbn [bs_shape buffer_type]. cbn. apply dim_values. Qed.

Lemma buffer_type_ints fs : buffer_type (map DInt fs) = 0.
Proof. unfold buffer_type. rewrite !dmem_ints by congruence. reflexivity. Qed.

Lemma features_pl fs : features (pl fs) = fs.
Proof. unfold features, pl, feature_shape. cbn [bs_shape]. rewrite buffer_type_ints. apply dim_values. Qed.

Lemma bshape_tb T B fs ctx w : bshape T B (tb fs ctx w) = (T + Z.to_nat ctx) :: B :: nats fs.
Proof. unfold bshape. rewrite features_tb. reflexivity. Qed.

Lemma bshape_pl T B fs : bshape T B (pl fs) = nats fs.
Proof. unfold bshape. rewrite features_pl. unfold pl. cbn [bs_shape]. rewrite buffer_type_ints. reflexivity. Qed.

(** ** The constructor functions *)
Lemma new_structure_ok s c w b : new_structure s c w = SOk b -> b = mkB s c w /\ structure_valid s (Some c) = true.
Proof. unfold new_structure. destruct structure_valid; [intros [= <-]; auto|discriminate]. Qed.

Lemma timed_ok fs c w b : timed fs c w = SOk b -> b = tb fs c w.
Proof. intros H. now apply new_structure_ok in H. Qed.

Lemma plain_ok fs b : plain fs = SOk b -> b = pl fs.
Proof. intros H. now apply new_structure_ok in H. Qed.

(** A valid structure. *)
Definition valid (b : bstruct) : Prop := structure_valid (bs_shape b) (Some (bs_ctx b)) = true.
(** What a layer gets as in_shapes: valid structures without context that only
    name forward buffers, under different names. *)
Definition input_like (b : bstruct) : Prop := valid b /\ bs_ctx b = 0%Z /\ bs_bwd b = false.

Lemma valid_cases b : valid b ->
  exists fs, fs <> [] /\
    (bs_shape b = DT :: DB :: map DInt fs \/ bs_shape b = DB :: map DInt fs \/ bs_shape b = map DInt fs).
Proof.
  unfold valid, structure_valid. set (s := bs_shape b).
  destruct (length s =? 0)%nat eqn:E0; [discriminate|].
  destruct (ShapesModel.dmem DT s) eqn:ET; cbn [andb negb].
  - destruct (dims_eqb (firstn 2 s) [DT; DB]) eqn:E1; [|discriminate]. cbn [negb].
    apply dims_eqb_eq in E1.
    destruct s as [|a [|b' r]]; cbn in E1; try discriminate. injection E1 as -> ->.
    unfold buffer_type, feature_shape, buffer_type. cbn -[Nat.leb].
    destruct (S (S (length r)) <=? 2)%nat eqn:E2; [discriminate|].
    destruct (forallb is_int r) eqn:E3; [|discriminate]. intros _.
    destruct (is_int_list _ E3) as [fs ->]. exists fs. split; [|auto].
    intros ->. discriminate.
  - destruct (ShapesModel.dmem DB s) eqn:EB; cbn [andb negb].
    + destruct (dims_eqb (firstn 1 s) [DB]) eqn:E1; [|discriminate]. cbn [negb].
      apply dims_eqb_eq in E1. destruct s as [|a r]; cbn in E1; try discriminate. injection E1 as ->.
      unfold buffer_type, feature_shape, buffer_type. rewrite ET. cbn -[Nat.leb].
      destruct (S (length r) <=? 1)%nat eqn:E2; [discriminate|].
      destruct (forallb is_int r) eqn:E3; [|discriminate]. intros _.
      destruct (is_int_list _ E3) as [fs ->]. exists fs. split; [|auto].
      intros ->. discriminate.
    + unfold buffer_type, feature_shape, buffer_type. rewrite ET, EB.
      destruct (length s <=? 0)%nat eqn:E2; [discriminate|]. cbn [skipn].
      destruct (forallb is_int s) eqn:E3; [|discriminate]. intros _.
      destruct (is_int_list _ E3) as [fs E]. rewrite E in *. exists fs. split; [|auto].
      intros ->. discriminate.
Qed.

Lemma input_like_tb b : input_like b -> template_matches tb_any (bs_shape b) = true ->
  exists fs, fs <> [] /\ b = tb fs 0 false.
Proof.
  intros [HV [HC HB]] HT. destruct (valid_cases b HV) as [fs [Hne HS]].
  destruct b as [s c w]. cbn in *. subst c w.
  destruct HS as [-> | [-> | ->]].
  - exists fs. split; [assumption|reflexivity].
  - exfalso. destruct fs as [|z [|z2 r]]; cbn in HT; congruence.
  - exfalso. destruct fs as [|z [|z2 [|z3 r]]]; cbn in HT; congruence.
Qed.

(** ** Products *)
Lemma prod_app a b : prod (a ++ b) = prod a * prod b.
Proof.
  induction a as [|x a IH]; [symmetry; apply Nat.mul_1_l|]. change (x * prod (a ++ b) = x * prod a * prod b). rewrite IH. apply Nat.mul_assoc.
Qed.

Lemma removelast_snoc {A} (s : list A) d : s <> [] -> s = removelast s ++ [last s d].
Proof. apply app_removelast_last. Qed.

Lemma prod_last s : s <> [] -> prod (removelast s) * last s 0 = prod s.
Proof. intros H. rewrite (removelast_snoc s 0 H) at 3. rewrite prod_app. cbn. lia. Qed.

Lemma nats_prod fs : Forall (fun z => 0 < z)%Z fs -> Z.to_nat (fold_right Z.mul 1%Z fs) = prod (nats fs).
Proof.
  intros H. enough (G : (0 <= fold_right Z.mul 1 fs)%Z /\ Z.to_nat (fold_right Z.mul 1%Z fs) = prod (nats fs)) by apply G.
  induction H as [|z r Hz _ [IH1 IH2]]; [split; [cbn; lia|reflexivity]|].
  cbn [fold_right]. split; [lia|].
  rewrite Z2Nat.inj_mul by lia. rewrite IH2. reflexivity.
Qed.

(** ** Operations *)
Lemma all_equal_cons a l : (forall s, In s l -> s = a) -> all_equal (a :: l).
Proof. intros H s [<-|Hs]; [reflexivity|]. now rewrite (H s Hs). Qed.

Lemma ft_ok s : 3 <= length s -> Forall call_ok (ft s).
Proof.
  intros H. unfold ft. constructor; [exact H|]. constructor; [|constructor].
  destruct s as [|a [|b r]]; cbn in H; try lia. cbn. lia.
Qed.

Lemma ftf_ok s : 3 <= length s -> Forall call_ok (ftf s).
Proof.
  intros H. unfold ftf. constructor; [exact H|]. constructor; [|constructor].
  destruct s as [|a [|b r]]; cbn in H; try lia. cbn. fold (prod r). lia.
Qed.

Lemma fbl_ok s : s <> [] -> Forall call_ok (fbl s).
Proof.
  intros H. unfold fbl. constructor; [|constructor]. cbn.
  pose proof (prod_last s H). lia.
Qed.

Lemma last_indep {A} (s : list A) d e : s <> [] -> last s d = last s e.
Proof. intros H. induction s as [|x [|y s] IH]; [congruence|reflexivity|]. apply IH. discriminate. Qed.

Lemma last_nats fs : fs <> [] -> last (nats fs) 0 = Z.to_nat (last fs 0%Z).
Proof.
  intros H. rewrite (removelast_snoc fs 0%Z H) at 1. unfold nats. rewrite map_app. cbn. apply last_last.
Qed.
Lemma removelast_nats fs : removelast (nats fs) = nats (removelast fs).
Proof.
  induction fs as [|x [|y r] IH]; [reflexivity|reflexivity|].
  change (Z.to_nat x :: removelast (nats (y :: r)) = Z.to_nat x :: nats (removelast (y :: r))). now rewrite IH.
Qed.
