(** Properties of schedules and steppers: C24, C25. *)
From Coq Require Import String List Arith ZArith Bool Reals Lra Lia FunctionalExtensionality Sorting.Sorted.
From Verif Require Import SchedulesModel.
Import ListNotations.
Open Scope string_scope.
Open Scope list_scope.
Open Scope nat_scope.

(** * C24 *)
(** The number of changes so far. *)
Definition changes_so_far (epoch_nr update_nr : nat) (timescale : string) (interval : nat) : nat :=
  (if String.eqb timescale "epoch" then epoch_nr else update_nr) / interval.

(** Linear: after c <= num_changes changes the value is the point at c/num_changes
    of the way from the initial to the final value; afterwards the final value. *)
Theorem C24_linear : forall ini fin num e u ts k, 0 < num -> 0 < k ->
  exists v, linear ini fin num e u ts k = Some v /\
    let c := changes_so_far e u ts k in
    (c = 0 -> v = ini) /\
    (c <= num -> ((v - ini) * INR num = (fin - ini) * INR c)%R) /\
    (num <= c -> v = fin) /\
    (Rmin ini fin <= v <= Rmax ini fin)%R.
Proof.
  intros ini fin num e u ts k Hn Hk. unfold linear. fold (changes_so_far e u ts k) in *.
  change (current e u ts / k) with (changes_so_far e u ts k). set (c := changes_so_far e u ts k).
  destruct (Nat.eqb_spec k 0); [lia|]. assert (Hn' : (0 < INR num)%R) by (now apply lt_0_INR).
  destruct (Nat.ltb_spec num c) as [L|L].
  - exists fin. split; [reflexivity|]. cbn zeta. split; [lia|]. split; [lia|]. split; [reflexivity|]. split; [apply Rmin_r | apply Rmax_r].
  - destruct (Nat.eqb_spec num 0); [lia|]. eexists. split; [reflexivity|]. cbn zeta. split; [|split; [|split]].
    + intros ->. cbn [INR]. field. lra.
    + intros _. field. lra.
    + intros Q. replace c with num by lia. field. lra.
    + assert (Hc : (0 <= INR c <= INR num)%R) by (split; [apply pos_INR | now apply le_INR]).
      set (t := (INR c / INR num)%R). assert (Ht : (0 <= t <= 1)%R).
      { unfold t. split; [apply Rmult_le_pos; [lra | left; now apply Rinv_0_lt_compat]|]. apply (Rmult_le_reg_r (INR num)); [assumption|]. unfold Rdiv. rewrite Rmult_assoc, Rinv_l; lra. }
      replace (ini + (fin - ini) / INR num * INR c)%R with (ini + (fin - ini) * t)%R by (unfold t; field; lra).
      unfold Rmin, Rmax. destruct (Rle_dec ini fin); nra.
Qed.
Print Assumptions C24_linear.
(** Linear is monotone (towards the final value). *)
Theorem C24_linear_monotone : forall ini fin num e u e' u' ts k v v', 0 < num -> e <= e' -> u <= u' ->
  linear ini fin num e u ts k = Some v -> linear ini fin num e' u' ts k = Some v' ->
  ((ini <= fin -> v <= v') /\ (fin <= ini -> v' <= v))%R.
Proof.
  intros ini fin num e u e' u' ts k v v' Hn He Hu H H'.
  assert (Hk : 0 < k) by (unfold linear in H; destruct (Nat.eqb_spec k 0); [discriminate | lia]).
  destruct (C24_linear ini fin num e u ts k Hn Hk) as [w [E W]]. rewrite E in H. injection H as <-.
  destruct (C24_linear ini fin num e' u' ts k Hn Hk) as [w' [E' W']]. rewrite E' in H'. injection H' as <-.
  cbn zeta in W, W'. set (c := changes_so_far e u ts k) in *. set (c' := changes_so_far e' u' ts k) in *.
  assert (Hc : c <= c') by (unfold c, c', changes_so_far; apply Nat.div_le_mono; [lia|]; destruct (ts =? "epoch")%string; assumption).
  assert (Hn' : (0 < INR num)%R) by (now apply lt_0_INR).
  destruct W as [_ [W1 [W2 W3]]]. destruct W' as [_ [W1' [W2' W3']]].
  destruct (Nat.le_gt_cases num c') as [L|L].
  - rewrite (W2' L). unfold Rmin, Rmax in W3. destruct (Rle_dec ini fin); split; intros; lra.
  - specialize (W1 ltac:(lia)). specialize (W1' ltac:(lia)). assert (INR c <= INR c')%R by (now apply le_INR).
    assert (Q : ((w' - w) * INR num = (fin - ini) * (INR c' - INR c))%R) by lra.
    split; intros; nra.
Qed.
Print Assumptions C24_linear_monotone.
Example C24_example_linear : linear (9/10) 1 10 0 7 "update" 2 = Some (93/100)%R /\ linear 1 0 3 5 0 "epoch" 1 = Some 0%R /\ linear 1 0 0 0 0 "epoch" 1 = None.
Proof. unfold linear. cbn. repeat split; f_equal; field. Qed.

(** Exponential: the geometric sequence clipped to the bounds. *)
Definition below (lo : option R) (v : R) : Prop := match lo with None => True | Some m => (m <= v)%R end.
Definition above (hi : option R) (v : R) : Prop := match hi with None => True | Some m => (v <= m)%R end.
Theorem C24_exponential : forall ini factor lo hi e u ts k, 0 < k ->
  (forall m M, lo = Some m -> hi = Some M -> (m <= M)%R) ->
  exists v, exponential ini factor lo hi e u ts k = Some v /\
    let g := (ini * factor ^ changes_so_far e u ts k)%R in
    below lo v /\ above hi v /\
    (below lo g -> above hi g -> v = g) /\
    (forall m, lo = Some m -> (g <= m)%R -> v = m) /\
    (forall M, hi = Some M -> (M <= g)%R -> v = M).
Proof.
  intros ini factor lo hi e u ts k Hk Hb. unfold exponential. destruct (Nat.eqb_spec k 0); [lia|].
  eexists. split; [reflexivity|]. change (current e u ts / k) with (changes_so_far e u ts k). cbn zeta. set (g := (ini * factor ^ changes_so_far e u ts k)%R).
  destruct lo as [m|], hi as [M|]; cbn [py_max py_min below above].
  - specialize (Hb m M eq_refl eq_refl). destruct (Rlt_dec m g), (Rlt_dec _ M); repeat split; intros; try (match goal with E : Some _ = Some _ |- _ => injection E as <- end); lra.
  - destruct (Rlt_dec m g); repeat split; intros; try discriminate; try (match goal with E : Some _ = Some _ |- _ => injection E as <- end); lra.
  - destruct (Rlt_dec g M); repeat split; intros; try discriminate; try (match goal with E : Some _ = Some _ |- _ => injection E as <- end); lra.
  - repeat split; intros; try discriminate.
Qed.
Print Assumptions C24_exponential.
(** Successive values differ by the factor as long as no bound is reached. *)
Theorem C24_exponential_step : forall ini factor e u ts k, 0 < k ->
  forall e' u', changes_so_far e' u' ts k = S (changes_so_far e u ts k) ->
  exists v, exponential ini factor None None e u ts k = Some v /\ exponential ini factor None None e' u' ts k = Some (factor * v)%R.
Proof.
  intros ini factor e u ts k Hk e' u' H. unfold exponential. destruct (Nat.eqb_spec k 0); [lia|]. cbn [py_max py_min].
  change (current e u ts / k) with (changes_so_far e u ts k). change (current e' u' ts / k) with (changes_so_far e' u' ts k). rewrite H.
  eexists. split; [reflexivity|]. f_equal. cbn [pow]. ring.
Qed.
Print Assumptions C24_exponential_step.
Example C24_example_exponential : exponential 1 (1/2) (Some (3/10)%R) None 5 1 "update" 1 = Some (1/2)%R /\ exponential 1 (1/2) (Some (3/10)%R) None 2 0 "epoch" 1 = Some (3/10)%R.
Proof. unfold exponential. cbn. split; f_equal; destruct (Rlt_dec _ _); lra. Qed.

(** MultiStep.  The number of steps that have been reached: *)
Definition reached (steps : list Z) (c : nat) : nat := length (filter (fun s => (s <=? Z.of_nat c)%Z) steps).
Lemma multi_loop_spec steps : forall prev cur i, Sorted.StronglySorted Z.le (prev :: steps) -> (prev <= Z.of_nat cur)%Z ->
  multi_step_loop prev steps (Z.of_nat cur) i = i + reached steps cur.
Proof.
  induction steps as [|s r IH]; intros prev cur i Hs Hp; cbn [multi_step_loop].
  - rewrite (proj2 (Z.leb_le _ _) Hp). unfold reached. cbn. lia.
  - rewrite (proj2 (Z.leb_le _ _) Hp). inversion Hs as [|? ? Hr Hle]; subst. cbn [andb].
    destruct (Z.ltb_spec (Z.of_nat cur) s) as [L|L].
    + unfold reached. rewrite (proj2 (length_zero_iff_nil _)); [lia|]. inversion Hr as [|? ? Hr' Hle']; subst. cbn [filter].
      destruct (Z.leb_spec s (Z.of_nat cur)); [lia|]. clear - Hle' L. induction r as [|x r IH]; [reflexivity|]. inversion Hle' as [|? ? A B]; subst. cbn [filter]. destruct (Z.leb_spec x (Z.of_nat cur)); [lia|]. now apply IH.
    + rewrite (IH s cur (S i) Hr L). unfold reached. cbn [filter]. destruct (Z.leb_spec s (Z.of_nat cur)); [|lia]. cbn [length]. lia.
Qed.

(** For non-decreasing steps the value is the one belonging to the number of
    steps reached: the initial value before the first step, values[i] from
    steps[i] until the next one. *)
Theorem C24_multi_step : forall A (ini : A) steps values e u ts, length steps = length values ->
  Sorted.StronglySorted Z.le steps -> Forall (fun s => (0 <= s)%Z) steps ->
  let c := if String.eqb ts "epoch" then e else u in
  exists v, multi_step ini steps values e u ts 1 = Some v /\
    ((forall s, In s steps -> (Z.of_nat c < s)%Z) -> v = ini) /\
    (forall i s, nth_error steps i = Some s -> (s <= Z.of_nat c)%Z ->
       (forall s', nth_error steps (S i) = Some s' -> (Z.of_nat c < s')%Z) -> nth_error values i = Some v).
Proof.
  intros A ini steps values e u ts Hl Hs Hpos c. unfold multi_step. rewrite Hl, Nat.eqb_refl. cbn [negb Nat.eqb]. change (current e u ts) with c.
  rewrite multi_loop_spec; [|constructor; assumption | lia]. cbn [Nat.add].
  assert (Hr : reached steps c <= length steps).
  { unfold reached. clear. induction steps as [|s r IH]; [reflexivity|]. cbn [filter]. destruct (s <=? Z.of_nat c)%Z; cbn [length]; lia. }
  destruct (nth_error (ini :: values) (reached steps c)) as [v|] eqn:E; [|apply nth_error_None in E; cbn [length] in E; lia].
  exists v. split; [reflexivity|]. split.
  - intros H. assert (Z0 : reached steps c = 0).
    { unfold reached. rewrite (proj2 (length_zero_iff_nil _)); [reflexivity|]. clear - H. induction steps as [|s r IH]; [reflexivity|]. cbn [filter]. destruct (Z.leb_spec s (Z.of_nat c)) as [L|L]; [specialize (H s (or_introl eq_refl)); lia|]. apply IH. intros; apply H; now right. }
    rewrite Z0 in E. now injection E as <-.
  - intros i s Ei Hle Hnext. assert (Z1 : reached steps c = S i).
    { unfold reached. clear - Hs Ei Hle Hnext. revert i Ei Hnext. induction Hs as [|x r Hr IH Hx]; intros i Ei Hnext; [destruct i; discriminate|]. cbn [filter].
      destruct i as [|i].
      - injection Ei as ->. rewrite (proj2 (Z.leb_le _ _) Hle). cbn [length]. f_equal. destruct r as [|y r]; [reflexivity|]. specialize (Hnext y eq_refl).
        rewrite (proj2 (length_zero_iff_nil _)); [reflexivity|]. assert (Hy : Forall (fun z => (Z.of_nat c < z)%Z) (y :: r)).
        { inversion Hr as [|? ? Hr' Hy]; subst. constructor; [assumption|]. eapply Forall_impl; [|exact Hy]. cbn. intros; lia. }
        clear - Hy. induction Hy as [|z l Hz Hl IH]; [reflexivity|]. cbn [filter]. destruct (Z.leb_spec z (Z.of_nat c)); [lia | assumption].
      - cbn [nth_error] in Ei. assert (x <= s)%Z by (rewrite Forall_forall in Hx; apply Hx; eapply nth_error_In; eassumption).
        rewrite (proj2 (Z.leb_le _ _)) by lia. cbn [length]. f_equal. apply IH; assumption. }
    rewrite Z1 in E. exact E.
Qed.
Print Assumptions C24_multi_step.
Theorem C24_multi_step_interval : forall A (ini : A) steps values e u ts k, k <> 1 -> multi_step ini steps values e u ts k = None.
Proof. intros A ini steps values e u ts k H. unfold multi_step. destruct (negb _); [reflexivity|]. now rewrite (proj2 (Nat.eqb_neq k 1) H). Qed.
Print Assumptions C24_multi_step_interval.
Example C24_example_multi_step :
  map (fun c => multi_step "1.0" [100; 110; 120]%Z ["0.1"; "0.01"; "0.001"] 0 c "update" 1) [0; 99; 100; 109; 110; 119; 120; 500] =
  map Some ["1.0"; "1.0"; "0.1"; "0.1"; "0.01"; "0.01"; "0.001"; "0.001"].
Proof. vm_compute. reflexivity. Qed.

(** DecreaseAfterEpoch: constant for the first T epochs, then proportional to
    1 / (epoch number, from 1). *)
Theorem C24_decrease_after_epoch : forall ini T e, (0 < T)%Z ->
  ((Z.of_nat e < T)%Z -> decrease_after_epoch ini T e = ini) /\
  ((T <= Z.of_nat e + 1)%Z -> (decrease_after_epoch ini T e * INR (S e) = ini * IZR T)%R).
Proof.
  intros ini T e HT. unfold decrease_after_epoch. assert (Q : IZR T <> 0%R) by (apply not_0_IZR; lia). split; intros H.
  - rewrite Z.max_r by lia. field. assumption.
  - rewrite Z.max_l by lia. rewrite INR_IZR_INZ. replace (Z.of_nat (S e)) with (Z.of_nat e + 1)%Z by lia. field. apply not_0_IZR. lia.
Qed.
Print Assumptions C24_decrease_after_epoch.
Example C24_example_decrease : decrease_after_epoch (1/2) 25 24 = (1/2)%R /\ decrease_after_epoch (1/2) 25 49 = (1/4)%R.
Proof. unfold decrease_after_epoch. cbn [Z.of_nat Pos.of_succ_nat Pos.succ Z.add Pos.add Z.max Z.compare Pos.compare Pos.compare_cont]. split; field. Qed.

(** * C25 *)
Fixpoint sum_upto (n : nat) (f : nat -> R) : R := match n with 0 => 0%R | S m => (sum_upto m f + f m)%R end.
Fixpoint prod_from (k n : nat) (f : nat -> R) : R :=     (* f k * ... * f (k + n - 1) *)
  match n with 0 => 1%R | S m => (f k * prod_from (S k) m f)%R end.

Section Steppers.
  Variable gradient : nat -> vec -> vec.
  Variables lr mu : nat -> R.            (* rates of the k-th update *)
  Variable p0 : vec.

  Definition sgd_at (n : nat) : sstate := updates (fun k => sgd_run gradient (lr k) k) n (stepper_start p0).
  Definition mom_at (scale : bool) (n : nat) : sstate := updates (fun k => momentum_run gradient (lr k) (mu k) scale k) n (stepper_start p0).
  Definition nes_at (scale : bool) (n : nat) : sstate := updates (fun k => nesterov_run gradient (lr k) (mu k) scale k) n (stepper_start p0).
  Definition rate (scale : bool) (k : nat) : R := if scale then (lr k * (1 - mu k))%R else lr k.

  (** SGD *)
  Theorem C25_sgd : forall n i,
    s_params (sgd_at n) i = (p0 i - sum_upto n (fun k => lr k * gradient k (s_params (sgd_at k)) i))%R.
  Proof.
    induction n as [|n IH]; intros i; [cbn; ring|]. cbn [sgd_at updates sum_upto]. fold (sgd_at n).
    unfold sgd_run, add_tt, mult_st. cbn [s_params]. rewrite IH. ring.
  Qed.

  (** Momentum: the velocity is the sum of all gradients, each weighted with its
      rate and the momenta of the later updates; the parameters move by it. *)
  Theorem C25_momentum : forall scale n i,
    s_buf (mom_at scale n) i =
      (- sum_upto n (fun k => prod_from (S k) (n - S k) mu * rate scale k * gradient k (s_params (mom_at scale k)) i))%R /\
    s_params (mom_at scale (S n)) i = (s_params (mom_at scale n) i + s_buf (mom_at scale (S n)) i)%R.
  Proof.
    intros scale.
    assert (P : forall m k, prod_from k (S m) mu = (prod_from k m mu * mu (k + m)%nat)%R).
    { induction m as [|m IH]; intros k; [cbn; rewrite Nat.add_0_r; ring|]. cbn [prod_from]. cbn [prod_from] in IH. rewrite IH. replace (S k + m) with (k + S m) by lia. ring. }
    assert (F : forall n i, s_buf (mom_at scale n) i = (- sum_upto n (fun k => prod_from (S k) (n - S k) mu * rate scale k * gradient k (s_params (mom_at scale k)) i))%R).
    { induction n as [|n IH]; intros i; [cbn; unfold zeros; ring|]. cbn [mom_at updates]. fold (mom_at scale n).
      unfold momentum_run, mult_add_st, mult_st. cbn [s_buf]. rewrite IH. cbn [sum_upto]. rewrite Nat.sub_diag. cbn [prod_from].
      assert (Q : forall m, m <= n -> (mu n * sum_upto m (fun k => prod_from (S k) (n - S k) mu * rate scale k * gradient k (s_params (mom_at scale k)) i))%R = sum_upto m (fun k => prod_from (S k) (S n - S k) mu * rate scale k * gradient k (s_params (mom_at scale k)) i)%R).
      { induction m as [|m IHm]; intros Hm; [cbn; ring|]. cbn [sum_upto]. rewrite <- IHm by lia. replace (S n - S m) with (S (n - S m)) by lia. rewrite P. replace (S m + (n - S m)) with n by lia. ring. }
      rewrite <- (Q n (le_n _)). unfold rate, effective_rate. destruct scale; ring. }
    intros n i. split; [apply F|]. cbn [mom_at updates]. fold (mom_at scale n). unfold momentum_run, add_tt. cbn [s_params s_buf]. ring.
  Qed.

  (** Constant momentum: geometric weights. *)
  Theorem C25_momentum_geometric : forall scale m, (forall k, mu k = m) -> forall n i,
    s_buf (mom_at scale n) i = (- sum_upto n (fun k => m ^ (n - S k) * rate scale k * gradient k (s_params (mom_at scale k)) i))%R.
  Proof.
    intros scale m Hm n i. rewrite (proj1 (C25_momentum scale n i)). f_equal.
    assert (P : forall j k, prod_from k j mu = (m ^ j)%R) by (induction j as [|j IH]; intros k; cbn [prod_from pow]; [reflexivity | now rewrite IH, Hm]).
    assert (E : forall f g : nat -> R, (forall k, f k = g k) -> forall j, sum_upto j f = sum_upto j g) by (intros f g E; induction j as [|j IH]; cbn [sum_upto]; [reflexivity | now rewrite IH, E]).
    apply E. intros k. now rewrite P.
  Qed.

  (** Momentum 0 is SGD. *)
  Theorem C25_no_momentum : forall scale, (forall k, mu k = 0%R) -> forall n, s_params (mom_at scale n) = s_params (sgd_at n) /\ s_params (nes_at scale n) = s_params (sgd_at n).
  Proof.
    intros scale H0 n. split.
    - induction n as [|n IH]; [reflexivity|]. cbn [mom_at sgd_at updates]. fold (mom_at scale n) (sgd_at n). unfold momentum_run, sgd_run. cbn [s_params].
      rewrite IH. apply functional_extensionality. intros i. unfold add_tt, mult_add_st, mult_st, effective_rate. rewrite H0. destruct scale; ring.
    - induction n as [|n IH]; [reflexivity|]. cbn [nes_at sgd_at updates]. fold (nes_at scale n) (sgd_at n). unfold nesterov_run, sgd_run. cbn [s_params].
      rewrite IH. assert (L : add_tt (mult_st (mu n) (s_buf (nes_at scale n))) (s_params (sgd_at n)) = s_params (sgd_at n)) by (apply functional_extensionality; intros i; unfold add_tt, mult_st; rewrite H0; ring).
      rewrite L. apply functional_extensionality. intros i. unfold add_tt, mult_add_st, mult_st, effective_rate. rewrite H0. destruct scale; ring.
  Qed.

  (** Nesterov: v' = mu v - rate * gradient (p + mu v),  p' = p + v'. *)
  Theorem C25_nesterov : forall scale n i,
    let p := s_params (nes_at scale n) in let v := s_buf (nes_at scale n) in
    let look_ahead : vec := fun j => (p j + mu n * v j)%R in
    s_buf (nes_at scale (S n)) i = (mu n * v i - rate scale n * gradient n look_ahead i)%R /\
    s_params (nes_at scale (S n)) i = (p i + s_buf (nes_at scale (S n)) i)%R.
  Proof.
    intros scale n i p v look_ahead. cbn [nes_at updates]. fold (nes_at scale n). unfold nesterov_run. cbn [s_buf s_params].
    assert (L : add_tt (mult_st (mu n) (s_buf (nes_at scale n))) (s_params (nes_at scale n)) = look_ahead) by (apply functional_extensionality; intros j; unfold add_tt, mult_st, look_ahead, p, v; ring).
    rewrite L. unfold mult_add_st, mult_st, effective_rate, rate, look_ahead. fold p v. destruct scale; split; ring.
  Qed.
  Theorem C25_start : forall scale i, s_params (sgd_at 0) i = p0 i /\ s_params (mom_at scale 0) i = p0 i /\ s_params (nes_at scale 0) i = p0 i /\
    s_buf (mom_at scale 0) i = 0%R /\ s_buf (nes_at scale 0) i = 0%R.
  Proof. intros. repeat split. Qed.
End Steppers.
Print Assumptions C25_sgd.
Print Assumptions C25_momentum.
Print Assumptions C25_momentum_geometric.
Print Assumptions C25_no_momentum.
Print Assumptions C25_nesterov.
Print Assumptions C25_start.
(** f(p) = p^2/2 in one dimension, two steps from p = 1. *)
Example C25_example :
  let g : nat -> vec -> vec := fun _ p => p in let p0 : vec := fun _ => 1%R in
  let lr := fun _ : nat => (1/2)%R in let mu := fun _ : nat => (1/2)%R in
  s_params (sgd_at g lr p0 2) 0 = (1/4)%R /\ s_params (mom_at g lr mu p0 false 2) 0 = 0%R /\ s_params (nes_at g lr mu p0 false 2) 0 = (1/8)%R.
Proof. cbn. unfold add_tt, mult_st, mult_add_st, zeros. repeat split; field. Qed.
