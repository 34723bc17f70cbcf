(** Proofs about the trainer. *)
From Coq Require Import String List Arith ZArith Bool Lia Permutation Sorting.Sorted.
From Verif Require Import PyBase PyFacts UtilsModel TrainerModel.
Import ListNotations.
Open Scope string_scope.
Open Scope list_scope.
Open Scope nat_scope.

(** * Logs *)
(** The list of values stored at a path. *)
Fixpoint lists_at {V} (path : list string) (l : logs V) : list V :=
  match path with
  | [] => []
  | k :: p =>
      match dget k l with
      | None => []
      | Some (DLeaf xs) => match p with [] => xs | _ => [] end
      | Some (DDict d) => lists_at p d
      end
  end.
(** The values a returned object has at a path. *)
Fixpoint vals_at {V} (path : list string) (v : lval V) : list V :=
  match path, v with
  | [], VLeaf x => [x]
  | k :: p, VDict items => flat_map (fun kw => if String.eqb k (fst kw) then vals_at p (snd kw) else []) items
  | _, _ => []
  end.

Lemma lval_ind' {V} (P : lval V -> Prop) : P VNone -> (forall x, P (VLeaf x)) ->
  (forall items, Forall (fun kw => P (snd kw)) items -> P (VDict items)) -> forall v, P v.
Proof.
  intros H1 H2 H3. fix IH 1. intros [|x|items]; [exact H1 | apply H2|]. apply H3.
  induction items as [|[k w] r IHr]; constructor; [apply IH | exact IHr].
Qed.

Lemma vals_nil {V} p : vals_at (V := V) p VNone = [].
Proof. now destruct p. Qed.

Lemma add_log_spec {V} (v : lval V) : forall name l l' k p, add_log name v l = Some l' ->
  lists_at (k :: p) l' = lists_at (k :: p) l ++ (if String.eqb k name then vals_at p v else []).
Proof.
  induction v as [|x|items IH] using lval_ind'; intros name l l' k p H.
  - simpl in H. injection H as <-. rewrite vals_nil. destruct (String.eqb k name); now rewrite app_nil_r.
  - simpl in H. destruct (String.eqb_spec k name) as [->|N].
    + destruct (dget name l) as [[xs|d]|] eqn:D; [| discriminate |]; injection H as <-; cbn [lists_at]; rewrite dget_dset_same, D; destruct p; reflexivity.
    + rewrite app_nil_r. destruct (dget name l) as [[xs|d]|] eqn:D; [| discriminate |]; injection H as <-; cbn [lists_at]; now rewrite dget_dset_other.
  - cbn [add_log] in H.
    set (go := fix go (items : list (string * lval V)) (sub : logs V) : option (logs V) :=
        match items with
        | [] => Some sub
        | (k, w) :: r => match add_log k w sub with Some sub' => go r sub' | None => None end
        end) in H.
    assert (G : forall its sub sub', Forall (fun kw => forall name l l' k p, add_log name (snd kw) l = Some l' ->
                  lists_at (k :: p) l' = lists_at (k :: p) l ++ (if String.eqb k name then vals_at p (snd kw) else [])) its ->
                go its sub = Some sub' -> forall p, lists_at p sub' = lists_at p sub ++ vals_at p (VDict its)).
    { clear. induction its as [|[k w] r IHr]; intros sub sub' Hf Hg p.
      - simpl in Hg. injection Hg as <-. destruct p; simpl; now rewrite ?app_nil_r.
      - inversion Hf as [|? ? Hw Hr]; subst. simpl in Hg. destruct (add_log k w sub) as [sub1|] eqn:E; [|discriminate].
        destruct p as [|k2 p2]; [reflexivity|]. rewrite (IHr sub1 sub' Hr Hg). cbn [snd] in Hw. rewrite (Hw k sub sub1 k2 p2 E).
        cbn [vals_at flat_map fst snd]. now rewrite app_assoc. }
    destruct (dget name l) as [[xs|d]|] eqn:D.
    + destruct (forallb _ items) eqn:Fn; [|discriminate]. injection H as <-.
      assert (Z : vals_at p (VDict items) = []).
      { destruct p as [|k2 p2]; [reflexivity|]. clear - Fn. induction items as [|[k w] r IHr]; [reflexivity|]. simpl in Fn.
        apply andb_true_iff in Fn. destruct Fn as [Fw Fr]. destruct w; try discriminate. cbn [vals_at flat_map fst snd]. rewrite vals_nil.
        cbn [vals_at] in IHr. rewrite (IHr Fr). now destruct (String.eqb k2 k). }
      rewrite Z. destruct (String.eqb k name); now rewrite app_nil_r.
    + destruct (go items d) as [sub'|] eqn:Eg; [|discriminate]. injection H as <-. cbn [lists_at].
      destruct (String.eqb_spec k name) as [->|N].
      * rewrite dget_dset_same, D. now apply G.
      * rewrite dget_dset_other by assumption. now rewrite app_nil_r.
    + destruct (go items []) as [sub'|] eqn:Eg; [|discriminate]. injection H as <-. cbn [lists_at].
      destruct (String.eqb_spec k name) as [->|N].
      * rewrite dget_dset_same, D. rewrite (G _ _ _ IH Eg). now destruct p.
      * rewrite dget_dset_other by assumption. now rewrite app_nil_r.
Qed.

(** * Traces *)
Section Traces.
  Variable V : Type.
  Notation ev := (event V).
  (** names of the hooks called at a timescale and count, in order *)
  Definition names_at (scale : string) (n : nat) (tr : list ev) : list string :=
    flat_map (fun e => match e with
      | Called s m name _ _ => if String.eqb s scale && (m =? n) then [name] else []
      | _ => [] end) tr.
  Definition updates (tr : list ev) : list nat := flat_map (fun e => match e with Updated n => [n] | _ => [] end) tr.
  Definition loggeds (tr : list ev) : list nat := flat_map (fun e => match e with Logged n _ => [n] | _ => [] end) tr.
  (** everything but hook calls *)
  Definition steps (tr : list ev) : list ev := filter (fun e => match e with Called _ _ _ _ _ => false | _ => true end) tr.
  Definition stops (e : ev) : bool := match e with Called _ _ _ _ b => b | _ => false end.
  (** values a trace adds to the log at path [name :: p] *)
  Definition logged_values (name : string) (p : list string) (tr : list ev) : list V :=
    flat_map (fun e => match e with
      | Called _ _ nm v _ => if String.eqb name nm then vals_at p v else []
      | Logged _ v => if String.eqb name "rolling_training" then vals_at p v else []
      | _ => [] end) tr.

  Lemma names_app sc n a b : names_at sc n (a ++ b) = names_at sc n a ++ names_at sc n b.
  Proof. apply flat_map_app. Qed.
  Lemma updates_app a b : updates (a ++ b) = updates a ++ updates b.
  Proof. apply flat_map_app. Qed.
  Lemma loggeds_app a b : loggeds (a ++ b) = loggeds a ++ loggeds b.
  Proof. apply flat_map_app. Qed.
  Lemma values_app nm p a b : logged_values nm p (a ++ b) = logged_values nm p a ++ logged_values nm p b.
  Proof. apply flat_map_app. Qed.
  Lemma steps_app a b : steps (a ++ b) = steps a ++ steps b.
  Proof. apply filter_app. Qed.

  (** position of the calls: [prev] is the last step *)
  Section Pos.
    Variables e0 u0 : nat.
    Definition matches (prev : option ev) (scale : string) (n : nat) : Prop :=
      match prev with
      | None => (scale = "update" /\ n = u0) \/ (scale = "epoch" /\ n = e0)
      | Some (Updated m) => scale = "update" /\ n = m
      | Some (Logged m _) => scale = "epoch" /\ n = m
      | Some (Called _ _ _ _ _) => False
      end.
    Definition next (prev : option ev) (e : ev) : option ev := match e with Called _ _ _ _ _ => prev | _ => Some e end.
    Fixpoint pos_ok (prev : option ev) (tr : list ev) : Prop :=
      match tr with
      | [] => True
      | e :: r => match e with Called scale n _ _ _ => matches prev scale n | _ => True end /\ pos_ok (next prev e) r
      end.
    Definition last_of (prev : option ev) (tr : list ev) := fold_left next tr prev.
    Lemma pos_app prev a b : pos_ok prev (a ++ b) <-> pos_ok prev a /\ pos_ok (last_of prev a) b.
    Proof. revert prev. induction a as [|x a IH]; intros prev; simpl; [tauto|]. rewrite IH. unfold last_of. simpl. tauto. Qed.
    Lemma last_app prev a b : last_of prev (a ++ b) = last_of (last_of prev a) b.
    Proof. apply fold_left_app. Qed.
    Lemma last_calls prev a : (forall x, In x a -> exists sc n nm v b, x = Called sc n nm v b) -> last_of prev a = prev.
    Proof.
      revert prev. induction a as [|x a IH]; intros prev H; [reflexivity|]. unfold last_of. simpl.
      destruct (H x (or_introl eq_refl)) as [sc [n [nm [v [b ->]]]]]. simpl. apply IH. intros; apply H; now right.
    Qed.
    Lemma last_steps prev tr : last_of prev tr = match rev (steps tr) with [] => prev | x :: _ => Some x end.
    Proof.
      revert prev. induction tr as [|x r IH]; intros prev; [reflexivity|]. unfold last_of. simpl. fold (last_of (next prev x) r). rewrite IH.
      destruct x; simpl; try reflexivity; destruct (rev (steps r)); reflexivity.
    Qed.
  End Pos.
End Traces.
Arguments names_at {V}. Arguments updates {V}. Arguments loggeds {V}. Arguments steps {V}. Arguments stops {V}.
Arguments logged_values {V}. Arguments matches {V}. Arguments pos_ok {V}. Arguments last_of {V}. Arguments next {V}.

Section Run.
  Variables V W Batch Score : Type.
  Variable new_iterator : W -> W * list Batch.
  Variable train_step : W -> Batch -> option (W * Score).
  Variable aggregate : W -> list Score -> lval V.
  Notation hook := (hook V W).
  Notation state := (state V W).

  (** the hooks that have to be called at a timescale and count *)
  Definition due (hooks : list hook) (scale : string) (n : nat) : list string :=
    map (h_name V W) (filter (fun h => String.eqb (h_scale V W h) scale && (n mod h_interval V W h =? 0)) hooks).

  Lemma emit_spec hooks scale : forall s s' stop ev, emit_hooks V W false hooks scale s = Some (s', stop, ev) ->
    t_epoch V W s' = t_epoch V W s /\ t_update V W s' = t_update V W s /\ t_results V W s' = t_results V W s /\
    stop = existsb stops ev /\
    (forall x, In x ev -> exists nm v b, x = Called scale (count V W scale s) nm v b) /\
    names_at scale (count V W scale s) ev = due hooks scale (count V W scale s) /\
    (forall k p, lists_at (k :: p) (t_logs V W s') = lists_at (k :: p) (t_logs V W s) ++ logged_values k p ev).
  Proof.
    induction hooks as [|h r IH]; intros s s' stop ev H.
    - simpl in H. injection H as <- <- <-. repeat split; try reflexivity; [intros x []|]. intros. now rewrite app_nil_r.
    - cbn [emit_hooks] in H. unfold due. cbn [filter].
      destruct (String.eqb (h_scale V W h) scale) eqn:Es; cbn [negb andb] in H |- *; [|now apply IH].
      destruct (h_interval V W h =? 0); [discriminate|].
      destruct (count V W scale s mod h_interval V W h =? 0); cbn [negb] in H |- *; [|now apply IH].
      destruct (h_call V W h _ _ _ _) as [[[w v] st]|]; [|discriminate].
      destruct (add_log _ v _) as [ls|] eqn:El; [|discriminate].
      set (s1 := mkState V W _ _ ls _ w) in H.
      destruct (emit_hooks V W false r scale s1) as [[[s2 stop2] ev2]|] eqn:E; [|discriminate]. injection H as <- <- <-.
      destruct (IH s1 s2 stop2 ev2 E) as [H1 [H2 [H3 [H4 [H5 [H6 H7]]]]]].
      assert (Ec : count V W scale s1 = count V W scale s) by reflexivity.
      rewrite Ec in H5, H6.
      split; [now rewrite H1|]. split; [now rewrite H2|]. split; [now rewrite H3|].
      split; [cbn [existsb stops]; now rewrite <- H4|].
      split; [intros x [<-|Hx]; [eauto | now apply H5]|].
      split.
      + cbn [names_at flat_map map]. rewrite String.eqb_refl, Nat.eqb_refl. cbn [andb app]. f_equal. exact H6.
      + intros k p. rewrite H7. cbn [logged_values flat_map]. unfold s1. cbn [t_logs].
        rewrite (add_log_spec v _ _ _ k p El). now rewrite app_assoc.
  Qed.

  Definition known (scale : string) : bool := String.eqb scale "epoch" || String.eqb scale "update".
  Definition cnt (e u : nat) (scale : string) : nat := if String.eqb scale "epoch" then e else u.

  Record seg (hooks : list hook) (e u e' u' : nat) (ev : list (event V)) : Prop := {
    sg_e : e <= e';
    sg_u : u <= u';
    sg_names : forall scale n, names_at scale n ev =
      if known scale && (cnt e u scale <? n) && (n <=? cnt e' u' scale) then due hooks scale n else [];
    sg_upd : updates ev = seq (S u) (u' - u);
    sg_log : loggeds ev = seq (S e) (e' - e) }.

  Lemma seq_join a b c : a <= b -> b <= c -> seq (S a) (b - a) ++ seq (S b) (c - b) = seq (S a) (c - a).
  Proof. intros H1 H2. replace (c - a) with ((b - a) + (c - b)) by lia. rewrite seq_app. do 2 f_equal. lia. Qed.

  Lemma seg_nil hooks e u : seg hooks e u e u [].
  Proof.
    split; try lia; try (now rewrite Nat.sub_diag); try reflexivity.
    intros scale n. simpl. destruct (known scale); [|reflexivity]. simpl.
    destruct (Nat.ltb_spec (cnt e u scale) n); [|reflexivity]. destruct (Nat.leb_spec n (cnt e u scale)); [lia | reflexivity].
  Qed.
  Lemma seg_app hooks e u e1 u1 e2 u2 a b : seg hooks e u e1 u1 a -> seg hooks e1 u1 e2 u2 b -> seg hooks e u e2 u2 (a ++ b).
  Proof.
    intros A B. destruct A as [A1 A2 A3 A4 A5], B as [B1 B2 B3 B4 B5]. split; try lia.
    - intros scale n. rewrite names_app, A3, B3. destruct (known scale); [|reflexivity]. cbn [andb].
      assert (cnt e u scale <= cnt e1 u1 scale) by (unfold cnt; now destruct (String.eqb scale "epoch")).
      assert (cnt e1 u1 scale <= cnt e2 u2 scale) by (unfold cnt; now destruct (String.eqb scale "epoch")).
      destruct (Nat.ltb_spec (cnt e u scale) n), (Nat.leb_spec n (cnt e1 u1 scale)), (Nat.ltb_spec (cnt e1 u1 scale) n),
        (Nat.leb_spec n (cnt e2 u2 scale)); cbn [andb app]; rewrite ?app_nil_r; try lia; reflexivity.
    - rewrite updates_app, A4, B4. now apply seq_join.
    - rewrite loggeds_app, A5, B5. now apply seq_join.
  Qed.

  Lemma calls_names scale c (ev : list (event V)) : (forall x, In x ev -> exists nm v b, x = Called scale c nm v b) ->
    (forall sc n, (sc, n) <> (scale, c) -> names_at sc n ev = []) /\ updates ev = [] /\ loggeds ev = [] /\ steps ev = [].
  Proof.
    induction ev as [|x r IH]; intros H; [repeat split|].
    destruct (H x (or_introl eq_refl)) as [nm [v [b ->]]].
    destruct IH as [I1 [I2 [I3 I4]]]; [intros; apply H; now right|].
    repeat split; try assumption. intros sc n N. cbn [names_at flat_map].
    destruct (String.eqb_spec scale sc) as [->|]; cbn [andb app]; [|now apply I1].
    destruct (Nat.eqb_spec c n) as [->|]; [congruence | now apply I1].
  Qed.

  (** an update / the end of an epoch followed by the calls of the hooks *)
  Lemma seg_step hooks e u (scale : string) ev x :
    (scale = "update" /\ x = Updated (S u) \/ scale = "epoch" /\ exists v, x = Logged (S e) v) ->
    let c := S (cnt e u scale) in
    (forall y, In y ev -> exists nm v b, y = Called scale c nm v b) ->
    names_at scale c ev = due hooks scale c ->
    seg hooks e u (if String.eqb scale "epoch" then S e else e) (if String.eqb scale "epoch" then u else S u) (x :: ev).
  Proof.
    intros Hx c Hc Hn. destruct (calls_names scale c ev Hc) as [I1 [I2 [I3 I4]]].
    assert (Hxc : forall sc n, names_at sc n (x :: ev) = names_at sc n ev) by (destruct Hx as [[_ ->]|[_ [v ->]]]; reflexivity).
    split.
    - destruct (String.eqb scale "epoch"); lia.
    - destruct (String.eqb scale "epoch"); lia.
    - intros sc n. rewrite Hxc.
      destruct (String.eqb_spec sc scale) as [->|N].
      + assert (K : known scale = true) by (destruct Hx as [[-> _]|[-> _]]; reflexivity). rewrite K. cbn [andb].
        assert (Ec : cnt (if String.eqb scale "epoch" then S e else e) (if String.eqb scale "epoch" then u else S u) scale = c)
          by (unfold c, cnt; now destruct (String.eqb scale "epoch")).
        rewrite Ec. destruct (Nat.ltb_spec (cnt e u scale) n); destruct (Nat.leb_spec n c); cbn [andb];
          try (apply I1; unfold c in *; intros [= ?]; lia).
        assert (n = c) by (unfold c in *; lia). subst n. exact Hn.
      + rewrite I1 by congruence.
        assert (Ec : known sc = true -> cnt (if String.eqb scale "epoch" then S e else e) (if String.eqb scale "epoch" then u else S u) sc = cnt e u sc).
        { intros Kn. unfold known in Kn. unfold cnt. destruct Hx as [[-> _]|[-> _]]; cbn [String.eqb].
          - change (String.eqb "update" "epoch") with false. destruct (String.eqb_spec sc "epoch"); [reflexivity|].
            simpl in Kn. apply String.eqb_eq in Kn. congruence.
          - change (String.eqb "epoch" "epoch") with true. destruct (String.eqb_spec sc "epoch"); [congruence | reflexivity]. }
        destruct (known sc) eqn:K; [|reflexivity]. rewrite (Ec eq_refl). cbn [andb].
        destruct (Nat.ltb_spec (cnt e u sc) n); [|reflexivity]. destruct (Nat.leb_spec n (cnt e u sc)); [lia | reflexivity].
    - destruct Hx as [[-> ->]|[-> [v ->]]].
      + change (String.eqb "update" "epoch") with false. cbv iota. cbn [updates flat_map app]. fold (updates ev). rewrite I2.
        replace (S u - u) with 1 by lia. reflexivity.
      + change (String.eqb "epoch" "epoch") with true. cbv iota. cbn [updates flat_map app]. fold (updates ev). rewrite I2. now rewrite Nat.sub_diag.
    - destruct Hx as [[-> ->]|[-> [v ->]]].
      + change (String.eqb "update" "epoch") with false. cbv iota. cbn [loggeds flat_map app]. fold (loggeds ev). rewrite I3. now rewrite Nat.sub_diag.
      + change (String.eqb "epoch" "epoch") with true. cbv iota. cbn [loggeds flat_map app]. fold (loggeds ev). rewrite I3.
        replace (S e - e) with 1 by lia. reflexivity.
  Qed.

  (** After a stop in [ev] no update follows, and the scores of the epoch are
      logged if it was requested by an update hook. *)
  Definition after_stop (f : string -> list nat) (ev : list (event V)) : Prop :=
    forall l sc n nm v r, ev = l ++ Called sc n nm v true :: r -> updates r = [] /\ loggeds r = f sc.
  Lemma app_split {A} (a b l : list A) x r : a ++ b = l ++ x :: r ->
    (exists r1, a = l ++ x :: r1 /\ r = r1 ++ b) \/ (exists l1, b = l1 ++ x :: r /\ l = a ++ l1).
  Proof.
    revert l. induction a as [|y a IH]; intros l E.
    - right. now exists l.
    - destruct l as [|z l]; injection E as E1 E; subst.
      + left. now exists a.
      + destruct (IH l E) as [[r1 [-> ->]]|[l1 [-> ->]]]; [left; now exists r1 | right; now exists l1].
  Qed.
  Lemma after_app_r f a b : existsb stops a = false -> after_stop f b -> after_stop f (a ++ b).
  Proof.
    intros A B l sc n nm v r E. destruct (app_split _ _ _ _ _ E) as [[r1 [Ea _]]|[l1 [Eb _]]].
    - rewrite Ea, existsb_app in A. cbn in A. now rewrite orb_true_r in A.
    - exact (B _ _ _ _ _ _ Eb).
  Qed.
  Lemma after_calls scale c ev f : (forall x, In x ev -> exists nm v b, x = Called scale c nm v b) -> f scale = [] -> after_stop f ev.
  Proof.
    intros H F l sc n nm v r ->. assert (H' : forall x, In x r -> exists nm v b, x = Called scale c nm v b).
    { intros x Hx. apply H. apply in_or_app. right. now right. }
    destruct (calls_names _ _ _ H') as [_ [-> [-> _]]]. split; [reflexivity|].
    destruct (H (Called sc n nm v true)) as [? [? [? [= -> _ _ _]]]]; [apply in_or_app; right; now left|]. now symmetry.
  Qed.
  Lemma after_cons f x ev : stops x = false -> after_stop f ev -> after_stop f (x :: ev).
  Proof. intros H A. apply (after_app_r f [x]); [cbn; now rewrite H | exact A]. Qed.

  Lemma calls_pos e0 u0 scale c prev (ev : list (event V)) : (forall x, In x ev -> exists nm v b, x = Called scale c nm v b) ->
    matches e0 u0 prev scale c -> pos_ok e0 u0 prev ev.
  Proof.
    intros H M. induction ev as [|x r IH]; [exact I|]. destruct (H x (or_introl eq_refl)) as [nm [v [b ->]]].
    cbn [pos_ok next]. split; [assumption|]. apply IH. intros; apply H; now right.
  Qed.
  Lemma calls_last prev scale c (ev : list (event V)) : (forall x, In x ev -> exists nm v b, x = Called scale c nm v b) -> last_of prev ev = prev.
  Proof. intros H. apply last_calls. intros x Hx. destruct (H x Hx) as [nm [v [b ->]]]. eauto 6. Qed.

  Lemma batches_spec hooks e0 u0 bs : forall scores s s' stop scores' ev prev,
    run_batches V W Batch Score train_step hooks bs scores s = Some (s', stop, scores', ev) ->
    t_epoch V W s' = t_epoch V W s /\ stop = existsb stops ev /\ t_results V W s' = t_results V W s /\
    seg hooks (t_epoch V W s) (t_update V W s) (t_epoch V W s) (t_update V W s') ev /\
    after_stop (fun _ => []) ev /\ pos_ok e0 u0 prev ev /\
    (forall k p, lists_at (k :: p) (t_logs V W s') = lists_at (k :: p) (t_logs V W s) ++ logged_values k p ev) /\
    (stop = false -> t_update V W s' = t_update V W s + length bs) /\ t_update V W s' <= t_update V W s + length bs.
  Proof.
    induction bs as [|b r IH]; intros scores s s' stop scores' ev prev H; cbn [run_batches] in H.
    - injection H as <- <- <- <-. split; [reflexivity|]. split; [reflexivity|]. split; [reflexivity|]. split; [apply seg_nil|].
      split; [intros l sc n nm v r E; destruct l; discriminate|]. split; [exact I|]. split; [intros; now rewrite app_nil_r|]. simpl. lia.
    - destruct (train_step _ b) as [[w sc]|]; [|discriminate].
      set (s1 := mkState V W (t_epoch V W s) (S (t_update V W s)) (t_logs V W s) (t_results V W s) w) in H.
      destruct (emit_hooks V W false hooks "update" s1) as [[[s2 st] ev1]|] eqn:E; [|discriminate].
      destruct (emit_spec hooks "update" s1 s2 st ev1 E) as [H1 [H2 [H3 [H4 [H5 [H6 H7]]]]]].
      change (count V W "update" s1) with (S (t_update V W s)) in H5, H6.
      assert (G := seg_step hooks (t_epoch V W s) (t_update V W s) "update" ev1 (Updated (S (t_update V W s))) (or_introl (conj eq_refl eq_refl)) H5 H6).
      change (String.eqb "update" "epoch") with false in G. cbv iota in G.
      assert (Nu : after_stop (fun _ => []) (Updated (S (t_update V W s)) :: ev1)).
      { apply after_cons; [reflexivity|]. now apply (after_calls "update" (S (t_update V W s))). }
      assert (P1 : pos_ok e0 u0 prev (Updated (S (t_update V W s)) :: ev1)).
      { cbn [pos_ok next]. split; [exact I|]. apply (calls_pos e0 u0 "update" (S (t_update V W s))); [exact H5 | now split]. }
      destruct st.
      + injection H as <- <- <- <-. rewrite H1, H2, H3. cbn [t_epoch t_update t_results s1].
        split; [reflexivity|]. split; [cbn [existsb stops orb]; exact H4|]. split; [reflexivity|]. split; [exact G|]. split; [exact Nu|].
        split; [exact P1|]. split; [intros k p; rewrite H7; reflexivity|]. split; [discriminate | simpl; lia].
      + destruct (run_batches V W Batch Score train_step hooks r _ s2) as [[[[s3 st3] sc3] ev3]|] eqn:Er; [|discriminate]. injection H as <- <- <- <-.
        destruct (IH _ s2 s3 st3 sc3 ev3 (last_of prev (Updated (S (t_update V W s)) :: ev1)) Er) as [K1 [K2 [K3 [K4 [K5 [K6 [K7 [K8 K9]]]]]]]].
        rewrite K1, K3, H1, H3. rewrite H1, H2 in K4. rewrite H2 in K8, K9. cbn [t_epoch t_update t_results s1] in *.
        change (Updated (S (t_update V W s)) :: ev1 ++ ev3) with ((Updated (S (t_update V W s)) :: ev1) ++ ev3).
        split; [reflexivity|]. split; [rewrite existsb_app; cbn [existsb stops orb]; rewrite <- H4, <- K2; reflexivity|]. split; [reflexivity|].
        split; [exact (seg_app _ _ _ _ _ _ _ _ _ G K4)|].
        split; [apply after_app_r; [cbn [existsb stops orb]; now rewrite <- H4 | exact K5]|].
        split; [apply pos_app; split; [exact P1 | exact K6]|].
        split; [intros k p; rewrite K7, H7, values_app, app_assoc; reflexivity|].
        cbn [length]. split; [intros F; rewrite (K8 F); lia | lia].
  Qed.

  Lemma epoch_spec hooks e0 u0 s s' stop ev prev :
    run_epoch V W Batch Score new_iterator train_step aggregate hooks s = Some (s', stop, ev) ->
    t_epoch V W s' = S (t_epoch V W s) /\ stop = existsb stops ev /\ t_results V W s' = t_results V W s /\
    seg hooks (t_epoch V W s) (t_update V W s) (t_epoch V W s') (t_update V W s') ev /\
    after_stop (fun sc => if String.eqb sc "update" then [t_epoch V W s'] else []) ev /\ pos_ok e0 u0 prev ev /\
    (forall k p, lists_at (k :: p) (t_logs V W s') = lists_at (k :: p) (t_logs V W s) ++ logged_values k p ev) /\
    (exists l v, steps ev = l ++ [Logged (t_epoch V W s') v]) /\
    (let bs := snd (new_iterator (t_world V W s)) in
     (forall u nm v, ~ In (Called "update" u nm v true) ev) -> t_update V W s' = t_update V W s + length bs).
  Proof.
    intros H. unfold run_epoch in H. destruct (new_iterator _) as [w bs].
    set (s0 := mkState V W (S (t_epoch V W s)) (t_update V W s) (t_logs V W s) (t_results V W s) w) in H.
    destruct (run_batches V W Batch Score train_step hooks bs [] s0) as [[[[s1 st1] sc] ev1]|] eqn:Eb; [|discriminate].
    destruct (batches_spec hooks e0 u0 bs [] s0 s1 st1 sc ev1 prev Eb) as [K1 [K2 [K3 [K4 [K5 [K6 [K7 [K8 K9]]]]]]]].
    set (v := aggregate _ sc) in H. destruct (add_log "rolling_training" v (t_logs V W s1)) as [ls|] eqn:El; [|discriminate].
    set (s2 := mkState V W (t_epoch V W s1) (t_update V W s1) ls (t_results V W s1) (t_world V W s1)) in H.
    destruct (emit_hooks V W false hooks "epoch" s2) as [[[s3 st2] ev2]|] eqn:E; [|discriminate]. injection H as <- <- <-.
    destruct (emit_spec hooks "epoch" s2 s3 st2 ev2 E) as [H1 [H2 [H3 [H4 [H5 [H6 H7]]]]]].
    change (count V W "epoch" s2) with (t_epoch V W s1) in H5, H6. rewrite K1 in *. cbn [t_epoch t_update s0 s2] in *. rewrite H1, H2, H3, K1. cbn [t_epoch s0].
    assert (G := seg_step hooks (t_epoch V W s) (t_update V W s1) "epoch" ev2 (Logged (S (t_epoch V W s)) v)).
    change (String.eqb "epoch" "epoch") with true in G. cbv iota in G.
    specialize (G ltac:(right; split; [reflexivity | now exists v]) H5 H6).
    destruct (calls_names "epoch" (S (t_epoch V W s)) ev2 H5) as [_ [Ne [_ Ns]]].
    (* the updates belong to the same epoch counter *)
    assert (K4' : seg hooks (t_epoch V W s) (t_update V W s) (t_epoch V W s) (t_update V W s1) ev1).
    { destruct K4 as [A1 A2 A3 A4 A5]. rewrite Nat.sub_diag in A5. split; try lia; try assumption.
      - intros scale n. rewrite A3. unfold cnt. destruct (known scale); [|reflexivity]. cbn [andb].
        destruct (String.eqb scale "epoch"); [|reflexivity].
        destruct (Nat.ltb_spec (S (t_epoch V W s)) n), (Nat.leb_spec n (S (t_epoch V W s))), (Nat.ltb_spec (t_epoch V W s) n), (Nat.leb_spec n (t_epoch V W s));
          cbn [andb]; try lia; reflexivity.
      - now rewrite Nat.sub_diag. }
    split; [reflexivity|].
    split; [rewrite existsb_app; cbn [existsb stops orb]; now rewrite <- H4, <- K2|].
    split; [exact K3|]. split; [exact (seg_app _ _ _ _ _ _ _ _ _ K4' G)|].
    assert (Sc : forall scale n nm v0 b, In (Called scale n nm v0 b) ev1 -> scale = "update").
    { intros scale n nm v0 b Hx. apply in_split in Hx. destruct Hx as [l1 [l2 El2]].
      assert (N := sg_names _ _ _ _ _ _ K4 scale n).
      assert (Hn : In nm (names_at scale n ev1)).
      { rewrite El2, names_app. apply in_or_app. right. cbn [names_at flat_map]. rewrite String.eqb_refl, Nat.eqb_refl. now left. }
      rewrite N in Hn. unfold known, cnt in Hn. destruct (String.eqb_spec scale "epoch") as [->|N1].
      - exfalso. cbn [orb andb] in Hn. destruct (Nat.ltb_spec (S (t_epoch V W s)) n) as [A|A]; [|destruct Hn].
        destruct (Nat.leb_spec n (S (t_epoch V W s))); [lia | destruct Hn].
      - cbn [orb] in Hn. destruct (String.eqb_spec scale "update"); [assumption | destruct Hn]. }
    split.
    { intros l sc0 n nm v0 r Ev. destruct (app_split _ _ _ _ _ Ev) as [[r1 [Ea ->]]|[l1 [Ebb _]]].
      - destruct (K5 _ _ _ _ _ _ Ea) as [U1 U2]. rewrite updates_app, loggeds_app, U1, U2.
        rewrite (Sc sc0 n nm v0 true) by (rewrite Ea; apply in_or_app; right; now left). cbn [app updates loggeds flat_map].
        change (String.eqb "update" "update") with true. cbv iota. destruct (calls_names _ _ _ H5) as [_ [L1 [L2 _]]].
        split; [exact L1|]. f_equal. exact L2.
      - refine (after_cons (fun sc => if String.eqb sc "update" then [S (t_epoch V W s)] else []) (Logged (S (t_epoch V W s)) v) ev2 eq_refl _ l1 sc0 n nm v0 r Ebb).
        now apply (after_calls "epoch" (S (t_epoch V W s))). }
    split.
    { apply pos_app. split; [exact K6|]. cbn [pos_ok next]. split; [exact I|].
      apply (calls_pos e0 u0 "epoch" (S (t_epoch V W s))); [exact H5 | now split]. }
    split.
    { intros k p. rewrite H7. cbn [t_logs s2]. rewrite (add_log_spec v _ _ _ k p El), K7, values_app. cbn [logged_values flat_map t_logs s0].
      rewrite !app_assoc. reflexivity. }
    split.
    { exists (steps ev1), v. rewrite steps_app. cbn [steps filter]. fold (steps ev2). now rewrite Ns. }
    cbn [snd]. intros Hs. apply K8. rewrite K2. destruct (existsb stops ev1) eqn:Ex; [|reflexivity]. exfalso.
    apply existsb_exists in Ex. destruct Ex as [x [Hx Sx]]. destruct x as [scale n nm v0 b| |]; try discriminate. simpl in Sx. subst b.
    assert (scale = "update") by exact (Sc _ _ _ _ _ Hx). subst scale.
    apply (Hs n nm v0). apply in_or_app. now left.
  Qed.

  Lemma epochs_spec hooks e0 u0 fuel : forall s s' fin ev prev,
    run_epochs V W Batch Score new_iterator train_step aggregate hooks fuel s = Some (s', fin, ev) ->
    fin = existsb stops ev /\ t_results V W s' = t_results V W s /\
    seg hooks (t_epoch V W s) (t_update V W s) (t_epoch V W s') (t_update V W s') ev /\
    after_stop (fun sc => if String.eqb sc "update" then [t_epoch V W s'] else []) ev /\ pos_ok e0 u0 prev ev /\
    (forall k p, lists_at (k :: p) (t_logs V W s') = lists_at (k :: p) (t_logs V W s) ++ logged_values k p ev) /\
    (t_epoch V W s' = t_epoch V W s /\ steps ev = [] \/ exists l v, steps ev = l ++ [Logged (t_epoch V W s') v]).
  Proof.
    induction fuel as [|f IH]; intros s s' fin ev prev H; cbn [run_epochs] in H.
    - injection H as <- <- <-. split; [reflexivity|]. split; [reflexivity|]. split; [apply seg_nil|].
      split; [intros l sc n nm v r E; destruct l; discriminate|]. split; [exact I|]. split; [intros; now rewrite app_nil_r|]. left. now split.
    - destruct (run_epoch V W Batch Score new_iterator train_step aggregate hooks s) as [[[s1 st] ev1]|] eqn:E; [|discriminate].
      destruct (epoch_spec hooks e0 u0 s s1 st ev1 prev E) as [K1 [K2 [K3 [K4 [K5 [K6 [K7 [K8 _]]]]]]]].
      destruct st.
      + injection H as <- <- <-. split; [exact K2|]. split; [exact K3|]. split; [exact K4|]. split; [exact K5|]. split; [exact K6|]. split; [exact K7|].
        right. exact K8.
      + destruct (run_epochs V W Batch Score new_iterator train_step aggregate hooks f s1) as [[[s2 fin2] ev2]|] eqn:E2; [|discriminate]. injection H as <- <- <-.
        destruct (IH s1 s2 fin2 ev2 (last_of prev ev1) E2) as [J1 [J2 [J3 [J4 [J5 [J6 J7]]]]]].
        split; [rewrite existsb_app, <- K2; exact J1|]. split; [congruence|].
        split; [exact (seg_app _ _ _ _ _ _ _ _ _ K4 J3)|].
        split; [apply after_app_r; [now rewrite <- K2 | exact J4]|].
        split; [apply pos_app; now split|].
        split; [intros k p; rewrite J6, K7, values_app, app_assoc; reflexivity|].
        right. rewrite steps_app. destruct K8 as [l [v K8]]. destruct J7 as [[Je ->]|[l2 [v2 ->]]].
        * rewrite app_nil_r, K8, Je. eauto.
        * exists (steps ev1 ++ l2), v2. now rewrite app_assoc.
  Qed.

  (** The whole run. *)
  Record run (hooks : list hook) (s s' : state) (fin : bool) (tr : list (event V)) : Prop := {
    r_e : t_epoch V W s <= t_epoch V W s';
    r_u : t_update V W s <= t_update V W s';
    r_fin : fin = existsb stops tr;
    r_update : forall n, names_at "update" n tr =
      if (t_update V W s <=? n) && (n <=? t_update V W s') then due hooks "update" n else [];
    r_epoch : (forall nm v, ~ In (Called "update" (t_update V W s) nm v true) tr) -> forall n, names_at "epoch" n tr =
      if (t_epoch V W s <=? n) && (n <=? t_epoch V W s') then due hooks "epoch" n else [];
    r_other : forall sc n, sc <> "epoch" -> sc <> "update" -> names_at sc n tr = [];
    r_upd : updates tr = seq (S (t_update V W s)) (t_update V W s' - t_update V W s);
    r_log : loggeds tr = seq (S (t_epoch V W s)) (t_epoch V W s' - t_epoch V W s);
    r_after : forall l sc n nm v r, tr = l ++ Called sc n nm v true :: r ->
      updates r = [] /\ loggeds r = if String.eqb sc "update" && (t_update V W s <? n) then [t_epoch V W s'] else [];
    r_pos : pos_ok (t_epoch V W s) (t_update V W s) None tr;
    r_logs : forall k p, lists_at (k :: p) (t_logs V W s') = lists_at (k :: p) (t_logs V W s) ++ logged_values k p tr;
    r_last : steps tr = [] \/ exists l v, steps tr = l ++ [Logged (t_epoch V W s') v];
    r_prestop : (exists nm v, In (Called "update" (t_update V W s) nm v true) tr) -> t_epoch V W s' = t_epoch V W s /\ t_update V W s' = t_update V W s /\
       forall n, names_at "epoch" n tr = [] }.

  Lemma train_spec start hooks fuel s s' fin tr :
    train V W Batch Score new_iterator train_step aggregate start hooks fuel s = Some (s', fin, tr) -> run hooks s s' fin tr.
  Proof.
    intros H. unfold train in H. destruct (start _) as [w0|]; [|discriminate]. destruct (start_hooks V W hooks w0) as [w1|]; [|discriminate].
    set (s1 := mkState V W (t_epoch V W s) (t_update V W s) (t_logs V W s) (t_results V W s) w1) in H.
    destruct (emit_hooks V W false hooks "update" s1) as [[[s2 st1] ev1]|] eqn:E1; [|discriminate].
    destruct (emit_spec hooks "update" s1 s2 st1 ev1 E1) as [H1 [H2 [H3 [H4 [H5 [H6 H7]]]]]].
    change (count V W "update" s1) with (t_update V W s) in H5, H6. cbn [t_epoch t_update s1] in H1, H2.
    destruct (calls_names _ _ _ H5) as [N1 [N2 [N3 N4]]].
    assert (One : forall (n a : nat), (a <=? n) && (n <=? a) = (n =? a)).
    { intros n a. destruct (Nat.leb_spec a n), (Nat.leb_spec n a), (Nat.eqb_spec n a); simpl; lia || reflexivity. }
    assert (P1 : pos_ok (t_epoch V W s) (t_update V W s) None ev1) by (apply (calls_pos _ _ "update" (t_update V W s)); [exact H5 | left; now split]).
    destruct st1.
    - injection H as <- <- <-. symmetry in H4.
      assert (St : exists nm v, In (Called "update" (t_update V W s) nm v true) ev1).
      { apply existsb_exists in H4. destruct H4 as [x [Hx Sx]]. destruct (H5 x Hx) as [nm [v [b ->]]]. simpl in Sx. subst b. eauto. }
      constructor; rewrite ?H1, ?H2, ?Nat.sub_diag; try lia; try assumption; try (now symmetry).
      + intros n. rewrite One. destruct (Nat.eqb_spec n (t_update V W s)) as [->|N]; [exact H6 | apply N1; congruence].
      + intros No. exfalso. destruct St as [nm [v Hin]]. exact (No nm v Hin).
      + intros sc n M1 M2. apply N1. congruence.
      + intros l sc n nm v r Ev. assert (A : after_stop (fun _ => []) ev1) by (now apply (after_calls "update" (t_update V W s))).
        destruct (A _ _ _ _ _ _ Ev) as [-> ->]. split; [reflexivity|].
        destruct (H5 (Called sc n nm v true)) as [? [? [? [= _ -> _ _]]]]; [rewrite Ev; apply in_or_app; right; now left|].
        rewrite Nat.ltb_irrefl. now rewrite andb_false_r.
      + now left.
      + intros _. split; [reflexivity|]. split; [reflexivity|]. intros n. apply N1. congruence.
    - assert (Ns : forall nm v, ~ In (Called "update" (t_update V W s) nm v true) ev1).
      { intros nm v Hin. symmetry in H4. apply Bool.not_true_iff_false in H4. apply H4. apply existsb_exists. eexists. split; [exact Hin | reflexivity]. }
      assert (Ns' : forall l sc n nm v r1, ev1 = l ++ Called sc n nm v true :: r1 -> False).
      { intros l sc n nm v r1 Ea. rewrite Ea, existsb_app in H4. cbn in H4. rewrite orb_true_r in H4. discriminate. }
      destruct (emit_hooks V W false hooks "epoch" s2) as [[[s3 st2] ev2]|] eqn:E2; [|discriminate].
      destruct (emit_spec hooks "epoch" s2 s3 st2 ev2 E2) as [I1 [I2 [I3 [I4 [I5 [I6 I7]]]]]].
      change (count V W "epoch" s2) with (t_epoch V W s2) in I5, I6. rewrite H1 in I5, I6, I1. rewrite H2 in I2.
      destruct (calls_names _ _ _ I5) as [M1 [M2 [M3 M4]]].
      assert (P2 : pos_ok (t_epoch V W s) (t_update V W s) None (ev1 ++ ev2)).
      { apply pos_app. split; [exact P1|]. rewrite (calls_last _ _ _ _ H5). apply (calls_pos _ _ "epoch" (t_epoch V W s)); [exact I5 | right; now split]. }
      assert (Ne2 : forall u nm v b, ~ In (Called "update" u nm v b) ev2).
      { intros u nm v b Hin. destruct (I5 _ Hin) as [nm' [v' [b' Eq]]]. discriminate. }
      assert (Nu2 : forall n, names_at "update" n (ev1 ++ ev2) = if n =? t_update V W s then due hooks "update" n else []).
      { intros n. rewrite names_app, (M1 "update" n) by congruence. rewrite app_nil_r.
        destruct (Nat.eqb_spec n (t_update V W s)) as [->|N]; [exact H6 | apply N1; congruence]. }
      assert (Nep : forall n, names_at "epoch" n (ev1 ++ ev2) = if n =? t_epoch V W s then due hooks "epoch" n else []).
      { intros n. rewrite names_app, (N1 "epoch" n) by congruence. cbn [app].
        destruct (Nat.eqb_spec n (t_epoch V W s)) as [->|N]; [exact I6 | apply M1; congruence]. }
      assert (Lg2 : forall k p, lists_at (k :: p) (t_logs V W s3) = lists_at (k :: p) (t_logs V W s) ++ logged_values k p (ev1 ++ ev2)).
      { intros k p. rewrite I7, H7, values_app, app_assoc. reflexivity. }
      assert (Up2 : updates (ev1 ++ ev2) = []) by (now rewrite updates_app, N2, M2).
      assert (Lo2 : loggeds (ev1 ++ ev2) = []) by (now rewrite loggeds_app, N3, M3).
      assert (St2 : steps (ev1 ++ ev2) = []) by (now rewrite steps_app, N4, M4).
      destruct st2.
      + injection H as <- <- <-. constructor; rewrite ?I1, ?I2, ?Nat.sub_diag; try lia; try assumption.
        * now rewrite existsb_app, <- H4, <- I4.
        * intros n. now rewrite One, Nu2.
        * intros _ n. now rewrite One, Nep.
        * intros sc n A B. rewrite names_app, N1, M1 by congruence. reflexivity.
        * intros l sc n nm v r Ev. destruct (app_split _ _ _ _ _ Ev) as [[r1 [Ea _]]|[l1 [Eb _]]].
          { destruct (Ns' _ _ _ _ _ _ Ea). }
          assert (A : after_stop (fun _ => []) ev2) by (now apply (after_calls "epoch" (t_epoch V W s))).
          destruct (A _ _ _ _ _ _ Eb) as [-> ->]. split; [reflexivity|].
          destruct (I5 (Called sc n nm v true)) as [? [? [? [= -> _ _ _]]]]; [rewrite Eb; apply in_or_app; right; now left|]. reflexivity.
        * now left.
        * intros [nm [v Hin]]. apply in_app_or in Hin. destruct Hin as [Hin|Hin]; [destruct (Ns _ _ Hin) | destruct (Ne2 _ _ _ _ Hin)].
      + destruct (run_epochs V W Batch Score new_iterator train_step aggregate hooks fuel s3) as [[[s4 fin4] ev3]|] eqn:E3; [|discriminate].
        injection H as <- <- <-.
        destruct (epochs_spec hooks (t_epoch V W s) (t_update V W s) fuel s3 s4 fin4 ev3 None E3) as [J1 [J2 [J3 [J4 [J5 [J6 J7]]]]]].
        rewrite I1, I2 in J3. destruct J3 as [A1 A2 A3 A4 A5]. rewrite app_assoc.
        assert (Ne3 : forall nm v, ~ In (Called "update" (t_update V W s) nm v true) ev3).
        { intros nm v Hin. assert (In nm (names_at "update" (t_update V W s) ev3)).
          { apply in_split in Hin. destruct Hin as [l1 [l2 ->]]. rewrite names_app. apply in_or_app. right. cbn [names_at flat_map].
            rewrite String.eqb_refl, Nat.eqb_refl. now left. }
          rewrite A3 in H. change (known "update") with true in H. change (cnt (t_epoch V W s) (t_update V W s) "update") with (t_update V W s) in H.
          cbn [andb] in H. rewrite Nat.ltb_irrefl in H. destruct H. }
        constructor; try assumption.
        * rewrite existsb_app, (existsb_app _ ev1 ev2), <- H4, <- I4. exact J1.
        * intros n. rewrite names_app, Nu2, A3. change (known "update") with true.
          change (cnt (t_epoch V W s) (t_update V W s) "update") with (t_update V W s). change (cnt (t_epoch V W s4) (t_update V W s4) "update") with (t_update V W s4).
          cbn [andb]. destruct (Nat.eqb_spec n (t_update V W s)), (Nat.ltb_spec (t_update V W s) n), (Nat.leb_spec (t_update V W s) n), (Nat.leb_spec n (t_update V W s4));
            cbn [andb app]; rewrite ?app_nil_r; try lia; reflexivity.
        * intros _ n. rewrite names_app, Nep, A3. change (known "epoch") with true.
          change (cnt (t_epoch V W s) (t_update V W s) "epoch") with (t_epoch V W s). change (cnt (t_epoch V W s4) (t_update V W s4) "epoch") with (t_epoch V W s4).
          cbn [andb]. destruct (Nat.eqb_spec n (t_epoch V W s)), (Nat.ltb_spec (t_epoch V W s) n), (Nat.leb_spec (t_epoch V W s) n), (Nat.leb_spec n (t_epoch V W s4));
            cbn [andb app]; rewrite ?app_nil_r; try lia; reflexivity.
        * intros sc n B1 B2. rewrite names_app, names_app, N1, M1 by congruence. rewrite A3.
          assert (K : known sc = false) by (unfold known; destruct (String.eqb_spec sc "epoch"), (String.eqb_spec sc "update"); try reflexivity; contradiction).
          now rewrite K.
        * rewrite updates_app, Up2. exact A4.
        * rewrite loggeds_app, Lo2. exact A5.
        * intros l sc n nm v r Ev.
          assert (A : after_stop (fun sc => if String.eqb sc "update" then [t_epoch V W s4] else []) ((ev1 ++ ev2) ++ ev3))
            by (apply after_app_r; [now rewrite existsb_app, <- H4, <- I4 | exact J4]).
          destruct (A _ _ _ _ _ _ Ev) as [-> ->]. split; [reflexivity|]. destruct (String.eqb_spec sc "update") as [->|]; [|reflexivity].
          destruct (app_split _ _ _ _ _ Ev) as [[r1 [Ea _]]|[l1 [Eb _]]].
          { assert (X : existsb stops (ev1 ++ ev2) = true) by (rewrite Ea, existsb_app; cbn; apply orb_true_r).
            rewrite existsb_app, <- H4, <- I4 in X. discriminate. }
          assert (Hn : In nm (names_at "update" n ev3)).
          { rewrite Eb, names_app. apply in_or_app. right. cbn [names_at flat_map]. rewrite Nat.eqb_refl. now left. }
          rewrite A3 in Hn. change (known "update") with true in Hn. change (cnt (t_epoch V W s) (t_update V W s) "update") with (t_update V W s) in Hn.
          cbn [andb] in Hn |- *. destruct (t_update V W s <? n); [reflexivity | destruct Hn].
        * apply pos_app. split; [exact P2|]. rewrite last_app, (calls_last _ _ _ _ H5), (calls_last _ _ _ _ I5). exact J5.
        * intros k p. rewrite J6, Lg2, (values_app V k p (ev1 ++ ev2)), app_assoc. reflexivity.
        * rewrite steps_app, St2. cbn [app]. destruct J7 as [[_ ->]|J7]; [now left | now right].
        * intros [nm [v Hin]]. apply in_app_or in Hin. destruct Hin as [Hin|Hin]; [|destruct (Ne3 _ _ Hin)].
          apply in_app_or in Hin. destruct Hin as [Hin|Hin]; [destruct (Ns _ _ Hin) | destruct (Ne2 _ _ _ _ Hin)].
  Qed.
End Run.
