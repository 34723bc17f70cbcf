(** Lemmas for C74: the texts of the progress bar. *)
From Coq Require Import String Ascii List Arith Bool Lia.
From Verif Require Import TrainerModel ProgressModel.
Import ListNotations.
Open Scope string_scope.
Open Scope list_scope.
Open Scope nat_scope.

Lemma substring_join s : forall i j, i <= j -> (substring 0 i s ++ substring i (j - i) s)%string = substring 0 j s.
Proof.
  induction s as [|c s IH]; intros i j H.
  - destruct i, j; reflexivity.
  - destruct i as [|i]; [cbn [substring]; now rewrite Nat.sub_0_r|]. destruct j as [|j]; [lia|]. cbn [substring Nat.sub append]. f_equal. apply IH. lia.
Qed.
Lemma substring_all s : substring 0 (String.length s) s = s.
Proof. induction s as [|c s IH]; cbn; [reflexivity|]. now rewrite IH. Qed.
Lemma append_assoc a b c : ((a ++ b) ++ c)%string = (a ++ (b ++ c))%string.
Proof. induction a as [|x a IH]; cbn; [reflexivity|]. now rewrite IH. Qed.
Lemma append_empty a : (a ++ "")%string = a.
Proof. induction a as [|x a IH]; cbn; [reflexivity|]. now rewrite IH. Qed.

(** What is assumed about the float computation math.trunc(progress / maximum * len(bar)) *)
Definition sound_fraction (fraction : nat -> nat -> nat -> nat) : Prop := forall l n, 0 < l -> 0 < n ->
  (forall p q, p <= q -> q <= l -> fraction p l n <= fraction q l n) /\ (forall p, p < l -> fraction p l n < n) /\ fraction l l n = n.

Section Epoch.
  Variables (fraction : nat -> nat -> nat -> nat) (elapsed : nat -> string) (l : nat).
  Hypothesis Hf : sound_fraction fraction.
  Hypothesis Hl : 2 <= l.
  (** The line of a complete epoch that ends with update u *)
  Definition line (u : nat) : string := (prefix ++ bar ++ suffix (elapsed u) ++ newline)%string.
  Fixpoint lines (e : nat) : string := match e with 0 => "" | S n => (lines n ++ line (S n * l))%string end.
  (** How much of the bar is shown after k updates of an epoch *)
  Definition shown (k : nat) : nat := if k <=? 1 then 0 else fraction k l (String.length bar).
  (** The state after k < l updates of epoch e + 1 *)
  Definition state_after (before : string) (e k : nat) (b : pbar) : Prop :=
    p_length b = l /\
    if k =? 0 then p_out b = (before ++ lines e)%string /\ (p_bar b = None \/ p_bar b = Some Done)
    else p_out b = (before ++ lines e ++ prefix ++ substring 0 (shown k) bar)%string /\ p_bar b = Some (Loop (shown k)).
  Lemma bar_length : String.length bar = 50. Proof. reflexivity. Qed.
  Lemma call_step before e k b b' stop : k < l -> state_after before e k b -> call_bar fraction elapsed (S e) (e * l + S k) b = Some (b', stop) ->
    stop = false /\ if S k <? l then state_after before e (S k) b' else state_after before (S e) 0 b'.
  Proof.
    intros Hk [HL HS] H. unfold call_bar in H. rewrite HL in H. destruct (Hf l (String.length bar) ltac:(lia) ltac:(rewrite bar_length; lia)) as [F1 [F2 F3]].
    assert (E0 : (l =? 0) = false) by (apply Nat.eqb_neq; lia). rewrite E0 in H.
    destruct (negb _); [discriminate H|].
    assert (M : (e * l + S k) mod l = S k mod l) by (rewrite Nat.add_comm, Nat.mod_add by lia; reflexivity). rewrite M in H.
    destruct (S k <? l) eqn:El.
    - apply Nat.ltb_lt in El. rewrite (Nat.mod_small (S k) l El) in H. destruct (S k =? 1) eqn:E1.
      + apply Nat.eqb_eq in E1. assert (k = 0) by lia. subst k. cbn [gen_next] in H. injection H as <- <-. split; [reflexivity|]. destruct HS as [HS _].
        split; [reflexivity|]. cbn [Nat.eqb p_out p_bar shown Nat.leb]. split; [rewrite HS, append_assoc; reflexivity|reflexivity].
      + change (S k =? 0) with false in H. cbv iota in H. apply Nat.eqb_neq in E1. assert (Ek : (k =? 0) = false) by (apply Nat.eqb_neq; lia). rewrite Ek in HS. destruct HS as [HS HB]. rewrite HB in H. cbn [gen_send] in H.
        assert (Q : shown (S k) = fraction (S k) l (String.length bar)) by (unfold shown; destruct (S k <=? 1) eqn:X; [apply Nat.leb_le in X; lia|reflexivity]).
        assert (Le : shown k <= shown (S k)) by (rewrite Q; unfold shown; destruct (k <=? 1); [lia|apply F1; lia]).
        rewrite <- Q in H. assert (Lt : (shown (S k) <? String.length bar) = true) by (apply Nat.ltb_lt; rewrite Q; now apply F2). rewrite Lt in H. remember (substring (shown k) (shown (S k) - shown k) bar) as t eqn:Et. injection H as <- <-.
        split; [reflexivity|]. split; [reflexivity|]. cbn [p_out p_bar]. change (S k =? 0) with false. cbv iota. split; [|reflexivity]. rewrite HS, !append_assoc, Et, substring_join by exact Le. reflexivity.
    - apply Nat.ltb_ge in El. assert (S k = l) by lia. rewrite H0, Nat.mod_same in H by lia. change (0 =? 1) with false in H. change (0 =? 0) with true in H. cbv iota in H.
      assert (Ek : (k =? 0) = false) by (apply Nat.eqb_neq; lia). rewrite Ek in HS. destruct HS as [HS HB]. rewrite HB in H. cbn [gen_send] in H. rewrite F3, Nat.ltb_irrefl in H. remember (substring (shown k) (String.length bar - shown k) bar) as t eqn:Et. injection H as <- <-.
      split; [reflexivity|]. split; [reflexivity|]. change (0 =? 0) with true. cbv iota. cbn [p_out p_bar lines]. split; [|now right].
      assert (Le : shown k <= String.length bar) by (unfold shown; destruct (k <=? 1); [lia|apply Nat.lt_le_incl; apply F2; lia]).
      rewrite HS, !append_assoc. f_equal. f_equal. unfold line. f_equal. rewrite <- (append_assoc (substring 0 (shown k) bar)), Et, substring_join, substring_all by exact Le. rewrite ?append_assoc. replace (e * l + l) with (S e * l) by lia. reflexivity.
  Qed.
End Epoch.
