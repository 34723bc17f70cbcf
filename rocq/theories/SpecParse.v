(** Lemmas for C71: reading spec lines. *)
From Coq Require Import String Ascii List ZArith NArith QArith Bool Lia Arith.
From Coq Require DecimalString DecimalNat.
From Verif Require Import PyBase PyFacts SpecModel.
Import ListNotations.
Open Scope string_scope.
Open Scope list_scope.
Open Scope nat_scope.

(** ** How spec lines are written *)
(** A lower case letter, an integer, or a decimal number with a point *)
Definition sign_text (sign : option bool) : list ascii := match sign with Some true => ["-"%char] | Some false => ["+"%char] | None => [] end.
Definition all_of (p : ascii -> bool) (s : list ascii) : Prop := forallb p s = true.
Inductive spells : list ascii -> arg -> Prop :=
| sp_letter c : is_lower c = true -> spells [c] (ALetter c)
| sp_int sign ds : ds <> [] -> all_of is_digit ds -> spells (sign_text sign ++ ds) (AInt (match sign with Some true => - value_of ds | _ => value_of ds end)%Z)
| sp_num sign ds es : all_of is_digit ds -> es <> [] -> all_of is_digit es ->
    spells (sign_text sign ++ ds ++ "."%char :: es) (ANum (match sign with Some true => Qopp (decimal ds es) | _ => decimal ds es end)).
(** Whitespace with at most one of the separators : / | *)
Inductive gap : list ascii -> Prop :=
| gap_space s : all_of is_space s -> gap s
| gap_sep s c u : all_of is_space s -> is_sep c = true -> all_of is_space u -> gap (s ++ c :: u).
Definition joins_number (c : ascii) : bool := is_digit c || Ascii.eqb c "."%char.
Definition no_start (p : ascii -> bool) (s : list ascii) : Prop := match s with c :: _ => p c = false | [] => True end.
(** Arguments; a number is not directly followed by something that continues it. *)
Inductive writes_args : list ascii -> list arg -> Prop :=
| wa_nil : writes_args [] []
| wa_cons w a g s l : spells w a -> gap g -> writes_args s l -> g <> [] \/ (exists c, a = ALetter c) \/ no_start joins_number s -> writes_args (w ++ g ++ s) (a :: l).
(** Layers: upper case letters, whitespace, the arguments; a type without arguments is separated from the next layer. *)
Inductive writes : list ascii -> list (string * list arg) -> Prop :=
| w_nil : writes [] []
| w_cons ty sp s l rest its : ty <> [] -> all_of is_upper ty -> all_of is_space sp -> writes_args s l -> writes rest its -> sp ++ s <> [] \/ rest = [] ->
    writes (ty ++ sp ++ s ++ rest) ((string_of_list_ascii ty, l) :: its).

(** ** Characters *)
Ltac chars_tac := let c := fresh "c" in intros c; destruct c as [[] [] [] [] [] [] [] []]; vm_compute; try discriminate; reflexivity.
Lemma upper_cases : forall c, is_upper c = true -> (is_lower c || is_digit c || is_space c || is_sep c || Ascii.eqb c "." || Ascii.eqb c "-" || Ascii.eqb c "+")%bool = false. Proof. chars_tac. Qed.
Lemma lower_cases : forall c, is_lower c = true -> (is_upper c || is_digit c || is_space c || is_sep c || Ascii.eqb c ".")%bool = false. Proof. chars_tac. Qed.
Lemma digit_cases : forall c, is_digit c = true -> (is_upper c || is_lower c || is_space c || is_sep c || Ascii.eqb c "." || Ascii.eqb c "-" || Ascii.eqb c "+")%bool = false. Proof. chars_tac. Qed.
Lemma sep_cases : forall c, is_sep c = true -> (is_upper c || is_lower c || is_space c || is_digit c || Ascii.eqb c ".")%bool = false. Proof. chars_tac. Qed.
Lemma space_cases : forall c, is_space c = true -> (is_upper c || is_lower c || is_sep c || is_digit c || Ascii.eqb c ".")%bool = false. Proof. chars_tac. Qed.
Ltac rw := repeat match goal with E : ?x = false |- context [?x] => rewrite E end.
Ltac split_cases H := repeat rewrite orb_false_iff in H; decompose [and] H; clear H.

Lemma span_app p a s : all_of p a -> no_start p s -> span p (a ++ s) = (a, s).
Proof.
  intros H S. induction a as [|c a IH]; cbn.
  - destruct s as [|c s]; [reflexivity|]. cbn in *. now rewrite S.
  - apply andb_prop in H. destruct H as [-> H]. rewrite (IH H). reflexivity.
Qed.
Lemma skip_app p a s : all_of p a -> no_start p s -> skip p (a ++ s) = s.
Proof. intros H S. unfold skip. now rewrite span_app. Qed.
(** Texts after which an argument list ends *)
Definition stops (s : list ascii) : Prop := match s with c :: _ => is_upper c = true | [] => True end.
(** What can follow a gap *)
Definition plain_start (s : list ascii) : Prop := no_start is_space s /\ no_start is_sep s.
Lemma stops_plain s : stops s -> plain_start s /\ no_start joins_number s.
Proof.
  destruct s as [|c s]; [now repeat split|]. cbn. intros H. apply upper_cases in H. split_cases H. repeat split; try assumption. cbn. unfold joins_number. now rw.
Qed.
Lemma read_gap_app g s : gap g -> plain_start s -> read_gap (g ++ s) = s.
Proof.
  intros G [S1 S2]. unfold read_gap. inversion G as [u Hu|u c v Hu Hc Hv]; subst.
  - rewrite skip_app by assumption. destruct s as [|c s]; [reflexivity|]. cbn in S2. now rewrite S2.
  - rewrite <- app_assoc. cbn [app]. rewrite skip_app; [|exact Hu|]. + rewrite Hc. now apply skip_app.
    + cbn. apply sep_cases in Hc. split_cases Hc. assumption.
Qed.
Lemma all_cons p c s : all_of p (c :: s) -> p c = true /\ all_of p s.
Proof. intros H. now apply andb_prop in H. Qed.
Lemma read_number_spells w a s : spells w a -> (forall c, a <> ALetter c) -> no_start is_digit s -> (exists q, a = ANum q) \/ no_start (fun c => Ascii.eqb c ".") s -> read_number (w ++ s) = Some (a, s).
Proof.
  intros H NL ND NP. inversion H as [c Hc|sign ds Nd Hd|sign ds es Hd Ne He]; subst; [now destruct (NL c)| |].
  - destruct NP as [[q [=]]|NP].
    assert (E : match (sign_text sign ++ ds) ++ s with c :: r => if Ascii.eqb c "-"%char then (true, r) else if Ascii.eqb c "+"%char then (false, r) else (false, (sign_text sign ++ ds) ++ s) | [] => (false, (sign_text sign ++ ds) ++ s) end = (match sign with Some true => true | _ => false end, ds ++ s)).
    { destruct sign as [[]|]; try reflexivity. destruct ds as [|d ds]; [congruence|]. destruct (all_cons _ _ _ Hd) as [Hx _]. apply digit_cases in Hx. split_cases Hx. cbn [sign_text app]. now rw. }
    unfold read_number. rewrite E. cbn iota. rewrite span_app by assumption. assert (Ld : (length ds =? 0) = false) by (destruct ds; [congruence|reflexivity]).
    destruct s as [|c s]; [rewrite Ld; destruct sign as [[]|]; reflexivity|]. cbn in NP. rewrite NP. cbn [andb]. destruct (span is_digit s). rewrite Ld. destruct sign as [[]|]; reflexivity.
  - assert (E : match (sign_text sign ++ ds ++ "."%char :: es) ++ s with c :: r => if Ascii.eqb c "-"%char then (true, r) else if Ascii.eqb c "+"%char then (false, r) else (false, (sign_text sign ++ ds ++ "."%char :: es) ++ s) | [] => (false, (sign_text sign ++ ds ++ "."%char :: es) ++ s) end
      = (match sign with Some true => true | _ => false end, ds ++ "."%char :: es ++ s)).
    { assert (A : (ds ++ "."%char :: es) ++ s = ds ++ "."%char :: es ++ s) by (now rewrite <- app_assoc). destruct sign as [[]|]; cbn [sign_text app]; [now rewrite A..|]. rewrite A. destruct ds as [|d ds]; [reflexivity|]. destruct (all_cons _ _ _ Hd) as [Hx _]. apply digit_cases in Hx. split_cases Hx. cbn [app]. now rw. }
    unfold read_number. rewrite E. cbn iota. rewrite (span_app is_digit ds ("."%char :: es ++ s)) by (assumption || reflexivity). rewrite (span_app is_digit es s) by assumption. change (Ascii.eqb "." ".") with true.
    assert (Le : (length es =? 0) = false) by (destruct es; [congruence|reflexivity]). rewrite Le. destruct sign as [[]|]; reflexivity.
Qed.
Lemma spells_start w a : spells w a -> exists c r, w = c :: r /\ is_space c = false /\ is_sep c = false /\ is_upper c = false /\ is_lower c = match a with ALetter _ => true | _ => false end.
Proof.
  intros H. inversion H as [c Hc|sign ds Nd Hd|sign ds es Hd Ne He]; subst.
  - exists c, []. assert (L := Hc). apply lower_cases in L. split_cases L. repeat split; assumption.
  - destruct sign as [[]|]; [now exists "-"%char, ds|now exists "+"%char, ds|]. destruct ds as [|d ds]; [congruence|]. exists d, ds. destruct (all_cons _ _ _ Hd) as [Hx _]. apply digit_cases in Hx. split_cases Hx. repeat split; assumption.
  - destruct sign as [[]|]; [now exists "-"%char, (ds ++ "."%char :: es)|now exists "+"%char, (ds ++ "."%char :: es)|]. destruct ds as [|d ds]; [now exists "."%char, es|]. exists d, (ds ++ "."%char :: es). destruct (all_cons _ _ _ Hd) as [Hx _]. apply digit_cases in Hx. split_cases Hx. repeat split; assumption.
Qed.
Lemma writes_args_start s l rest : writes_args s l -> stops rest -> plain_start (s ++ rest).
Proof.
  intros H S. destruct H as [|w a g s l Hs G W C]; [now apply stops_plain|]. destruct (spells_start w a Hs) as [c [r [-> [H1 [H2 _]]]]]. split; assumption.
Qed.
Lemma gap_start g : gap g -> g <> [] -> no_start joins_number g.
Proof.
  intros G N. destruct G as [s Hs|s c u Hs Hc Hu]; (destruct s as [|d s]; [try congruence|]); cbn; unfold joins_number.
  - destruct (all_cons _ _ _ Hs) as [Hx _]. apply space_cases in Hx. split_cases Hx. now rw.
  - apply sep_cases in Hc. split_cases Hc. now rw.
  - destruct (all_cons _ _ _ Hs) as [Hx _]. apply space_cases in Hx. split_cases Hx. now rw.
Qed.
Lemma read_arg_app w a g s : spells w a -> gap g -> plain_start s -> (exists c, a = ALetter c) \/ no_start joins_number (g ++ s) -> read_arg (w ++ g ++ s) = Some (a, s).
Proof.
  intros H G S C. destruct (spells_start w a H) as [c [r [E [H1 [H2 [H3 H4]]]]]]. unfold read_arg. assert (K : skip is_space (w ++ g ++ s) = w ++ g ++ s) by (apply (skip_app is_space [] (w ++ g ++ s)); [reflexivity|rewrite E; exact H1]).
  rewrite K. rewrite E at 1. cbn [app]. rewrite H4. destruct a as [z|q|x].
  - change (c :: r ++ g ++ s) with ((c :: r) ++ g ++ s). rewrite <- E. rewrite (read_number_spells w (AInt z) (g ++ s) H); [now rewrite read_gap_app|discriminate|..].
    + destruct C as [[x [=]]|C]. destruct (g ++ s) as [|d u]; [exact I|]. cbn in *. unfold joins_number in C. apply orb_false_iff in C. apply C.
    + right. destruct C as [[x [=]]|C]. destruct (g ++ s) as [|d u]; [exact I|]. cbn in *. unfold joins_number in C. apply orb_false_iff in C. apply C.
  - change (c :: r ++ g ++ s) with ((c :: r) ++ g ++ s). rewrite <- E. rewrite (read_number_spells w (ANum q) (g ++ s) H); [now rewrite read_gap_app|discriminate|..].
    + destruct C as [[x [=]]|C]. destruct (g ++ s) as [|d u]; [exact I|]. cbn in *. unfold joins_number in C. apply orb_false_iff in C. apply C.
    + left. now exists q.
  - assert (W : w = [x]) by (inversion H; reflexivity). rewrite W in E. injection E as <- <-. cbn [app]. now rewrite read_gap_app.
Qed.
Lemma read_arg_stops s : stops s -> read_arg s = None.
Proof.
  unfold read_arg. destruct s as [|c s]; [reflexivity|]. cbn [stops]. intros H. apply upper_cases in H. split_cases H. assert (K : skip is_space (c :: s) = c :: s) by (unfold skip; cbn; now rw). rewrite K. rw. unfold read_number. rw. cbn iota. cbn [span]. rw. destruct (span is_digit s). rw. reflexivity.
Qed.

Lemma spells_nonempty w a : spells w a -> 0 < length w.
Proof. intros H. destruct (spells_start w a H) as [c [r [-> _]]]. cbn. lia. Qed.
Lemma read_args_app s l rest : writes_args s l -> stops rest -> forall fuel, length s <= fuel -> read_args fuel (s ++ rest) = (l, rest).
Proof.
  induction 1 as [|w a g s l Hs G W IH C]; intros S fuel F.
  - cbn [app]. destruct fuel as [|fuel]; [reflexivity|]. cbn [read_args]. now rewrite read_arg_stops.
  - assert (N := spells_nonempty w a Hs). rewrite !app_length in F. destruct fuel as [|fuel]; [lia|]. cbn [read_args]. rewrite <- !app_assoc. rewrite (read_arg_app w a g (s ++ rest) Hs G (writes_args_start s l rest W S)).
    + rewrite IH by (exact S || lia). reflexivity.
    + destruct C as [C|[C|C]]; [right|now left|right].
      * assert (J := gap_start g G C). destruct g; [congruence|exact J].
      * destruct g as [|d g]; [|exact (gap_start (d :: g) G ltac:(discriminate))]. cbn [app]. destruct s as [|c s]; [|exact C]. cbn [app]. now apply stops_plain.
Qed.
Lemma writes_stops s its : writes s its -> stops s.
Proof. destruct 1 as [|ty sp s l rest its N U]; [exact I|]. destruct ty as [|c ty]; [congruence|]. now destruct (all_cons _ _ _ U). Qed.
Lemma not_upper_start sp s l rest : all_of is_space sp -> writes_args s l -> sp ++ s <> [] \/ rest = [] -> no_start is_upper (sp ++ s ++ rest).
Proof.
  intros H W C. destruct sp as [|c sp]; cbn [app] in *.
  - destruct W as [|w a g s l Hs G W D]; [destruct C as [C| ->]; [congruence|exact I]|]. destruct (spells_start w a Hs) as [c [r [-> [_ [_ [U _]]]]]]. exact U.
  - destruct (all_cons _ _ _ H) as [Hx _]. apply space_cases in Hx. split_cases Hx. assumption.
Qed.
Lemma read_items_writes s its : writes s its -> forall fuel, length s <= fuel -> read_items fuel s = its.
Proof.
  induction 1 as [|ty sp s l rest its N U S W R IH C]; intros fuel F; [destruct fuel; reflexivity|].
  rewrite !app_length in F. destruct ty as [|c ty]; [congruence|]. cbn [length] in F. destruct fuel as [|fuel]; [lia|]. cbn [read_items].
  set (text := (c :: ty) ++ sp ++ s ++ rest). assert (K : skip (fun c => negb (is_upper c)) text = text) by (unfold text, skip; cbn [app span]; destruct (all_cons _ _ _ U) as [-> _]; reflexivity).
  assert (P := writes_stops _ _ R). assert (Sp : span is_upper text = (c :: ty, sp ++ s ++ rest)) by (apply (span_app is_upper (c :: ty)); [exact U|exact (not_upper_start sp s l rest S W C)]).
  rewrite K. destruct text as [|d u] eqn:Et; [discriminate|]. rewrite Sp. rewrite (skip_app is_space sp (s ++ rest) S) by apply (writes_args_start s l rest W P).
  rewrite (read_args_app s l rest W P) by (rewrite !app_length; lia). rewrite IH by lia. reflexivity.
Qed.
Lemma read_items_spaces sp s fuel : all_of is_space sp -> stops s -> read_items (length sp + fuel) (sp ++ s) = read_items (length sp + fuel) s.
Proof.
  intros H S. destruct (length sp + fuel) as [|f]; [reflexivity|]. cbn [read_items].
  assert (E : forall s, stops s -> skip (fun c => negb (is_upper c)) s = s). { intros [|c u] Hc; [reflexivity|]. cbn in Hc. unfold skip. cbn. now rewrite Hc. }
  assert (E2 : skip (fun c => negb (is_upper c)) (sp ++ s) = s).
  { apply skip_app; [|destruct s as [|c u]; [exact I|cbn in *; now rewrite S]]. apply forallb_forall. intros c Hc. unfold all_of in H. rewrite forallb_forall in H. specialize (H c Hc). apply space_cases in H. split_cases H. now rw. }
  rewrite E2, (E s S). reflexivity.
Qed.
(** The value of a number written in decimal notation *)
Lemma value_uint d : forall acc, fold_left (fun v c => (10 * v + digit c)%Z) (list_ascii_of_string (DecimalString.NilEmpty.string_of_uint d)) (Z.of_nat acc) = Z.of_nat (Nat.of_uint_acc d acc).
Proof.
  induction d as [|d IH|d IH|d IH|d IH|d IH|d IH|d IH|d IH|d IH|d IH]; intros acc; [reflexivity|..]; cbn [DecimalString.NilEmpty.string_of_uint list_ascii_of_string fold_left Nat.of_uint_acc];
    rewrite <- IH; f_equal; rewrite !Nat.tail_mul_spec; match goal with |- (10 * ?v + digit ?c)%Z = _ => let x := eval vm_compute in (digit c) in change (digit c) with x end; lia.
Qed.
Lemma value_dec n : value_of (list_ascii_of_string (dec n)) = Z.of_nat n.
Proof. unfold value_of, dec. change 0%Z with (Z.of_nat 0). rewrite value_uint. f_equal. apply DecimalNat.Unsigned.of_to. Qed.
Lemma dec_all n : all_of is_digit (list_ascii_of_string (dec n)) /\ list_ascii_of_string (dec n) <> [].
Proof.
  split.
  - unfold dec, all_of. generalize (Nat.to_uint n). induction u; cbn; try reflexivity; assumption.
  - intros E. assert (V := value_dec n). rewrite E in V. cbn in V. assert (n = 0) by lia. subst n. discriminate.
Qed.
