(** The hook ProgressBar (brainstorm/hooks.py) and the generator progress_bar (brainstorm/utils.py). *)
From Coq Require Import String Ascii List Arith Bool.
From Verif Require Import TrainerModel.
Import ListNotations.
Open Scope string_scope.
Open Scope list_scope.
Open Scope nat_scope.

Definition newline : string := String (ascii_of_nat 10) "".
(** utils.py:200-202 *)
Definition prefix : string := "[".
Definition bar : string := "====1====2====3====4====5====6====7====8====9====0".
Definition suffix (elapsed : string) : string := ("] Took: " ++ elapsed ++ newline)%string.

(** The generator progress_bar (utils.py:203-212): suspended at the yield of the loop with the value of i, or at the
    final yield (or finished). *)
Inductive gen := Loop (i : nat) | Done.
(** What hooks can change of the hook ProgressBar: self.bar, self.length (hooks.py:826-827), and the text that has been printed *)
Record pbar := mkBar { p_bar : option gen; p_length : nat; p_out : string }.

Section Progress.
  (** math.trunc(progress / maximum * len(bar)) (utils.py:208), computed with floats *)
  Variable fraction : nat -> nat -> nat -> nat.
  (** str(datetime.utcnow() - start_time)[: -5] (utils.py:211) at the given update *)
  Variable elapsed : nat -> string.

  (** next(progress_bar(maximum)): the bar is not empty. *)
  Definition gen_next : string * gen := (prefix, Loop 0).
  (** gen.send(progress); [None] is StopIteration. *)
  Definition gen_send (maximum progress u : nat) (g : gen) : option (string * gen) :=
    match g with
    | Loop i =>
        let j := fraction progress maximum (String.length bar) in
        let out := substring i (j - i) bar in
        if j <? String.length bar then Some (out, Loop j) else Some ((out ++ suffix (elapsed u))%string, Done)
    | Done => None
    end.

  (** ProgressBar.__call__ (hooks.py:833-844).  [None] is an exception (ZeroDivisionError, AssertionError, AttributeError of
      None); the boolean tells that StopIteration was raised.  math.ceil(update_nr / length) is computed exactly (simplified). *)
  Definition call_bar (epoch_nr update_nr : nat) (b : pbar) : option (pbar * bool) :=
    let l := p_length b in
    if l =? 0 then None
    else if negb ((epoch_nr =? 0) || ((update_nr + l - 1) / l =? epoch_nr)) then None
    else if update_nr mod l =? 1 then
      let (t, g) := gen_next in Some (mkBar (Some g) l (p_out b ++ t), false)
    else if update_nr mod l =? 0 then
      match p_bar b with
      | None => Some (b, false)
      | Some g =>
          match gen_send l l update_nr g with
          | None => Some (mkBar (Some Done) l (p_out b), true)
          | Some (t, g') => Some (mkBar (Some g') l (p_out b ++ t ++ newline), false)
          end
      end
    else
      match p_bar b with
      | None => None
      | Some g =>
          match gen_send l (update_nr mod l) update_nr g with
          | None => Some (mkBar (Some Done) l (p_out b), true)
          | Some (t, g') => Some (mkBar (Some g') l (p_out b ++ t), false)
          end
      end.

  (** The hook (hooks.py:822-844); [len] is the length of the training data iterator (829-831). The state of everything else
      (network, iterators, other hooks) is in X. *)
  Definition progress_hook (V X : Type) (name : string) (len : nat) : hook V (pbar * X) :=
    mkHook V (pbar * X) name "update" 1
      (fun w => Some (mkBar (p_bar (fst w)) len (p_out (fst w)), snd w))
      (fun e u w _ => match call_bar e u (fst w) with None => None | Some (b, stop) => Some ((b, snd w), VNone, stop) end).
End Progress.
