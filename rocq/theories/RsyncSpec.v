(** * RsyncSpec: what librsync is relied on for

    A machine computes a function [F] of its whole input when there is a relation [Inv]
    between its state, what it was given, whether it was told the end, and what it gave,
    such that ... *)
From Coq Require Import List.
From Verif Require Import Base RsyncModel.
Local Open Scope nat_scope.

Definition prefix (o l : list N) : Prop := exists t, l = o ++ t.

Record computes (M : machine) (F : list N -> list N) (Inv : state M -> list N -> bool -> list N -> Prop) : Prop := {
  c_start : Inv (start M) [] false [];
  (** what was given so far is the beginning of the result, whatever input follows *)
  c_prefix : forall s x e o, Inv s x e o -> (e = true -> prefix o (F x)) /\ (e = false -> forall y, prefix o (F (x ++ y)));
  (** no more than what is offered is taken, no more than the room is given, no error *)
  c_step : forall s x e o a n s' c out r, Inv s x e o -> (a <> [] -> e = false) ->
    iter M s a (is_nil a) n = (s', c, out, r) ->
    c <= length a /\ length out <= n /\ r <> RS_FAIL /\ Inv s' (x ++ firstn c a) (e || is_nil a) (o ++ out);
  (** with input and room it gets on *)
  c_progress : forall s x e o a n s' c out r, Inv s x e o -> e = false -> a <> [] -> 0 < n ->
    iter M s a (is_nil a) n = (s', c, out, r) -> 0 < c \/ out <> [];
  (** at the end of the input it gives something or is done *)
  c_end : forall s x e o n s' c out r, Inv s x e o -> 0 < n -> iter M s [] true n = (s', c, out, r) -> out = [] -> r = RS_DONE;
  (** done: the result is complete *)
  c_done : forall s x e o a n s' c out r, Inv s x e o -> (a <> [] -> e = false) ->
    iter M s a (is_nil a) n = (s', c, out, r) -> r = RS_DONE ->
    (e || is_nil a = true -> F (x ++ firstn c a) = o ++ out) /\ (e || is_nil a = false -> forall y, F (x ++ firstn c a ++ y) = o ++ out)
}.

(** For a patch: when what it is given is the beginning of [total], done only at the end of it, be it told or not. *)
Definition ends_with (M : machine) (Inv : state M -> list N -> bool -> list N -> Prop) (total : list N) : Prop :=
  forall s x e o a n s' c out, Inv s x e o -> (a <> [] -> e = false) -> prefix (x ++ a) total ->
    iter M s a (is_nil a) n = (s', c, out, RS_DONE) -> e || is_nil a = true \/ x ++ firstn c a = total.
