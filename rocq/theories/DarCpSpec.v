(** * DarCpSpec: sources with unreadable bytes *)
From Coq Require Import List.
From Verif Require Import Base.
Local Open Scope nat_scope.

(** read(2) on a file of [size] bytes some of which are unreadable: nothing at the end of the
    file; otherwise at least one byte, none of them unreadable, or an error, which needs an
    unreadable byte in the range asked. *)
Definition reads (size : nat) (bad : nat -> bool) (rd : nat -> nat -> option nat) : Prop :=
  forall p n, 1 <= n ->
    (size <= p -> rd p n = Some 0) /\
    (p < size ->
       match rd p n with
       | Some k => 1 <= k <= n /\ p + k <= size /\ forall i, p <= i < p + k -> bad i = false
       | None => exists i, p <= i < p + n /\ i < size /\ bad i = true
       end).

(** A system that gives the readable bytes before an error: a read of two bytes fails only if
    the first one is unreadable. *)
Definition tolerant (size : nat) (bad : nat -> bool) (rd : nat -> nat -> option nat) : Prop :=
  forall p, p < size -> bad p = false -> rd p 2 <> None.

(** A device of sectors of even size, read by whole sectors: bytes are lost by pairs, and
    reads done at even offsets for even sizes give an even number of bytes or reach the end. *)
Definition sectors (size : nat) (bad : nat -> bool) (rd : nat -> nat -> option nat) : Prop :=
  (forall i, 2 * i + 1 < size -> bad (2 * i) = bad (2 * i + 1)) /\
  (forall p n k, Nat.even p = true -> Nat.even n = true -> 1 <= n -> rd p n = Some k -> Nat.even k = true \/ p + k = size).

(** Between two unreadable bytes (or one of them). *)
Definition enclosed (size : nat) (bad : nat -> bool) (i : nat) : Prop :=
  exists j k, j <= i <= k /\ k < size /\ bad j = true /\ bad k = true.
