(** * Specification of the escape layer, independent of the code.

    A stream is read as a list of items: data bytes and marks. A mark is the fixed five byte sequence followed by the
    code of its type; the sequence followed by 'X' (88) stands for the five data bytes; anything else is data. *)
From Verif Require Import Base EscapeModel.
Open Scope nat_scope.

Inductive item := D (b : N) | M (t : seqt) | Bad.

(** does the list start with the fixed sequence? *)
Definition starts (s0 : N) (l : list N) : bool :=
  match l with
  | a :: b :: c :: d :: e :: _ => (a =? s0)%N && (b =? 253)%N && (c =? 234)%N && (d =? 119)%N && (e =? 33)%N
  | _ => false
  end.
Fixpoint parse_f (fuel : nat) (s0 : N) (l : list N) : list item :=
  match fuel, l with
  | O, _ | _, [] => []
  | S k, b :: r =>
    if starts s0 l then
      match nth_error l 5 with
      | None => D b :: parse_f k s0 r       (* the stream ends just after the sequence *)
      | Some c =>
        match char2type c with
        | Ok seqt_not_a_sequence => map D (fixed s0) ++ parse_f k s0 (skipn 6 l)
        | Ok t => M t :: parse_f k s0 (skipn 6 l)
        | Err _ => [Bad]
        end
      end
    else D b :: parse_f k s0 r
  end.
Definition parse (s0 : N) (l : list N) : list item := parse_f (length l) s0 l.

(** what a list of writing operations stands for *)
Fixpoint items_of (ops : list wop) : list item :=
  match ops with
  | [] => []
  | OpWrite a :: r => map D a ++ items_of r
  | OpMark t :: r => M t :: items_of r
  | OpSync :: r => items_of r
  end.
(** the bytes available before the first mark *)
Fixpoint data_before (its : list item) : list N :=
  match its with D b :: r => b :: data_before r | _ => [] end.
Fixpoint after_data (its : list item) : list item :=
  match its with D _ :: r => after_data r | _ => its end.
(** searching a mark of type [t], going over the other marks when [jump] is set and they are not [unjumpable] *)
Fixpoint search (t : seqt) (jump : bool) (unjumpable : list seqt) (its : list item) : bool * list item :=
  match its with
  | M t' :: r =>
    if seqt_eqb t' t then (true, r)
    else if jump && negb (existsb (seqt_eqb t') unjumpable) then search t jump unjumpable r
    else (false, its)
  | _ :: r => search t jump unjumpable r
  | [] => (false, [])
  end.
