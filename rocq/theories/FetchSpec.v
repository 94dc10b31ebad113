(** * What a user expects of a ciphered file read with several threads: it behaves as the clear data with one position. *)
From Verif Require Import Base FetchModel.
Open Scope nat_scope.

(** the answer of a call and the position after it, for the clear data [F] at position [p] *)
Definition expect (F : list N) (p : nat) (o : op) : ans * nat :=
  match o with
  | Oread n => let x := firstn n (skipn p F) in (Abytes x, p + length x)
  | Oskip q => (Abool true, q)
  | Orel x => if (0 <=? Z.of_nat p + x)%Z then (Abool true, Z.to_nat (Z.of_nat p + x)) else (Abool false, 0)
  | Oeof => (Abool true, length F)
  | Osync | Oahead => (Anone, p)
  end.
Fixpoint expect_all (F : list N) (p : nat) (l : list op) : list (ans * nat) :=
  match l with [] => [] | o :: r => let x := expect F p o in x :: expect_all F (snd x) r end.

(** the calls the statement is about. [e]: the last read got fewer bytes than asked and the position has not been changed since.
    A position is reached by skip only up to the end of the data, or past the end of the last block of [bs] bytes;
    neither skip_to_eof nor read_ahead is called just after a read that met the end *)
Fixpoint admissible (bs : nat) (F : list N) (p : nat) (e : bool) (l : list op) : Prop :=
  match l with
  | [] => True
  | o :: r =>
    let q := snd (expect F p o) in
    (q <= length F \/ length F <= q / bs * bs) /\
    match o with
    | Oread n => admissible bs F q (e || (length F - p <? n)) r
    | Oskip _ | Orel _ => admissible bs F q (e && (q =? p)) r
    | Oeof => e = false /\ admissible bs F q (negb (length F mod bs =? 0)) r
    | Osync => admissible bs F q e r
    | Oahead => e = false /\ admissible bs F q e r
    end
  end.
