(** * Specification of the cancellation of threads (C46), from what happened only ([h], the last event first). *)
From Coq Require Import List Bool PeanoNat.
From Verif Require Import Base CancelModel.
Import ListNotations.
Open Scope nat_scope.

(** the objects that thread [t] has *)
Fixpoint live (h : list ev) (t : nat) : list nat :=
  match h with
  | [] => []
  | New t' o :: h => if t' =? t then o :: live h t else live h t
  | Del t' o :: h => if t' =? t then remove Nat.eq_dec o (live h t) else live h t
  | _ :: h => live h t
  end.
Definition alone (h : list ev) (t : nat) : bool := match live h t with [] => true | _ => false end.
(** [t] gets the requests sent to [s] *)
Fixpoint linked (h : list ev) (s t : nat) : bool :=
  match h with
  | [] => false
  | Assoc s' d :: h => ((s' =? s) && (d =? t)) || linked h s t
  | Unsource s' :: h => negb (s' =? s) && linked h s t
  | Untarget d :: h => negb (d =? t) && linked h s t
  | _ :: h => linked h s t
  end.
Definition hit (h : list ev) (s t : nat) : bool := (s =? t) || linked h s t.
(** the request thread [t] is under, if any. It is lost with the last object of the thread *)
Fixpoint pending (h : list ev) (t : nat) : option (bool * N) :=
  match h with
  | [] => None
  | Cancel s i fl :: h => if hit h s t then Some (i, fl) else pending h t
  | Clear s _ :: h => if hit h s t then None else pending h t
  | Del t' o :: h' => if (t' =? t) && alone h t then None else pending h' t
  | Forget t' :: h => if (t' =? t) && alone h t then None else pending h t
  | _ :: h => pending h t
  end.
(** its exception was decided already *)
Fixpoint served (h : list ev) (t : nat) : bool :=
  match h with
  | [] => false
  | Cancel s _ _ :: h | Clear s _ :: h => if hit h s t then false else served h t
  | Flag t' _ :: h => (t' =? t) || served h t
  | Del t' o :: h' => if (t' =? t) && alone h t then false else served h' t
  | _ :: h => served h t
  end.
(** delayed cancellations are blocked *)
Fixpoint blocked (h : list ev) (t : nat) : bool :=
  match h with
  | [] => false
  | Block t' _ m :: h => if t' =? t then m else blocked h t
  | Del t' o :: h' => if (t' =? t) && alone h t then false else blocked h' t
  | _ :: h => blocked h t
  end.
(** what a check is to throw *)
Definition expected (h : list ev) (t : nat) : option (bool * N) :=
  match pending h t with
  | Some (i, fl) => if negb (served h t) && (i || negb (blocked h t)) then Some (i, fl) else None
  | None => None
  end.
(** how many exceptions thread [t] got, how many requests it was the target of *)
Fixpoint throws (h : list ev) (t : nat) : nat := match h with [] => 0 | Throw t' _ _ :: h => (if t' =? t then 1 else 0) + throws h t | _ :: h => throws h t end.
Fixpoint requests (h : list ev) (t : nat) : nat := match h with [] => 0 | Cancel s _ _ :: h => (if hit h s t then 1 else 0) + requests h t | _ :: h => requests h t end.
