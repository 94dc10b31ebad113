(** * Specification of remote reading (C47): what a client gets from the bytes of the archive, without any exchange. *)
From Coq Require Import List Bool PeanoNat ZArith.
From Verif Require Import Base ZapModel.
Import ListNotations.
Open Scope nat_scope.

(** [data]: the archive; [info], [first], [other]: what the slave knows of the slices; [p]: the position *)
Section Direct.
Variables (data info : list N) (first other : N).
Definition answer_to (o : zop) (p : nat) : zout * nat :=
  match o with
  | ZRead n => (ZData (firstn n (skipn p data)), Nat.min (p + n) (length data))
  | ZSkip q => (ZBool (if Nat.ltb q (length data) then true else false), Nat.min q (length data))
  | ZRel d => let q := (Z.of_nat p + d)%Z in
              (ZBool (Z.leb 0 q && Z.leb q (Z.of_nat (length data))), if Z.ltb q 0 then 0 else Nat.min (Z.to_nat q) (length data))
  | ZEof => (ZBool true, length data)
  | ZTell => (ZPos p, p)
  | ZStatus _ => (ZDone, p)
  | ZInfo => (ZData info, p)
  | ZFirst => (ZNum first, p)
  | ZOther => (ZNum other, p)
  end.
Fixpoint direct (l : list zop) (p : nat) : list zout :=
  match l with [] => [] | o :: l => let (u, q) := answer_to o p in u :: direct l q end.
(** the last status given *)
Fixpoint last_status (l : list zop) (s : list N) : list N := match l with [] => s | ZStatus s' :: l => last_status l s' | _ :: l => last_status l s end.
End Direct.
(** what may be asked: status strings do not contain the byte zero *)
Definition allowed (o : zop) : Prop := match o with ZStatus s => Forall (fun c => c <> 0%N) s | _ => True end.
