(** * Specification of the parallel writing: what should be found below. *)
From Verif Require Import Base PipeModel CryptModel CryptProof BlockModel PropBlock.
Open Scope nat_scope.

(** the blocks of [B] bytes (the last one shorter) of [D], numbered from zero *)
Definition numbered (B : nat) (D : list N) : list (N * list N) := map (fun i => (N.of_nat i, block B D i)) (seq 0 (nblocks B D)).
(** treatments that never fail: encryption of a block under its number; compression of a block, with its header *)
Definition encrypts (C : crypto) (i : N) (b : list N) (r : wres) : Prop := r = WOk (c_enc C (N.to_nat i) b).
Definition compresses (Z : zipper) (i : N) (b : list N) (r : wres) : Prop := r = WOk (piece Z b).
(** no thread can do anything any more *)
Definition stopped (W : nat) (lossy : bool) (tr : N -> list N -> wres -> Prop) (tail : list N) (s : st) : Prop := forall t, ~ step W lossy tr tail s t.
(** a treatment may fail *)
Definition may_fail (tr : N -> list N -> wres -> Prop) : Prop := exists i b, tr i b WRange \/ tr i b WExn.
(** [be] is made of what the first blocks give, in order, then perhaps the beginning of what the next one gives, then perhaps the beginning of the final mark *)
Definition in_order (tr : N -> list N -> wres -> Prop) (tail : list N) (blocks : list (N * list N)) (be : list N) : Prop :=
  exists done rest outs part mark, blocks = done ++ rest /\ Forall2 (fun p y => tr (fst p) (snd p) (WOk y)) done outs /\ be = concat outs ++ part ++ mark /\
    (exists z, tail = mark ++ z) /\ (part = [] \/ exists p rest' y z, rest = p :: rest' /\ tr (fst p) (snd p) (WOk y) /\ y = part ++ z).
(** [be] is all of it *)
Definition complete (tr : N -> list N -> wres -> Prop) (tail : list N) (blocks : list (N * list N)) (be : list N) : Prop :=
  exists outs, Forall2 (fun p y => tr (fst p) (snd p) (WOk y)) blocks outs /\ be = concat outs ++ tail.
