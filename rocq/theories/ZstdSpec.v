(** * ZstdSpec: what libzstd is relied on for, and what compressor_zstd has to do *)
From Coq Require Import List.
From Verif Require Import Base ZstdModel.
Local Open Scope nat_scope.

Definition prefix (o l : list N) : Prop := exists t, l = o ++ t.
Section spec.
Variable E : zengine.
(** [encodes x m]: m is a frame holding x. *)
Variable encodes : list N -> list N -> Prop.

(** [I s x o]: in the frame under way it took x and gave o. [Fin]: the end of frame was asked for
    and what remains is only to be given out: ZSTD_flushStream does it (this relies on the rooms
    being of ZSTD_CStreamOutSize bytes, hence on no block waiting when the end is asked for).
    [left]: how much can still be given without taking anything. *)
Record zcompresses (I Fin : zc E -> list N -> list N -> Prop) (left : zc E -> nat) : Prop := {
  z_start : I (zc0 E) [] [];
  z_sizes : 0 < CStreamInSize E;
  z_give : forall s x o a s' c b hint, I s x o -> a <> [] -> compressStream E s a (CStreamOutSize E) = (s', c, b, hint) ->
    c <= length a /\ I s' (x ++ firstn c a) (o ++ b) /\ 0 < hint /\ (0 < c \/ left s' < left s);
  z_end : forall s x o s' b remains, I s x o -> endStream E s (CStreamOutSize E) = (s', b, remains) ->
    (remains = 0 -> encodes x (o ++ b) /\ I s' [] []) /\ (0 < remains -> Fin s' x (o ++ b));
  z_flush : forall s x o s' b remains, Fin s x o -> flushStream E s (CStreamOutSize E) = (s', b, remains) ->
    (remains = 0 -> encodes x (o ++ b) /\ I s' [] []) /\ (0 < remains -> Fin s' x (o ++ b) /\ left s' < left s)
}.
(** For m a frame of x, [D x m s i d e]: it took i, gave d, and told the end if e. What it is offered
    continues i in m, or goes past the end of m. A call goes on while it has something to work on: it
    leaves room unused only at the end of the frame or for want of input. *)
Definition fits (i a m : list N) : Prop := prefix (i ++ a) m \/ prefix m (i ++ a).
Record zdecompresses (D : list N -> list N -> zd E -> list N -> list N -> bool -> Prop) : Prop := {
  zd_start : forall x m, encodes x m -> D x m (zd0 E) [] [] false;
  zd_sizes : 0 < DStreamInSize E /\ 0 < DStreamOutSize E;
  zd_prefix : forall x m s i d e, D x m s i d e -> prefix i m /\ prefix d x /\ (e = true -> i = m /\ d = x);
  zd_step : forall x m s i d a n, D x m s i d false -> fits i a m -> 0 < n -> exists s' c b ret,
    decompressStream E s a n = Some (s', c, b, ret) /\ c <= length a /\ length b <= n /\
    D x m s' (i ++ firstn c a) (d ++ b) (ret =? 0) /\
    (length b < n -> ret = 0 \/ c = length a) /\
    (length b < n -> prefix m (i ++ a) -> ret = 0)
}.
(** ** What is expected *)
Inductive piece := Comp (x : list N) | Raw (x : list N).
(** [pending]: what was written since the last flush, None if there was no write at all *)
Definition close (pending : option (list N)) : list piece := match pending with None => [] | Some x => [Comp x] end.
Definition more (pending : option (list N)) (a : list N) : option (list N) := Some (match pending with None => a | Some x => x ++ a end).
Fixpoint pieces (suspended : bool) (pending : option (list N)) (l : list zwop) : list piece :=
  match l with
  | [] => close pending
  | ZWrite a :: r => if suspended then Raw a :: pieces true pending r else pieces false (more pending a) r
  | ZSync :: r => close pending ++ pieces suspended None r
  | ZSuspend :: r => close pending ++ pieces true None r
  | ZResume :: r => pieces false pending r
  end.
Definition stored (p : piece) (m : list N) : Prop := match p with Comp x => encodes x m | Raw x => m = x end.
(** the answers to successive reads of x *)
Fixpoint chunks (ns : list nat) (x : list N) : list (list N) :=
  match ns with [] => [] | n :: r => firstn n x :: chunks r (skipn n x) end.
End spec.
