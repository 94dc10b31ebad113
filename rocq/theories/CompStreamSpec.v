(** * CompStreamSpec: what a compression library is relied on for, and what a compressor has to do *)
From Coq Require Import List.
From Verif Require Import Base CompStreamModel.
Local Open Scope nat_scope.

Definition prefix (o l : list N) : Prop := exists t, l = o ++ t.

(** [encodes x m]: m is a compressed form of x. *)
Section spec.
Variable E : engine.
Variable encodes : list N -> list N -> Prop.

(** The engine compresses: [I s x o]: it took x and gave o, the end not being asked for; [Fin]: the end was asked for.
    [left]: how much it can still give without taking anything. *)
Record compresses (I Fin : cstate E -> list N -> list N -> Prop) (left : cstate E -> nat) : Prop := {
  c_start : I (cstart E) [] [];
  c_give : forall s x o a n s' c b r, I s x o -> a <> [] -> 0 < n -> compress E s a false n = (s', c, b, r) ->
    (r = WR_OK \/ r = WR_STREAM_END) /\ c <= length a /\ length b <= n /\ I s' (x ++ firstn c a) (o ++ b) /\ (0 < c \/ left s' < left s);
  c_finish : forall s x o n s' c b r, I s x o \/ Fin s x o -> 0 < n -> compress E s [] true n = (s', c, b, r) ->
    length b <= n /\ ((r = WR_OK /\ Fin s' x (o ++ b) /\ left s' < left s) \/ (r = WR_STREAM_END /\ encodes x (o ++ b)))
}.
(** It decompresses: for m compressed form of x, [D x m s i d e]: it took i, gave d, and told the end if e.
    What it is offered is the continuation of i in m, or goes past the end of m. *)
Definition fits (i a m : list N) : Prop := prefix (i ++ a) m \/ prefix m (i ++ a).
Record decompresses (D : list N -> list N -> dstate E -> list N -> list N -> bool -> Prop) : Prop := {
  d_start : forall x m, encodes x m -> D x m (dstart E) [] [] false;
  d_prefix : forall x m s i d e, D x m s i d e -> prefix i m /\ prefix d x /\ (e = true -> i = m /\ d = x);
  d_step : forall x m s i d a n s' c b r, D x m s i d false -> fits i a m -> decompress E s a n = (s', c, b, r) ->
    c <= length a /\ length b <= n /\ D x m s' (i ++ firstn c a) (d ++ b) (match r with WR_STREAM_END => true | _ => false end) /\
    (r = WR_OK \/ r = WR_STREAM_END \/ (r = WR_BUF_ERROR /\ b = [] /\ (a = [] \/ n = 0))) /\
    (a <> [] -> 0 < n -> 0 < c \/ b <> [] \/ r = WR_STREAM_END) /\
    (i = m -> a = [] -> 0 < n -> b <> [] \/ r = WR_STREAM_END);
  d_end : forall x m s i d a n s' c b r, D x m s i d true -> decompress E s a n = (s', c, b, r) -> c = 0 /\ b = [] /\ r = WR_STREAM_END /\ D x m s' i d true
}.
(** ** What is expected of the compressor *)
(** The pieces of the file: what is written between two flushes, compressed as a whole; what is written while suspended, as is. *)
Inductive piece := Comp (x : list N) | Raw (x : list N).
Definition close (pending : list N) : list piece := match pending with [] => [] | _ => [Comp pending] end.
Fixpoint pieces (suspended : bool) (pending : list N) (l : list wop) : list piece :=
  match l with
  | [] => close pending
  | Write a :: r => if suspended then Raw a :: pieces true pending r else pieces false (pending ++ a) r
  | Sync :: r => close pending ++ pieces suspended [] r
  | Suspend :: r => close pending ++ pieces true [] r
  | Resume :: r => pieces false pending r
  end.
Definition stored (p : piece) (m : list N) : Prop := match p with Comp x => encodes x m | Raw x => m = x end.
(** the answers to successive reads of x *)
Fixpoint chunks (ns : list nat) (x : list N) : list (list N) :=
  match ns with [] => [] | n :: r => firstn n x :: chunks r (skipn n x) end.
End spec.
