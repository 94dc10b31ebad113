(** * Specification of the parallel decompression (C45): what reading sequentially would give. *)
From Coq Require Import List Bool PeanoNat.
From Verif Require Import Base FileModel PipeModel BlockModel UnzipModel.
Import ListNotations.
Open Scope nat_scope.

Section Spec.
Variables (W : nat) (Z : zipper) (B : nat) (file : list N).
(** a compressed block gives some data *)
Definition gives (c y : list N) : Prop := z_unc Z c B = Ok y /\ length y <= B.
(** [D] is the data of the first blocks found from position [p] *)
Inductive begins : option N -> nat -> list N -> Prop :=
| bg_nil : forall t p, begins t p []
| bg_blk : forall t p c q y D, next Z B file t p = Edata c q -> gives c y -> begins (Some H_DATA) q D -> begins t p (y ++ D).
(** [D] is all the data found from position [p], up to the mark of end *)
Inductive holds : option N -> nat -> list N -> Prop :=
| hd_end : forall t p q, next Z B file t p = Eend q -> holds t p []
| hd_blk : forall t p c q y D, next Z B file t p = Edata c q -> gives c y -> holds (Some H_DATA) q D -> holds t p (y ++ D).
(** [outs] answers the first calls of [ops], the last skip having been done to [p] and [got] having been read since. Each read gives the bytes that follow; it gives less than asked at the mark of end only.
    Nothing is said after an exception, which only comes when what follows [p] is damaged, nor after get_position(). *)
Inductive answers : nat -> list N -> list rop -> list rout -> Prop :=
| an_none : forall p got ops, answers p got ops []
| an_read : forall p got n d ops outs, (exists more, begins None p (got ++ d ++ more)) -> length d <= n -> (length d < n -> holds None p (got ++ d)) ->
    answers p (got ++ d) ops outs -> answers p got (Read n :: ops) (OData d :: outs)
| an_skip : forall p got q ops outs, answers q [] ops outs -> answers p got (Skip q :: ops) (ODone :: outs)
| an_exn : forall p got op b ops outs, (forall D, ~ holds None p D) -> answers p got (op :: ops) (OExn b :: outs)
| an_tell : forall p got q ops outs, answers p got (Tell :: ops) (OPos q :: outs).
(** what is expected of a sound file, [data] giving what is at each position *)
Fixpoint expected (data : nat -> list N) (D : list N) (l : list rop) : list rout :=
  match l with
  | [] => []
  | Read n :: l => OData (firstn n D) :: expected data (skipn n D) l
  | Skip p :: l => ODone :: expected data (data p) l
  | Tell :: l => []
  end.
Definition no_tell (l : list rop) : Prop := ~ In Tell l.
(** a set of positions (with what was met before) from which reading meets no damaged block nor the end of the file before a mark of end; headers may be damaged, and blocks cut *)
Definition sound (S : option N -> nat -> Prop) : Prop :=
  forall t p, S t p -> match next Z B file t p with
                       | Edata c q => p < q /\ (exists y, gives c y) /\ S (Some H_DATA) q
                       | Ebad q | Eshort q => S None q
                       | Eend _ => True
                       end.
(** no thread can do anything any more *)
Definition stopped (s : rst) : Prop := forall t, ~ step W Z B file s t.
End Spec.
