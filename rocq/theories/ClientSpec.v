(** * Specification: what a client of a byte file observes.

    The layers of libdar are all generic_file: a stack of them must look, to its client, like one plain byte file.
    [g_run] is that plain file, seen through the operations of generic_file.hpp:100-230. *)
From Verif Require Import Base FileModel.
Open Scope nat_scope.

Inductive gop := GRead (n : nat) | GWrite (a : list N) | GSkip (p : nat) | GEof | GRel (x : Z) | GPos.
Inductive gout := OData (l : list N) | OUnit | OBool (b : bool) | OPos (p : nat).

Definition g_op (o : gop) (f : gfile) : gout * gfile :=
  match o with
  | GRead n => let '(d, f') := g_read n f in (OData d, f')
  | GWrite a => (OUnit, g_write a f)
  | GSkip p => (OBool true, g_skip p f)
  | GEof => (OBool true, g_skip_eof f)
  | GRel x => let '(b, f') := g_skip_relative x f in (OBool b, f')
  | GPos => (OPos (fpos f), f)
  end.
Fixpoint g_run (ops : list gop) (f : gfile) : list gout * gfile :=
  match ops with
  | [] => ([], f)
  | o :: r => let '(a, f1) := g_op o f in let '(l, f2) := g_run r f1 in (a :: l, f2)
  end.

(** the client only writes bytes *)
Definition op_bytes (o : gop) : Prop := match o with GWrite a => bytes_ok a | _ => True end.
(** the client never leaves a hole: it does not write beyond the end of file *)
Fixpoint no_hole (ops : list gop) (f : gfile) : Prop :=
  match ops with
  | [] => True
  | o :: r => (match o with GWrite a => a = [] \/ fpos f <= length (fdata f) | _ => True end) /\ no_hole r (snd (g_op o f))
  end.
