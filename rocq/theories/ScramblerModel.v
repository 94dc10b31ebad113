(** * Model of the scrambler (src/libdar/scrambler.cpp, scrambler.hpp).

    [key] is the list of the key's bytes (unsigned). The hidden side is a plain byte file. Memory exhaustion when
    growing the write buffer (scrambler.cpp:66-82) is not modelled. *)
From Verif Require Import Base FileModel ClientSpec.
Open Scope nat_scope.

(** constructor, scrambler.cpp:31-40 *)
Definition sc_new (pass : list N) : res (list N) := match pass with [] => Err Erange | _ => Ok pass end.

(** one byte, scrambler.cpp:53: int subtraction, C remainder, conversion to unsigned char *)
Definition sc_dec (b k : N) : N := Z.to_N ((Z.rem (Z.of_N b - Z.of_N k) 256) mod 256).
(** one byte, scrambler.cpp:86 *)
Definition sc_enc (b k : N) : N := ((b + k) mod 256)%N.

(** the loops of inherited_read (51-55) and inherited_write (84-88) *)
Fixpoint sc_loop (f : N -> N -> N) (key : list N) (index : nat) (a : list N) : list N :=
  match a with
  | [] => []
  | b :: r => f b (nth index key 0%N) :: sc_loop f key ((index + 1) mod length key) r
  end.
(** inherited_read, scrambler.cpp:42-57 *)
Definition sc_read (key : list N) (n : nat) (f : gfile) : list N * gfile :=
  let index := fpos f mod length key in
  let '(a, f') := g_read n f in (sc_loop sc_dec key index a, f').
(** inherited_write, scrambler.cpp:59-91 *)
Definition sc_write (key : list N) (a : list N) (f : gfile) : gfile :=
  let index := fpos f mod length key in
  g_write (sc_loop sc_enc key index a) f.
(** the other operations are forwarded, scrambler.hpp:57-63 *)
Definition sc_op (key : list N) (o : gop) (f : gfile) : gout * gfile :=
  match o with
  | GRead n => let '(d, f') := sc_read key n f in (OData d, f')
  | GWrite a => (OUnit, sc_write key a f)
  | GSkip p => (OBool true, g_skip p f)
  | GEof => (OBool true, g_skip_eof f)
  | GRel x => let '(b, f') := g_skip_relative x f in (OBool b, f')
  | GPos => (OPos (fpos f), f)
  end.
Fixpoint sc_run (key : list N) (ops : list gop) (f : gfile) : list gout * gfile :=
  match ops with
  | [] => ([], f)
  | o :: r => let '(a, f1) := sc_op key o f in let '(l, f2) := sc_run key r f1 in (a :: l, f2)
  end.
