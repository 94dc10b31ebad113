(** * ZoptSpec: what the argument of -z means, after the manual page *)
From Coq Require Import List String.
From Verif Require Import Base HeaderModel ArgModel ArgSpec.
Open Scope N_scope.

Definition space (c : N) : Prop := c = 32 \/ 9 <= c <= 13.
(** an integer as written by a user: a sign is accepted, a minus sign counts modulo 2^w *)
Definition integer (w : N) (s : list N) (v : N) : Prop :=
  exists sp sign ds sp', s = sp ++ sign ++ ds ++ sp' /\ Forall space sp /\ Forall space sp' /\ ds <> [] /\ digits 10 ds /\ number 10 ds < 2 ^ w /\
  (((sign = [] \/ sign = [43]) /\ v = number 10 ds) \/ (sign = [45] /\ v = (2 ^ w - number 10 ds) mod 2 ^ w)).

Definition algorithms : list (string * compression) :=
  [("gzip", Cgzip); ("gz", Cgzip); ("bzip2", Cbzip2); ("bzip", Cbzip2); ("bz", Cbzip2); ("lzo", Clzo); ("lz", Clzo); ("l", Clzo);
   ("lzop-1", Clzo15); ("lzop1", Clzo15); ("lzop-3", Clzo1); ("lzop3", Clzo1); ("xz", Cxz); ("lzma", Cxz); ("zstd", Czstd); ("lz4", Clz4); ("none", Cnone)]%string.
Definition named (a : list N) (c : compression) : Prop := exists n, In (n, c) algorithms /\ a = str n.

(** fields left empty have the default value *)
Definition algo_or_default (a : list N) (c : compression) : Prop := (a = [] /\ c = Cgzip) \/ named a c.
Definition level_or_default (w : N) (l : list N) (c : compression) (n : N) : Prop :=
  (l = [] /\ n = 9) \/ (l <> [] /\ integer w l n /\ 1 <= n /\ (n <= 9 \/ c = Czstd)).
Definition size_or_default (base : N) (b : list N) (n : N) : Prop := (b = [] /\ n = 0) \/ size_of base b n.

(** base: what k stands for *)
Inductive asks (w base : N) (arg : list N) : compression -> N -> N -> Prop :=
| as_level : forall n, integer w arg n -> asks w base arg Cgzip n 0
| as_algo : forall c, named arg c -> asks w base arg c 9 0
| as_two : forall a l c n, fields_of 58 arg [a; l] -> algo_or_default a c -> level_or_default w l c n -> asks w base arg c n 0
| as_three : forall a l b c n k, fields_of 58 arg [a; l; b] -> algo_or_default a c -> level_or_default w l c n -> size_or_default base b k -> k < 2 ^ w ->
    asks w base arg c n k.
