(** * ZoptModel: numbers and the argument of option -z on the command line

    Models tools_str2int and tools_my_atoi (src/libdar/tools.cpp:480-495, 2362-2374),
    string2compression (src/libdar/compression.cpp:139-171) and
    line_tools_split_compression_algo (src/dar_suite/line_tools.cpp:1763-1842).

    Simplifications: the extraction of an unsigned integer from a stream is that of the C
    locale and libstdc++ (spaces, a sign, decimal digits; failure when there is no digit or
    when the digits exceed the type; a minus sign negates modulo the size of the type); a word
    extracted from a stream holds no space, so the loop on [residu] is the test that it is
    empty. *)
From Coq Require Import List String.
From Verif Require Import Base HeaderModel ArgModel ArgSpec.
Open Scope N_scope.

Definition is_space (c : N) : bool := (c =? 32) || ((9 <=? c) && (c <=? 13)).
Fixpoint skip_ws (s : list N) : list N := match s with [] => [] | c :: r => if is_space c then skip_ws r else s end.
Fixpoint run (s : list N) : list N * list N :=
  match s with [] => ([], []) | c :: r => if (48 <=? c) && (c <=? 57) then let '(d, t) := run r in (c :: d, t) else ([], s) end.
Definition value_of (ds : list N) : N := fold_left (fun v c => v * 10 + (c - 48)) ds 0.
(** tools_str2int; w: width of U_I *)
Definition str2int (w : N) (s : list N) : res N :=
  let s := skip_ws s in
  let '(neg, s) := match s with 45 :: r => (true, r) | 43 :: r => (false, r) | _ => (false, s) end in
  let '(ds, rest) := run s in
  match ds with
  | [] => Err Erange
  | _ :: _ =>
    if 2 ^ w <=? value_of ds then Err Erange else
    let ret := if neg then (2 ^ w - value_of ds) mod 2 ^ w else value_of ds in
    match skip_ws rest with [] => Ok ret | _ => Err Erange end
  end.

Fixpoint t_eqb (a b : list N) : bool := match a, b with [], [] => true | x :: a, y :: b => (x =? y) && t_eqb a b | _, _ => false end.
Definition is (a : list N) (s : string) : bool := t_eqb a (str s).
(** string2compression *)
Definition string2compression (a : list N) : res compression :=
  if is a "gzip" || is a "gz" then Ok Cgzip else
  if is a "bzip2" || is a "bzip" || is a "bz" then Ok Cbzip2 else
  if is a "lzo" || is a "lz" || is a "l" then Ok Clzo else
  if is a "lzop-1" || is a "lzop1" then Ok Clzo15 else
  if is a "lzop-3" || is a "lzop3" then Ok Clzo1 else
  if is a "xz" || is a "lzma" then Ok Cxz else
  if is a "zstd" then Ok Czstd else
  if is a "lz4" then Ok Clz4 else
  if is a "none" then Ok Cnone else Err Erange.
Definition is_zstd (c : compression) : bool := match c with Czstd => true | _ => false end.
(** the algorithm and the level of the forms with colons, :1797-1814 and :1816-1830 *)
Definition algo_field (a : list N) : res compression := match a with [] => Ok Cgzip | _ => string2compression a end.
Definition level_field (w : N) (a : list N) (c : compression) : res N :=
  match a with
  | [] => Ok 9
  | _ => match str2int w a with
         | Ok l => if ((9 <? l) && negb (is_zstd c)) || (l <? 1) then Err Erange else Ok l
         | Err e => Err e
         end
  end.
Definition split_compression (w base : N) (arg : list N) : res (compression * N * N) :=
  match split 58 arg with
  | [_] => match str2int w arg with
           | Ok l => Ok (Cgzip, l, 0)
           | Err _ => match string2compression arg with Ok c => Ok (c, 9, 0) | Err _ => Err Erange end
           end
  | [a; l] => let* c := algo_field a in let* n := level_field w l c in Ok (c, n, 0)
  | [a; l; b] =>
    let* c := algo_field a in let* n := level_field w l c in
    let* size := ext_size base b in
    if 2 ^ w - 1 <? size then Err Erange else Ok (c, n, size)
  | _ => Err Erange
  end.
