(** * Model of the copies and comparisons of src/libdar/generic_file.cpp

    The source is a file whose reads may be short: [sched] gives the greatest number of bytes (minus one) each successive read
    returns, once exhausted reads are as long as possible. The target is a plain file. [bs] is BUFFER_SIZE (macro_tools.hpp:55). *)
From Verif Require Import Base FileModel CrcModel.
Open Scope nat_scope.

Record src := mk_src { s_file : gfile; s_sched : list nat }.
Definition s_read (n : nat) (s : src) : list N * src :=
  let k := match s_sched s with [] => n | x :: _ => Nat.min n (S x) end in
  let '(d, f) := g_read k (s_file s) in (d, mk_src f (tl (s_sched s))).

(** copy_to(ref), generic_file.cpp:191-223; the CRC is the one of read_crc (:473-487): [None] when no CRC is active; [addr] is the address of the buffer *)
Fixpoint copy_loop (fuel bs : nat) (addr : N) (s : src) (t : gfile) (c : option crc) : res (src * gfile * option crc) :=
  match fuel with
  | O => Err Fuel
  | S k =>
    let '(d, s) := s_read bs s in
    let* c := match c with Some c => let* c := crc_compute addr d c in Ok (Some c) | None => Ok None end in
    match d with [] => Ok (s, t, c) | _ => copy_loop k bs addr s (g_write d t) c end
  end.
Definition copy_to (bs : nat) (addr : N) (s : src) (t : gfile) : res (src * gfile) :=
  let* '(s, t, _) := copy_loop (S (length (fdata (s_file s)))) bs addr s t None in Ok (s, t).
(** copy_to(ref, crc_size, value), :225-241 *)
Definition copy_to_crc (bs : nat) (addr : N) (width : nat) (s : src) (t : gfile) : res (src * gfile * crc) :=
  let* c := crc_create width in
  let* '(s, t, c) := copy_loop (S (length (fdata (s_file s)))) bs addr s t (Some c) in
  match c with Some c => Ok (s, t, c) | None => Err Ebug end.

(** copy_to(ref, U_32 size), :243-283: the loop, [wrote] and [size] are U_32, [lu] and [pas] are S_I. A negative [pas] is given to read()
    as a huge U_I for a buffer of BUFFER_SIZE bytes: undefined behaviour. *)
Fixpoint copy32_loop (fuel bs : nat) (size wrote : N) (s : src) (t : gfile) : res (N * src * gfile) :=
  match fuel with
  | O => Err Fuel
  | S k =>
    if (wrote <? size)%N then
      let lu := to_S_I (Z.of_N (size - wrote)) in
      let pas := if (Z.of_nat bs <? lu)%Z then Z.of_nat bs else lu in
      if (pas <? 0)%Z then Err UB
      else
        let '(d, s) := s_read (Z.to_nat pas) s in
        match d with [] => Ok (wrote, s, t) | _ => copy32_loop k bs size (wrote + N.of_nat (length d)) s (g_write d t) end
    else Ok (wrote, s, t)
  end.
Definition copy32 (bs : nat) (size : N) (s : src) (t : gfile) : res (N * src * gfile) := copy32_loop (S (length (fdata (s_file s)))) bs size 0 s t.
(** unstack, real_infinint.hpp: takes as much as a U_32 may hold out of the infinint, on top of what is there (C03) *)
Definition U32MAX : N := 4294967295.
Definition unstack32 (size tmp : N) : N * N := let m := N.min size (U32MAX - tmp) in ((size - m)%N, (tmp + m)%N).
(** copy_to(ref, infinint size), :285-306 *)
Fixpoint copyN_loop (fuel bs : nat) (size tmp wrote : N) (s : src) (t : gfile) : res (N * src * gfile) :=
  match fuel with
  | O => Err Fuel
  | S k =>
    let* '(delta, s, t) := copy32 bs tmp s t in
    let tmp := (tmp - delta)%N in
    let '(size, tmp) := if (tmp =? 0)%N then unstack32 size tmp else (size, tmp) in
    if (0 <? tmp)%N && negb (delta =? 0)%N then copyN_loop k bs size tmp (wrote + delta)%N s t else Ok ((wrote + delta)%N, s, t)
  end.
Definition copyN (bs : nat) (size : N) (s : src) (t : gfile) : res (N * src * gfile) :=
  let '(size, tmp) := unstack32 size 0 in copyN_loop (S (S (length (fdata (s_file s))))) bs size tmp 0 s t.

(** length of the common start: the while loop of :366-368 *)
Fixpoint common (a b : list N) : nat := match a, b with x :: p, y :: q => if (x =? y)%N then S (common p q) else 0 | _, _ => 0 end.
(** diff, generic_file.cpp:324-398: both sources have been skipped to zero; whether they differ, the offset, the CRC *)
Fixpoint diff_loop (fuel bs : nat) (addr : N) (s1 s2 : src) (off : N) (c : crc) : res (bool * N * crc) :=
  match fuel with
  | O => Err Fuel
  | S k =>
    let '(d1, s1) := s_read bs s1 in
    let '(d2, s2) := s_read bs s2 in
    if length d1 =? length d2 then
      let i := common d1 d2 in
      if i <? length d1 then Ok (true, (off + N.of_nat i)%N, c)
      else
        let* c := crc_compute addr d1 c in
        let off := (off + N.of_nat (length d1))%N in
        if 0 <? length d1 then diff_loop k bs addr s1 s2 off c else Ok (false, off, c)
    else Ok (true, (off + N.of_nat (Nat.min (length d1) (length d2)))%N, c)
  end.
Definition s_skip0 (s : src) : src := mk_src (g_skip 0 (s_file s)) (s_sched s).
Definition diff (bs : nat) (addr : N) (width : nat) (s1 s2 : src) : res (bool * N * crc) :=
  let* c := crc_create width in diff_loop (S (length (fdata (s_file s1)))) bs addr (s_skip0 s1) (s_skip0 s2) 0 c.
(** operator ==, generic_file.cpp:103-127 *)
Fixpoint eq_loop (fuel bs : nat) (s1 s2 : src) : res bool :=
  match fuel with
  | O => Err Fuel
  | S k =>
    let '(d1, s1) := s_read bs s1 in
    let '(d2, s2) := s_read bs s2 in
    let ret := if length d1 =? length d2 then negb (common d1 d2 <? length d1) else false in
    if (0 <? length d1) && ret then eq_loop k bs s1 s2 else Ok ret
  end.
Definition file_eq (bs : nat) (s1 s2 : src) : res bool := eq_loop (S (length (fdata (s_file s1)))) bs (s_skip0 s1) (s_skip0 s2).
