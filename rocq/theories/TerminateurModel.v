(** * Model of the catalogue terminator (src/libdar/terminateur.cpp, terminateur.hpp). *)
From Verif Require Import Base InfinintModel FileModel ElasticModel.
Open Scope N_scope.

Definition BLOCK_SIZE : N := 4. (* terminateur.cpp:27 *)

(** the loop "a >>= 1; a |= 0x80", lines 57-62 *)
Fixpoint ones (n : nat) (a : N) : N := match n with O => a | S k => ones k (N.lor (N.shiftr a 1) 128) end.

(** the bytes appended to the file by terminateur::dump, terminateur.cpp:31-79 *)
Definition term_bytes (pos : N) : list N :=
  let p := dumpN pos in
  let size := N.of_nat (length p) in
  let nbbit := size / BLOCK_SIZE in
  let reste := size mod BLOCK_SIZE in
  let '(bourrage, nbbit) :=
    if negb (reste =? 0) then (repeat 0 (N.to_nat (BLOCK_SIZE - reste mod BLOCK_SIZE)), nbbit + 1) else ([], nbbit) in
  let last_byte := nbbit mod 8 in
  let nbbit := nbbit / 8 in
  let a := if negb (last_byte =? 0) then ones (N.to_nat last_byte) 0 else 0 in
  p ++ bourrage ++ [a] ++ repeat 255 (N.to_nat nbbit).
Definition term_dump (pos : N) (f : gfile) : gfile := g_write (term_bytes pos) f.

(** signed int arithmetic: overflow is undefined behaviour *)
Definition S_I_ok (n : N) : res N := if n <? 2147483648 then Ok n else Err UB.

(** the do-while of lines 100-109: returns the number of 0xFF and the first other byte *)
Fixpoint term_scan (fuel : nat) (f : gfile) (offset : N) : res (N * N * gfile) :=
  match fuel with
  | O => Err Fuel
  | S k =>
    match g_read_back f with
    | None => Err Erange
    | Some (b, f) =>
      if b =? 255 then let* o := S_I_ok (offset + 1) in term_scan k f o
      else Ok (offset, b, f)
    end
  end.
(** lines 113-119 *)
Fixpoint term_bits (fuel : nat) (a offset : N) : res N :=
  match fuel with
  | O => Err Fuel
  | S k =>
    if a =? 0 then Ok offset
    else if N.land a 128 =? 0 then Err Erange
    else term_bits k (N.shiftl a 1 mod 256) (offset + 1)
  end.
(** read_catalogue, terminateur.cpp:81-142; [with_elastic] is None, or Some old (archive version <= 6). Returns the
    catalogue position, the start of the terminator (t_start). *)
Definition read_catalogue (f : gfile) (with_elastic : option bool) (where_from : N) : res (N * nat) :=
  let f := if where_from =? 0 then g_skip_eof f else g_skip (N.to_nat where_from) f in
  let* f := match with_elastic with
            | None => Ok f
            | Some old => let* '(_, f) := elastic_read backward old f in Ok f
            end in
  let* '(offset, a, f) := term_scan (S (length (fdata f))) f 0 in
  let* offset := S_I_ok (offset * 8) in
  let* offset := term_bits 9 a offset in
  let* offset := S_I_ok offset in
  let* offset := S_I_ok (offset * BLOCK_SIZE) in
  let '(ok, f) := g_skip_relative (- Z.of_N offset) f in
  if negb ok then Err Erange
  else
    let* '(v, _) := readN (skipn (fpos f) (fdata f)) in
    Ok (v, fpos f).
