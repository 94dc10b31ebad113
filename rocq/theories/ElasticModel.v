(** * Model of elastic buffers (src/libdar/elastic.cpp, elastic.hpp).

    U_32 arithmetic wraps modulo 2^32; conversion to S_I is modulo 2^32 too. The C library random generator is an
    explicit argument: the value of rand() choosing the place, and the list of the successive rand() values used for
    the filling bytes. *)
From Verif Require Import Base FileModel.
Open Scope N_scope.

Definition U32 (x : N) : N := x mod 4294967296.
Definition SINGLE_MARK : N := 88. (* 'X', elastic.cpp:50 *)
(** elastic.hpp:75-76; the marks of archive versions <= 6 ('>' and '<') and their base, elastic.cpp:296-320 *)
Definition low_mark (old : bool) : N := if old then 62 else 255.
Definition high_mark (old : bool) : N := if old then 60 else 254.
Definition base_from_version (old : bool) : N := if old then 256 else 254.
(** elastic.hpp:66 *)
Definition max_length : N := 254 * 254 * 254 * 254 - 1.

(** elastic::elastic(U_32), elastic.cpp:74-82 *)
Definition elastic_create (size : N) : res N :=
  if size =? 0 then Err Erange else if max_length <? size then Err Erange else Ok size.

Definition first_mark (d : dir) (old : bool) : N := match d with forward => low_mark old | backward => high_mark old end.
Definition last_mark (d : dir) (old : bool) : N := match d with forward => high_mark old | backward => low_mark old end.

(** one digit of the size field, elastic.cpp:133-142 and 190-199 *)
Definition digit_step (d : dir) (base taille power b : N) : N * N :=
  match d with
  | backward => (U32 (U32 (taille * base) + b), power)
  | forward => (U32 (taille + U32 (power * b)), U32 (power * base))
  end.

(** ** reading from a file, elastic.cpp:158-229 *)
(** lines 166-167 *)
Fixpoint scan_first (fuel : nat) (d : dir) (old : bool) (f : gfile) (a count : N) : res (N * N * gfile) :=
  match fuel with
  | O => Err Fuel
  | S k =>
    match g_step d f with
    | None => Ok (a, count, f)
    | Some (b, f') =>
      if (b =? SINGLE_MARK) || (b =? first_mark d old) then Ok (b, count, f')
      else scan_first k d old f' b (U32 (count + 1))
    end
  end.
(** lines 188-204: result is a, taille, count, byte_counter *)
Fixpoint scan_digits (fuel : nat) (d : dir) (old : bool) (f : gfile) (a taille power count bc : N)
  : res (N * N * N * N * gfile) :=
  match fuel with
  | O => Err Fuel
  | S k =>
    match g_step d f with
    | None => Ok (a, taille, count, bc, f)
    | Some (b, f') =>
      if b =? last_mark d old then Ok (b, taille, count, bc, f')
      else
        let '(taille, power) := digit_step d (base_from_version old) taille power b in
        let count := U32 (count + 1) in
        let bc := bc + 1 in
        if 4 <? bc then Err Erange else scan_digits k d old f' b taille power count bc
    end
  end.
Definition elastic_read (d : dir) (old : bool) (f : gfile) : res (N * gfile) :=
  let* '(a, count, f) := scan_first (S (length (fdata f))) d old f 0 0 in
  if negb (a =? SINGLE_MARK) && negb (a =? first_mark d old) then Err Erange
  else
    let count := U32 (count + 1) in
    if a =? SINGLE_MARK then (if count =? 1 then Ok (1, f) else Err Erange)
    else
      let* '(a, taille, count, bc, f) := scan_digits (S (length (fdata f))) d old f a 0 1 count 0 in
      if negb (a =? last_mark d old) then Err Erange
      else
        let count := U32 (count + 1) in
        let* taille := if (taille =? 0) && (bc =? 0) then Ok 2 else if taille <? 3 then Err Erange else Ok taille in
        if count <? taille then
          match d with
          | forward => Ok (taille, snd (g_skip_relative (to_S_I (Z.of_N (U32 (taille - count)))) f))
          | backward => Ok (taille, snd (g_skip_relative (to_S_I (Z.of_N (U32 (count + 4294967296 - taille)))) f))
          end
        else if taille <? count then Err Erange
        else Ok (taille, f).

(** ** reading from a memory buffer, elastic.cpp:84-156 *)
Definition pos_step (d : dir) (pos : N) : N :=
  match d with forward => U32 (pos + 1) | backward => U32 (pos + 4294967295) end.
Definition buf_at (buf : list N) (pos : N) : N := nth (N.to_nat pos) buf 0.
(** lines 97-98 *)
Fixpoint buf_scan (fuel : nat) (d : dir) (old : bool) (buf : list N) (pos : N) : res N :=
  match fuel with
  | O => Err Fuel
  | S k =>
    if (pos <? N.of_nat (length buf)) && negb (buf_at buf pos =? SINGLE_MARK) && negb (buf_at buf pos =? first_mark d old)
    then buf_scan k d old buf (pos_step d pos)
    else Ok pos
  end.
(** lines 129-145 *)
Fixpoint buf_digits (fuel : nat) (d : dir) (old : bool) (buf : list N) (pos taille power bc : N) : res (N * N * N) :=
  match fuel with
  | O => Err Fuel
  | S k =>
    if (pos <? N.of_nat (length buf)) && negb (buf_at buf pos =? last_mark d old) then
      let '(taille, power) := digit_step d (base_from_version old) taille power (buf_at buf pos) in
      let pos := pos_step d pos in
      let bc := bc + 1 in
      if 4 <? bc then Err Erange else buf_digits k d old buf pos taille power bc
    else Ok (pos, taille, bc)
  end.
Definition elastic_read_buffer (d : dir) (old : bool) (buf : list N) : res N :=
  let size := N.of_nat (length buf) in
  let pos := match d with forward => 0 | backward => U32 (size + 4294967295) end in
  let first_pos := pos in
  if 4294967295 <=? size then Err Erange
  else
    let* pos := buf_scan (S (length buf)) d old buf pos in
    if size <=? pos then Err Erange
    else if buf_at buf pos =? SINGLE_MARK then (if first_pos =? pos then Ok 1 else Err Erange)
    else
      let* '(pos, taille, bc) := buf_digits (S (length buf)) d old buf (pos_step d pos) 0 1 0 in
      if size <=? pos then Err Erange
      else if (taille =? 0) && (bc =? 0) then Ok 2
      else if taille <? 3 then Err Erange
      else Ok taille.

(** ** writing *)
(** tools_number_base_decomposition_in_big_endian(number, 254), tools.hpp:584-598 (least significant digit first) *)
Fixpoint digits254 (fuel : nat) (n : N) : list N :=
  match fuel with
  | O => []
  | S k => if n =? 0 then [] else (n mod 254) :: digits254 k (n / 254)
  end.
Definition size_digits (n : N) : list N := digits254 (N.size_nat n) n.
(** randomize, elastic.cpp:287-294: [draws] are the successive values of rand() *)
Fixpoint randomize (draws : list N) : res (N * list N) :=
  match draws with
  | [] => Err Fuel
  | r :: q =>
    let b := r mod 256 in
    if (b =? SINGLE_MARK) || (b =? low_mark false) || (b =? high_mark false) then randomize q else Ok (b, q)
  end.
Fixpoint fill (n : nat) (draws : list N) : res (list N * list N) :=
  match n with
  | O => Ok ([], draws)
  | S k => let* '(b, q) := randomize draws in let* '(l, q) := fill k q in Ok (b :: l, q)
  end.
(** dump, elastic.cpp:231-285; the result is the part of the buffer that is written ([taille] bytes) *)
Definition elastic_dump (taille size r : N) (draws : list N) : res (list N) :=
  if size <? taille then Err Erange
  else if 2 <? taille then
    let digits := size_digits taille in
    let len := N.of_nat (length digits) in
    if taille <? len + 2 then Err Ebug
    else
      let cur := if len + 2 <? taille then r mod (taille - (len + 2)) else 0 in
      let* '(l1, q) := fill (N.to_nat cur) draws in
      let* '(l2, q) := fill (N.to_nat (taille - (cur + len + 2))) q in
      Ok (l1 ++ [low_mark false] ++ digits ++ [high_mark false] ++ l2)
  else if taille =? 1 then Ok [SINGLE_MARK]
  else if taille =? 2 then Ok [low_mark false; high_mark false]
  else Err Ebug.
