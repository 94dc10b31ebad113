(** * Model of the cache (src/libdar/cache.cpp, cache.hpp)

    The layer below is a plain file (FileModel.v: skips never fail, no I/O error). The buffer is the list of its valid bytes: its
    length is the field last. [ro] tells the read-only mode, otherwise the mode is read-write. *)
From Verif Require Import Base FileModel ClientSpec.
Open Scope nat_scope.

Record cache := mk_c { c_ref : gfile; c_buf : list N; c_next : nat; c_ftw : nat; c_off : nat; c_eof : nat; c_shift : bool; c_size : nat; c_ro : bool }.
Definition c_last (c : cache) : nat := length (c_buf c).
(** constructor, cache.cpp:50-71 *)
Definition c_new (shift ro : bool) (size : nat) (f : gfile) : res cache :=
  if size <? 10 then Err Erange else Ok (mk_c f [] 0 size (fpos f) 0 shift size ro).
(** cache.hpp:107 *)
Definition need_flush (c : cache) : bool := c_ftw c <? c_last c.
Definition c_half (c : cache) : nat := c_size c / 2.
(** get_position, cache.hpp:77 *)
Definition c_pos (c : cache) : nat := c_off c + c_next c.
(** shift_by_half, cache.cpp:640-662 *)
Definition shift_by_half (c : cache) : res cache :=
  if c_last c <=? c_half c then Ok c
  else
    let shift := Nat.min (c_last c - c_half c) (c_next c) in
    if c_ftw c <? shift then Err Ebug
    else Ok (mk_c (c_ref c) (skipn shift (c_buf c)) (c_next c - shift) (if c_ftw c <? c_size c then c_ftw c - shift else c_ftw c) (c_off c + shift) (c_eof c) (c_shift c) (c_size c) (c_ro c)).
(** clear_buffer, cache.cpp:664-670 *)
Definition clear_buffer (c : cache) : res cache :=
  if need_flush c then Err Ebug else Ok (mk_c (c_ref c) [] 0 (c_ftw c) (c_off c + c_next c) (c_eof c) (c_shift c) (c_size c) (c_ro c)).
Definition shift_or_clear (c : cache) : res cache := if c_shift c then shift_by_half c else clear_buffer c.
(** flush_write, cache.cpp:672-694 *)
Definition flush_write (c : cache) : res cache :=
  if c_ro c then Ok c
  else
    let ref := if need_flush c then g_write (skipn (c_ftw c) (c_buf c)) (g_skip (c_off c + c_ftw c) (c_ref c)) else c_ref c in
    shift_or_clear (mk_c ref (c_buf c) (c_last c) (c_size c) (c_off c) (c_eof c) (c_shift c) (c_size c) (c_ro c)).
Definition flush_if_needed (c : cache) : res cache := if need_flush c then flush_write c else Ok c.
(** fulfill_read, cache.cpp:696-770 *)
Definition fulfill_read (c : cache) : res cache :=
  let skipping := c_last c =? 0 in
  let* c := shift_or_clear c in
  let '(next, off, ref) :=
    if negb (c_eof c =? 0) && (c_eof c <? c_off c + c_last c + c_size c) && (c_next c =? c_last c) && skipping then
      if c_size c <? c_eof c then (c_off c + c_size c - c_eof c, c_eof c - c_size c, g_skip (c_eof c - c_size c) (c_ref c))
      else (c_off c, 0, g_skip 0 (c_ref c))
    else (c_next c, c_off c, g_skip (c_off c + c_last c) (c_ref c)) in
  let '(d, ref) := g_read (c_size c - c_last c) ref in
  Ok (mk_c ref (c_buf c ++ d) next (c_ftw c) off (c_eof c) (c_shift c) (c_size c) (c_ro c)).
(** inherited_read, cache.cpp:366-445 *)
Fixpoint read_loop (fuel n : nat) (got : list N) (c : cache) : res (list N * cache) :=
  match fuel with
  | O => Err Fuel
  | S k =>
    let* '(got, eof, c) :=
      if c_last c <=? c_next c then
        let* c := flush_if_needed c in
        if n - length got <? c_size c then
          let* c := if (c_eof c =? 0) || (c_off c + c_last c <? c_eof c) then fulfill_read c else Ok c in
          Ok (got, c_last c <=? c_next c, c)
        else
          let '(d, ref) := g_read (n - length got) (c_ref c) in
          let* c := clear_buffer (mk_c ref (c_buf c) (c_next c) (c_ftw c) (c_off c) (c_eof c) (c_shift c) (c_size c) (c_ro c)) in
          Ok (got ++ d, length (got ++ d) <? n, mk_c (c_ref c) (c_buf c) (c_next c) (c_ftw c) (fpos (c_ref c)) (c_eof c) (c_shift c) (c_size c) (c_ro c))
      else Ok (got, false, c) in
    let* '(got, c) :=
      if negb eof && (length got <? n) then
        let min := Nat.min (c_last c - c_next c) (n - length got) in
        if 0 <? min then Ok (got ++ firstn min (skipn (c_next c) (c_buf c)), mk_c (c_ref c) (c_buf c) (c_next c + min) (c_ftw c) (c_off c) (c_eof c) (c_shift c) (c_size c) (c_ro c))
        else Err Ebug
      else Ok (got, c) in
    if (length got <? n) && negb eof then read_loop k n got c else Ok (got, c)
  end.
Definition c_read (n : nat) (c : cache) : res (list N * cache) := read_loop (S (S n)) n [] c.
(** inherited_write, cache.cpp:448-511 *)
Fixpoint write_loop (fuel : nat) (a : list N) (c : cache) : res cache :=
  match fuel with
  | O => Err Fuel
  | S k =>
    match a with
    | [] => Ok c
    | _ =>
      let* c := if c_size c - c_next c =? 0 then flush_if_needed c else Ok c in
      let avail := c_size c - c_next c in
      if (avail <? length a) && negb (need_flush c) then
        let off := c_off c + c_next c in
        Ok (mk_c (g_write a (g_skip off (c_ref c))) [] 0 (c_ftw c) (off + length a) (c_eof c) (c_shift c) (c_size c) (c_ro c))
      else
        let min := Nat.min (length a) avail in
        let ftw := if c_last c <=? c_ftw c then c_next c else c_ftw c in
        write_loop k (skipn min a) (mk_c (c_ref c) (firstn (c_next c) (c_buf c) ++ firstn min a ++ skipn (c_next c + min) (c_buf c)) (c_next c + min) ftw (c_off c) (c_eof c) (c_shift c) (c_size c) (c_ro c))
    end
  end.
Definition c_write (a : list N) (c : cache) : res cache :=
  let* c := write_loop (S (length a)) a c in
  Ok (match a with [] => c | _ => mk_c (c_ref c) (c_buf c) (c_next c) (c_ftw c) (c_off c) 0 (c_shift c) (c_size c) (c_ro c) end).
(** skip, cache.cpp:180-224 *)
Definition c_skip (pos : nat) (c : cache) : res (bool * cache) :=
  if (c_off c <=? pos) && (pos <=? c_off c + c_last c) then
    let nn := pos - c_off c in
    let ftw := if (nn <? c_ftw c) && negb (c_ftw c =? c_size c) then nn else c_ftw c in
    Ok (true, mk_c (c_ref c) (c_buf c) nn ftw (c_off c) (c_eof c) (c_shift c) (c_size c) (c_ro c))
  else
    let* c := flush_if_needed c in
    Ok (true, mk_c (g_skip pos (c_ref c)) [] 0 (c_ftw c) pos (c_eof c) (c_shift c) (c_size c) (c_ro c)).
(** skip_to_eof, cache.cpp:226-261 *)
Definition c_skip_eof (c : cache) : res (bool * cache) :=
  let* c := flush_if_needed c in
  let* '(ret, c) :=
    if c_eof c =? 0 then let ref := g_skip_eof (c_ref c) in Ok (true, mk_c ref (c_buf c) (c_next c) (c_ftw c) (c_off c) (fpos ref) (c_shift c) (c_size c) (c_ro c))
    else c_skip (c_eof c) c in
  if c_off c + c_last c <? c_eof c then
    let* c := clear_buffer c in
    Ok (ret, mk_c (c_ref c) (c_buf c) (c_next c) (c_ftw c) (c_eof c) (c_eof c) (c_shift c) (c_size c) (c_ro c))
  else if c_eof c <? c_off c + c_last c then Err Ebug
  else Ok (ret, mk_c (c_ref c) (c_buf c) (c_last c) (c_ftw c) (c_off c) (c_eof c) (c_shift c) (c_size c) (c_ro c)).
(** skip_relative, cache.cpp:263-302 *)
Definition c_skip_relative (x : Z) (c : cache) : res (bool * cache) :=
  let forward := (0 <=? x)%Z in
  let in_cache := if forward then c_last c - c_next c else c_next c in
  let abs_x := Z.abs_nat x in
  if abs_x <=? in_cache then
    let next := Z.to_nat (Z.of_nat (c_next c) + x) in
    if c_last c <? next then Err Ebug else Ok (true, mk_c (c_ref c) (c_buf c) next (c_ftw c) (c_off c) (c_eof c) (c_shift c) (c_size c) (c_ro c))
  else
    let* c := flush_if_needed c in
    if forward then c_skip (c_off c + abs_x) c
    else if c_off c <? abs_x then Ok (false, c) else c_skip (c_off c - abs_x) c.
(** fichier_local::inherited_truncate, fichier_local.cpp:257-279 *)
Definition g_truncate (pos : nat) (f : gfile) : gfile :=
  if length (fdata f) <=? pos then f else mk_file (firstn pos (fdata f)) (if pos <? fpos f then pos else fpos f).
(** inherited_truncate, cache.cpp:513-614 *)
Definition c_truncate (pos : nat) (c : cache) : res cache :=
  let below (c : cache) (buf : list N) (next : nat) (off : option nat) :=
    let ref := g_truncate pos (c_ref c) in
    if fpos ref =? pos then Ok (mk_c ref buf next (c_size c) (match off with Some o => o | None => c_off c end) (c_eof c) (c_shift c) (c_size c) (c_ro c)) else Err Ebug in
  if c_off c + c_last c <=? pos then let* c := flush_write c in below c [] 0 (Some pos)
  else if pos <? c_off c then below c [] 0 (Some pos)
  else
    let m := pos - c_off c in
    let buf := firstn m (c_buf c) in
    let next := Nat.min (c_next c) m in
    if c_ftw c <? c_size c then
      if m <=? c_ftw c then
        if 0 <? c_ftw c - m then below c buf next None
        else Ok (mk_c (c_ref c) buf next (c_size c) (c_off c) (c_eof c) (c_shift c) (c_size c) (c_ro c))
      else Ok (mk_c (c_ref c) buf next (c_ftw c) (c_off c) (c_eof c) (c_shift c) (c_size c) (c_ro c))
    else if m <? c_next c then below c buf next None
    else below c [] 0 (Some pos).

Definition c_op (o : gop) (c : cache) : res (gout * cache) :=
  match o with
  | GRead n => let* '(d, c) := c_read n c in Ok (OData d, c)
  | GWrite a => let* c := c_write a c in Ok (OUnit, c)
  | GSkip p => let* '(b, c) := c_skip p c in Ok (OBool b, c)
  | GEof => let* '(b, c) := c_skip_eof c in Ok (OBool b, c)
  | GRel x => let* '(b, c) := c_skip_relative x c in Ok (OBool b, c)
  | GPos => Ok (OPos (c_pos c), c)
  end.
Fixpoint c_run (ops : list gop) (c : cache) : res (list gout * cache) :=
  match ops with
  | [] => Ok ([], c)
  | o :: r => let* '(a, c) := c_op o c in let* '(l, c) := c_run r c in Ok (a :: l, c)
  end.
