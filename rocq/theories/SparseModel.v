(** * Model of the sparse file layer (src/libdar/sparse_file.cpp)

    class sparse_file derives from escape: what it writes is a sequence of calls to escape::inherited_write,
    add_mark_at_current_position and flush ([wop], EscapeModel.v), which never depends on what escape answers: the writing side logs
    these calls. The reading side works on the reader of EscapeModel.v. infinint are [N] (C03), the sizes of buffers are [nat]. *)
From Verif Require Import Base NumModel FileModel InfinintModel CrcModel EscapeModel.
Open Scope nat_scope.

(** ESCAPE_FIXED_SEQUENCE_SPARSE_FILE, escape.hpp:55 *)
Definition S0 : N := 174.
(** the greatest U_I (size_t) *)
Definition UI_MAX : N := 18446744073709551615.
Inductive smode := normal | hole.

(** ** Writing *)
Record wsp := mk_ws { ws_mode : smode; ws_zeros : N; ws_offset : N; ws_min : N; ws_ui : N; ws_log : list wop }.
(** constructor, sparse_file.cpp:69-104 *)
Definition ws_new (hole_size : N) : wsp := mk_ws normal 0 0 hole_size (if (hole_size <=? UI_MAX)%N then hole_size else 0%N) [].

Fixpoint lead (p : N -> bool) (l : list N) : nat := match l with [] => 0 | x :: r => if p x then S (lead p r) else 0 end.
Definition is_zero (b : N) : bool := (b =? 0)%N.
Definition is_nonzero (b : N) : bool := negb (b =? 0)%N.
(** count_initial_zeros, sparse_file.cpp:682-690 *)
Definition count_initial_zeros (a : list N) : nat := lead is_zero a.
(** look_for_hole, sparse_file.cpp:644-679: start and length of the hole *)
Fixpoint look (fuel : nat) (a : list N) (min : N) (inspected : nat) : res (option (nat * nat)) :=
  match fuel with
  | O => Err Fuel
  | S k =>
    if inspected <? length a then
      let start := inspected + lead is_nonzero (skipn inspected a) in
      let insp := if start <? length a then start + 1 + lead is_zero (skipn (start + 1) a) else start in
      let len := insp - start in
      if (0 <? min)%N && (min <? N.of_nat len)%N then Ok (Some (start, len)) else look k a min (insp + 1)
    else Ok None
  end.
Definition look_for_hole (a : list N) (min : N) : res (option (nat * nat)) := look (S (S (length a))) a min 0.

(** write_hole, sparse_file.cpp:613-629: the bytes of the infinint are given in one call (real_infinint.cpp: several) *)
Definition hole_ops (n : N) : list wop := [OpMark seqt_file; OpWrite (dumpN n)].
(** dump_pending_zeros, sparse_file.cpp:572-610: the zeros written as normal data are given in one call (the code: by blocks) *)
Definition dump_pending_zeros (w : wsp) : res wsp :=
  match ws_mode w with
  | normal => Err Ebug
  | hole =>
    let ops := if (ws_zeros w <=? ws_min w)%N then [OpWrite (repeat 0%N (N.to_nat (ws_zeros w)))] else hole_ops (ws_zeros w) in
    Ok (mk_ws normal 0 (ws_offset w + ws_zeros w) (ws_min w) (ws_ui w) (ws_log w ++ ops))
  end.
(** inherited_write, sparse_file.cpp:490-552 *)
Fixpoint ws_loop (fuel : nat) (a : list N) (written : nat) (w : wsp) : res wsp :=
  match fuel with
  | O => Err Fuel
  | S k =>
    if written <? length a then
      match ws_mode w with
      | normal =>
        let* f := look_for_hole (skipn written a) (ws_ui w) in
        match f with
        | Some (hs, hl) =>
          let next := written + hs + hl in
          if (N.of_nat hl <? ws_ui w)%N then Err Ebug
          else
            let log := ws_log w ++ [OpWrite (firstn hs (skipn written a))] in
            if next <? length a then ws_loop k a next (mk_ws normal (ws_zeros w) (ws_offset w) (ws_min w) (ws_ui w) (log ++ hole_ops (N.of_nat hl)))
            else Ok (mk_ws hole (N.of_nat hl) (ws_offset w + N.of_nat (written + hs)) (ws_min w) (ws_ui w) log)
        | None => Ok (mk_ws normal (ws_zeros w) (ws_offset w + N.of_nat (length a)) (ws_min w) (ws_ui w) (ws_log w ++ [OpWrite (skipn written a)]))
        end
      | hole =>
        if 0 <? written then Err Ebug
        else
          let z := count_initial_zeros a in
          if z <? length a then
            let* w := dump_pending_zeros (mk_ws hole (ws_zeros w + N.of_nat z) (ws_offset w) (ws_min w) (ws_ui w) (ws_log w)) in
            let* o := nsub (ws_offset w) (N.of_nat z) in
            ws_loop k a z (mk_ws (ws_mode w) (ws_zeros w) o (ws_min w) (ws_ui w) (ws_log w))
          else Ok (mk_ws hole (ws_zeros w + N.of_nat (length a)) (ws_offset w) (ws_min w) (ws_ui w) (ws_log w))
      end
    else Ok w
  end.
Definition ws_write (a : list N) (w : wsp) : res wsp := ws_loop (S (S (length a))) a 0 w.
(** inherited_sync_write, sparse_file.cpp:554-569 *)
Definition ws_sync (w : wsp) : res wsp :=
  let* w := match ws_mode w with hole => dump_pending_zeros w | normal => Ok w end in
  Ok (mk_ws (ws_mode w) (ws_zeros w) (ws_offset w) (ws_min w) (ws_ui w) (ws_log w ++ [OpSync])).
(** get_position in write only mode, sparse_file.cpp:374-375 *)
Definition ws_position (w : wsp) : N := (ws_offset w + ws_zeros w)%N.
Fixpoint ws_run (chunks : list (list N)) (w : wsp) : res wsp :=
  match chunks with [] => Ok w | a :: r => let* w := ws_write a w in ws_run r w end.
(** what saving a file does (filtre.cpp:3377-3551): the data in pieces, sync_write(), terminate(); the result is what is below *)
Definition sparse_session (hole_size : N) (chunks : list (list N)) (f : gfile) : res gfile :=
  let* w := ws_run chunks (ws_new hole_size) in
  let* w := ws_sync w in
  w_session S0 (ws_log w) f.

(** ** Reading *)
Record rsp := mk_rs { rs_mode : smode; rs_zeros : N; rs_offset : N; rs_seen : bool; rs_before : N; rs_esc : resc }.
Definition rs_new (r : resc) : rsp := mk_rs normal 0 0 false 0 r.
(** storage(f, size), storage.cpp:55-75, for one cell (sizes below 2^32): reads until all is there or nothing comes *)
Fixpoint fill (fuel n : nat) (r : resc) : res (list N * resc) :=
  match fuel with
  | O => Err Fuel
  | S k =>
    let* '(d, r) := read S0 n r in
    if length d <? n then
      match d with [] => Err Erange | _ => let* '(d', r) := fill k (n - length d) r in Ok (d ++ d', r) end
    else Ok (d, r)
  end.
(** infinint::read on the sparse_file in "as escape" mode, real_infinint.cpp:56-114 *)
Fixpoint read_inf (fuel : nat) (skip : N) (r : resc) : res (N * resc) :=
  match fuel with
  | O => Err Fuel
  | S k =>
    let* '(d, r) := read S0 1 r in
    match d with
    | [] => Err Erange
    | a :: _ =>
      if (a =? 0)%N then read_inf k (skip + 1) r
      else
        let bf := expand_byte a in
        if negb (fold_left N.add bf 0 =? 1)%N then Err Erange
        else
          let len := N.to_nat ((skip * 8 + (first_one bf + 1)) * TG) in
          let* '(data, r) := fill (S len) len r in
          Ok (inf_value (reduce data), r)
    end
  end.
Definition read_hole_size (r : resc) : res (N * resc) := read_inf (r_fuel r) 0 r.

(** inherited_read, sparse_file.cpp:382-488 *)
Fixpoint rs_loop (fuel n : nat) (got : list N) (r : rsp) : res (list N * rsp) :=
  match fuel with
  | O => Err Fuel
  | S k =>
    if length got <? n then
      let needed := n - length got in
      match rs_mode r with
      | hole =>
        if (rs_zeros r =? 0)%N then
          let* '(m, e) := next_to_read_is_which_mark S0 (rs_esc r) in
          match m with
          | Some seqt_file =>
            let* '(found, e) := skip_to_next_mark S0 seqt_file false [] e in
            if found : bool then
              let* '(z, e) := read_hole_size e in
              let before := if rs_seen r then rs_before r else rs_offset r in
              rs_loop k n got (mk_rs hole z (rs_offset r + z) true before e)
            else Err Ebug
          | Some _ => Err Erange
          | None => Ok (got, mk_rs hole (rs_zeros r) (rs_offset r) (rs_seen r) (rs_before r) e)
          end
        else
          let available := N.min (rs_zeros r) UI_MAX in
          let rest := (rs_zeros r - available)%N in
          let '(give, rest) := if (N.of_nat needed <? available)%N then (needed, (rest + (available - N.of_nat needed))%N) else (N.to_nat available, rest) in
          rs_loop k n (got ++ repeat 0%N give) (mk_rs (if (rest =? 0)%N then normal else hole) rest (rs_offset r) (rs_seen r) (rs_before r) (rs_esc r))
      | normal =>
        let* '(d, e) := read S0 needed (rs_esc r) in
        rs_loop k n (got ++ d) (mk_rs (if length d <? needed then hole else normal) (if length d <? needed then 0%N else rs_zeros r)
                                      (rs_offset r + N.of_nat (length d)) (rs_seen r) (rs_before r) e)
      end
    else Ok (got, r)
  end.
Definition rs_read (n : nat) (r : rsp) : res (list N * rsp) := rs_loop (4 * (n + length (fdata (r_below (rs_esc r)))) + 4) n [] r.
(** get_position in read only mode, sparse_file.cpp:370-373 *)
Definition rs_position (r : rsp) : res N := nsub (rs_offset r) (rs_zeros r).

(** generic_file::copy_to(null_file, amount), generic_file.cpp:262-320, for amounts below 2^31: the data is read by pieces and dropped *)
Fixpoint drop_bytes (fuel : nat) (bs amount : nat) (r : rsp) : res (nat * rsp) :=
  match fuel with
  | O => Err Fuel
  | S k =>
    if 0 <? amount then
      let* '(d, r) := rs_read (Nat.min bs amount) r in
      match d with [] => Ok (0, r) | _ => let* '(m, r) := drop_bytes k bs (amount - length d) r in Ok (length d + m, r) end
    else Ok (0, r)
  end.
(** skip in read only mode, sparse_file.cpp:259-326; [n] bounds the recursive call (one) *)
Fixpoint rs_skip (n : nat) (bs : nat) (pos : N) (r : rsp) : res (bool * rsp) :=
  match n with
  | O => Err Fuel
  | S n =>
    let* cur := rs_position r in
    let jump p := let* e := r_skip S0 (N.to_nat p) (rs_esc r) in Ok (mk_rs normal 0 p (rs_seen r) (rs_before r) e) in
    if (pos <? cur)%N then
      if negb (rs_seen r) || (pos <=? rs_before r)%N then let* r := jump pos in Ok (true, r)
      else let* r := jump (rs_before r) in rs_skip n bs pos r
    else if rs_seen r && (pos <=? rs_before r)%N then let* r := jump pos in Ok (true, r)
    else
      let amount := N.to_nat (pos - cur) in
      let* '(m, r) := drop_bytes (S amount) bs amount r in Ok (m =? amount, r)
  end.

(** copy_to with CRC, sparse_file.cpp:106-223. [bs] is BUFFER_SIZE, [addr] the address of the buffer; the CRC is absent when crc_size
    is zero; escape::skip(0) is done, the fields offset, mode and zero_count are left as they are. *)
Fixpoint copy_loop (fuel bs : nat) (no_skip : bool) (addr : N) (last_skip : bool) (r : rsp) (t : gfile) (c : option crc) : res (rsp * gfile * option crc) :=
  match fuel with
  | O => Err Fuel
  | S k =>
    let* '(d, e) := read S0 bs (rs_esc r) in
    match d with
    | _ :: _ =>
      let* c := match c with Some c => let* c := crc_compute_at (rs_offset r) addr d c in Ok (Some c) | None => Ok None end in
      copy_loop k bs no_skip addr false (mk_rs (rs_mode r) (rs_zeros r) (rs_offset r + N.of_nat (length d)) (rs_seen r) (rs_before r) e) (g_write d t) c
    | [] =>
      let* '(m, e) := next_to_read_is_which_mark S0 e in
      match m with
      | Some seqt_file =>
        let* '(found, e) := skip_to_next_mark S0 seqt_file false [] e in
        if found : bool then
          let* '(z, e) := read_hole_size e in
          let before := if rs_seen r then rs_before r else rs_offset r in
          if no_skip then copy_loop k bs no_skip addr last_skip (mk_rs (rs_mode r) 0 (rs_offset r) true before e) (g_write (repeat 0%N (N.to_nat z)) t) c
          else
            let off := (rs_offset r + z)%N in
            copy_loop k bs no_skip addr true (mk_rs (rs_mode r) 0 off true before e) (g_skip (N.to_nat off) t) c
        else Err Ebug
      | Some _ => Err Erange
      | None =>
        let t := if last_skip then g_write [0%N] (snd (g_skip_relative (-1) t)) else t in
        Ok (mk_rs (rs_mode r) (rs_zeros r) (rs_offset r) (rs_seen r) (rs_before r) e, t, c)
      end
    end
  end.
Definition rs_copy_to (bs : nat) (no_skip : bool) (addr : N) (crc_width : nat) (r : rsp) (t : gfile) : res (rsp * gfile * option crc) :=
  let* c := if crc_width =? 0 then Ok None else let* c := crc_create crc_width in Ok (Some c) in
  let* e := r_skip S0 0 (rs_esc r) in
  copy_loop (2 * length (fdata (r_below e)) + 2) bs no_skip addr false (mk_rs (rs_mode r) (rs_zeros r) (rs_offset r) false (rs_before r) e) t c.
