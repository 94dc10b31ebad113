(** * Model of the escape layer (src/libdar/escape.cpp, escape.hpp).

    The layer below is a plain file ([gfile]); [below_position] of the source is the position of that file. The first
    byte of the fixed sequence is the parameter [s0] (0xAD, or 0xAE for sparse files, escape.hpp:54-55). Modes: write
    only for the writer, read only for the reader; the read-write mode of skip() (escape.cpp:367-432) is not modelled. *)
From Verif Require Import Base FileModel.
Open Scope nat_scope.

(** escape.hpp:75-92 (seqt_undefined is never used) *)
Inductive seqt := seqt_not_a_sequence | seqt_file | seqt_ea | seqt_catalogue | seqt_data_name | seqt_file_crc | seqt_ea_crc
| seqt_changed | seqt_dirty | seqt_failed_backup | seqt_fsa | seqt_fsa_crc | seqt_delta_sig | seqt_in_place.
Definition seqt_eq_dec : forall a b : seqt, {a = b} + {a <> b}.
Proof. decide equality. Defined.
Definition seqt_eqb (a b : seqt) : bool := if seqt_eq_dec a b then true else false.

(** type2char, escape.cpp:841-875 *)
Definition type2char (t : seqt) : N :=
  match t with
  | seqt_not_a_sequence => 88 | seqt_file => 70 | seqt_ea => 69 | seqt_catalogue => 67 | seqt_data_name => 68
  | seqt_file_crc => 82 | seqt_ea_crc => 114 | seqt_changed => 87 | seqt_dirty => 73 | seqt_failed_backup => 33
  | seqt_fsa => 83 | seqt_fsa_crc => 115 | seqt_delta_sig => 100 | seqt_in_place => 80
  end%N.
(** char2type, escape.cpp:877-912 *)
Definition char2type (c : N) : res seqt :=
  (if c =? 88 then Ok seqt_not_a_sequence else if c =? 70 then Ok seqt_file else if c =? 69 then Ok seqt_ea
  else if c =? 67 then Ok seqt_catalogue else if c =? 68 then Ok seqt_data_name else if c =? 82 then Ok seqt_file_crc
  else if c =? 114 then Ok seqt_ea_crc else if c =? 87 then Ok seqt_changed else if c =? 73 then Ok seqt_dirty
  else if c =? 33 then Ok seqt_failed_backup else if c =? 83 then Ok seqt_fsa else if c =? 115 then Ok seqt_fsa_crc
  else if c =? 100 then Ok seqt_delta_sig else if c =? 80 then Ok seqt_in_place else Err Erange)%N.

(** usual_fixed_sequence without the type byte, escape.cpp:65 *)
Definition fixed (s0 : N) : list N := [s0; 253; 234; 119; 33]%N.
Definition SEQ_LEN : nat := 6.
Definition WRITE_BUF : nat := 12.        (* escape.hpp:147 *)
Definition READ_BUF : nat := N.to_nat 102400. (* escape.hpp:148 *)

(** trouve_amorce, escape.cpp:1065-1096; the loop is the source's, with [fuel] *)
Fixpoint amorce_loop (fuel : nat) (s0 : N) (a : list N) (ret curs amorce : nat) : res (nat * nat * nat) :=
  match fuel with
  | O => Err Fuel
  | S k =>
    if (curs <? length a) && (amorce <? 5) then
      if (nth curs a 0 =? nth amorce (fixed s0) 0)%N then
        amorce_loop k s0 a (if amorce =? 0 then curs else ret) (curs + 1) (amorce + 1)
      else if 0 <? amorce then amorce_loop k s0 a ret (curs - amorce + 1) 0
      else amorce_loop k s0 a ret (curs + 1) amorce
    else Ok (ret, curs, amorce)
  end.
Definition trouve_amorce (s0 : N) (a : list N) : res nat :=
  let* '(ret, curs, amorce) := amorce_loop (6 * S (length a)) s0 a 0 0 0 in
  if length a <=? curs then (if amorce =? 0 then Ok (length a) else Ok ret) else Ok ret.

(** remove_data_marks_and_stop_at_first_real_mark, escape.cpp:1099-1131: returns ret, delta and the new content *)
Fixpoint remove_loop (fuel : nat) (s0 : N) (a : list N) (ret delta : nat) : res (nat * nat * list N) :=
  match fuel with
  | O => Err Fuel
  | S k =>
    let* i := trouve_amorce s0 (skipn ret a) in
    let ret := ret + i in
    if ret <? length a then
      if ret + SEQ_LEN <=? length a then
        let* t := char2type (nth (ret + 5) a 0%N) in
        if seqt_eqb t seqt_not_a_sequence then
          remove_loop k s0 (firstn (ret + 5) a ++ skipn (ret + 6) a) (ret + 5) (delta + 1)
        else Ok (ret, delta, a)
      else Ok (ret, delta, a)
    else Ok (ret, delta, a)
  end.
Definition remove_data_marks (s0 : N) (a : list N) : res (nat * nat * list N) := remove_loop (S (length a)) s0 a 0 0.

(** ** the writer *)
Record wesc := mk_w { w_buf : list N; w_below : gfile; w_cnt : nat }.
Definition put (b : list N) (w : wesc) : wesc := mk_w (w_buf w) (g_write b (w_below w)) (w_cnt w).

(** the while loop of inherited_write, escape.cpp:748-789; [a] is the part not yet written *)
Fixpoint write_loop (fuel : nat) (s0 : N) (a : list N) (w : wesc) : res wesc :=
  match fuel with
  | O => Err Fuel
  | S k =>
    if length a =? 0 then Ok w
    else
      let* trouve := trouve_amorce s0 a in
      if trouve =? length a then Ok (put a w)
      else
        let w := if 0 <? trouve then put (firstn trouve a) w else w in
        if trouve + 5 <=? length a then
          let w := put (fixed s0 ++ [type2char seqt_not_a_sequence]) w in
          write_loop k s0 (skipn (trouve + 5) a) (mk_w (w_buf w) (w_below w) (w_cnt w + 1))
        else
          let rest := skipn trouve a in
          if 5 <=? length rest then Err Ebug
          else Ok (mk_w rest (w_below w) (w_cnt w))
  end.
(** inherited_write, escape.cpp:651-796 *)
Definition esc_write (s0 : N) (a : list N) (w : wesc) : res wesc :=
  if length a =? 0 then Ok w
  else
    let* '(written, w) :=
      if 0 <? length (w_buf w) then
        let initial := length (w_buf w) in
        if 5 <=? initial then Err Ebug
        else
          let delta := Nat.min (WRITE_BUF - initial) (length a) in
          let buf := w_buf w ++ firstn delta a in
          let* trouve := trouve_amorce s0 buf in
          if trouve =? length buf then Ok (delta, mk_w [] (g_write buf (w_below w)) (w_cnt w))
          else if trouve + 5 <=? length buf then
            Ok (trouve + 5 - initial,
                mk_w [] (g_write (fixed s0 ++ [type2char seqt_not_a_sequence]) (g_write (firstn trouve buf) (w_below w))) (w_cnt w + 1))
          else
            let yet_in_a := length a - delta in
            let missing := trouve + 5 - length buf in
            if (length buf <? WRITE_BUF) && (0 <? yet_in_a) then Err Ebug
            else
              let below := g_write (firstn trouve buf) (w_below w) in
              if missing <=? yet_in_a then
                if trouve <? initial then Err Ebug else Ok (trouve - initial, mk_w [] below (w_cnt w))
              else
                let buf := skipn trouve buf in
                if 5 <=? length buf then Err Ebug
                else if WRITE_BUF <? length buf + yet_in_a then Err Ebug
                else Ok (length a, mk_w (buf ++ skipn delta a) below (w_cnt w))
      else Ok (0, w) in
    if negb (written =? length a) && (0 <? length (w_buf w)) then Err Ebug
    else write_loop (S (length a)) s0 (skipn written a) w.
(** flush_write, escape.cpp:921-931 *)
Definition esc_flush (w : wesc) : wesc := mk_w [] (g_write (w_buf w) (w_below w)) (w_cnt w).
(** add_mark_at_current_position, escape.cpp:123-144 *)
Definition esc_mark (s0 : N) (t : seqt) (w : wesc) : res wesc :=
  if seqt_eqb t seqt_not_a_sequence then Err Erange
  else
    let w := esc_flush w in
    Ok (mk_w (w_buf w) (g_write (fixed s0 ++ [type2char t]) (w_below w)) 0).
(** get_position in write mode, escape.cpp:503-513 *)
Definition w_position (w : wesc) : nat := fpos (w_below w) + length (w_buf w) - w_cnt w.

Inductive wop := OpWrite (a : list N) | OpMark (t : seqt) | OpSync.
Fixpoint w_run (s0 : N) (ops : list wop) (w : wesc) : res wesc :=
  match ops with
  | [] => Ok w
  | OpWrite a :: r => let* w := esc_write s0 a w in w_run s0 r w
  | OpMark t :: r => let* w := esc_mark s0 t w in w_run s0 r w
  | OpSync :: r => w_run s0 r (esc_flush w)   (* inherited_sync_write, escape.hpp:135 *)
  end.
(** constructor, then the operations, then terminate() (escape.hpp:137: flush) *)
Definition w_new (f : gfile) : wesc := mk_w [] f 0.
Definition w_session (s0 : N) (ops : list wop) (f : gfile) : res gfile :=
  let* w := w_run s0 ops (w_new f) in Ok (w_below (esc_flush w)).

(** ** the reader *)
Record resc := mk_r { rb : list N;          (* read_buffer, read_buffer_size bytes *)
                      ar : nat;             (* already_read *)
                      eo : nat;             (* escape_seq_offset_in_buffer *)
                      reof : bool;          (* read_eof *)
                      alloc : nat;          (* read_buffer_alloc *)
                      cnt : nat;            (* escaped_data_count_since_last_skip *)
                      r_below : gfile }.
Definition r_new (f : gfile) : resc := mk_r [] 0 0 false READ_BUF 0 f.
Definition set_eof (r : resc) : resc := mk_r (rb r) (ar r) (eo r) true (alloc r) (cnt r) (r_below r).

(** mini_read_buffer, escape.cpp:980-1063 *)
Definition mini_read (s0 : N) (r : resc) : res (bool * resc) :=
  let avail := length (rb r) - ar r in
  if avail <? SEQ_LEN then
    let* r :=
      if alloc r <=? ar r + SEQ_LEN then
        if ar r <? SEQ_LEN then Err Ebug
        else if eo r <? ar r then Err Ebug
        else Ok (mk_r (skipn (ar r) (rb r)) 0 (eo r - ar r) (reof r) (alloc r) (cnt r) (r_below r))
      else Ok r in
    if length (rb r) <? eo r then Err Ebug
    else
      let '(got, below) := g_read (SEQ_LEN - avail) (r_below r) in
      let buf := rb r ++ got in
      let avail := length buf - ar r in
      let* '(off, delta, tail) := remove_data_marks s0 (skipn (eo r) buf) in
      let r := mk_r (firstn (eo r) buf ++ tail) (ar r) (eo r + off) (reof r) (alloc r) (cnt r + delta) below in
      if avail <? SEQ_LEN then Ok (false, set_eof r) else Ok (true, r)
  else
    if eo r =? ar r then
      let* t := char2type (nth (eo r + 5) (rb r) 0%N) in
      if seqt_eqb t seqt_not_a_sequence then
        let* '(off, delta, tail) := remove_data_marks s0 (skipn (ar r) (rb r)) in
        Ok (true, mk_r (firstn (ar r) (rb r) ++ tail) (ar r) (ar r + off) (reof r) (alloc r) (cnt r + delta) (r_below r))
      else Ok (true, r)
    else Ok (true, r).

(** the do-while of inherited_read, escape.cpp:541-598: returns the data, whether the call is finished, the state *)
Fixpoint read_loop1 (fuel : nat) (s0 : N) (n : nat) (got : list N) (r : resc) : res (list N * bool * resc) :=
  match fuel with
  | O => Err Fuel
  | S k =>
    if eo r <? ar r then Err Ebug
    else
      let avail := eo r - ar r in
      let min_cp := Nat.min avail (n - length got) in
      let got := got ++ firstn min_cp (skipn (ar r) (rb r)) in
      let r := mk_r (rb r) (ar r + min_cp) (eo r) (reof r) (alloc r) (cnt r) (r_below r) in
      let r := if ar r =? length (rb r) then mk_r [] 0 0 (reof r) (alloc r) (cnt r) (r_below r) else r in
      if length got =? n then Ok (got, true, r)
      else if n <? length got then Err Ebug
      else if negb (ar r =? length (rb r)) then
        if negb (ar r =? eo r) then Err Ebug
        else
          let* '(full, r) := mini_read s0 r in
          if full then
            if eo r =? ar r then Ok (got, false, set_eof r)
            else read_loop1 k s0 n got r
          else read_loop1 k s0 n got (mk_r (rb r) (ar r) (length (rb r)) (reof r) (alloc r) (cnt r) (r_below r))
      else Ok (got, false, r)
  end.

(** inherited_read, escape.cpp:530-649; [read_loop2] is the final while loop, [got] the data already placed *)
Fixpoint esc_read (fuel : nat) (s0 : N) (n : nat) (r : resc) {struct fuel} : res (list N * resc) :=
  match fuel with
  | O => Err Fuel
  | S k =>
    if reof r && (ar r =? length (rb r)) then Ok ([], r)
    else
      let* '(got, done, r) := read_loop1 (2 * (2 * length (fdata (r_below r)) + length (rb r)) + 3) s0 n [] r in
      if done then Ok (got, r)
      else if reof r then Ok (got, r)
      else read_loop2 k s0 n got r
  end
with read_loop2 (fuel : nat) (s0 : N) (n : nat) (got : list N) (r : resc) {struct fuel} : res (list N * resc) :=
  match fuel with
  | O => Err Fuel
  | S k =>
    let needed := n - length got in
    if SEQ_LEN <? needed then
      let '(raw, below) := g_read needed (r_below r) in
      let eof := if length raw <? needed then true else reof r in
      let* '(off, delta, a) := remove_data_marks s0 raw in
      let r := mk_r (rb r) (ar r) off eof (alloc r) (cnt r + delta) below in
      if length a <? off then Err Ebug
      else
        let got := got ++ firstn off a in
        if off <? length a then
          let alloc' := if alloc r <? length a - off then length a else alloc r in
          let r := mk_r (skipn off a) 0 0 false alloc' (cnt r) below in
          let needed := n - length got in
          if 0 <? needed then let* '(more, r) := esc_read k s0 needed r in Ok (got ++ more, r)
          else Ok (got, r)
        else
          let r := mk_r (rb r) (ar r) (length (rb r)) (reof r) (alloc r) (cnt r) below in
          if (length got <? n) && negb (reof r) then read_loop2 k s0 n got r else Ok (got, r)
    else
      let* '(_, r) := mini_read s0 r in
      if 0 <? eo r then let* '(more, r) := esc_read k s0 needed r in Ok (got ++ more, r)
      else Ok (got, set_eof r)
  end.
(** enough fuel for every call *)
Definition r_fuel (r : resc) : nat := 2 * length (fdata (r_below r)) + length (rb r) + 3.
Definition read (s0 : N) (n : nat) (r : resc) : res (list N * resc) := esc_read (2 * r_fuel r) s0 n r.

(** clean_read, escape.cpp:914-919 *)
Definition clean_read (r : resc) : resc := mk_r [] 0 0 false (alloc r) 0 (r_below r).
(** skip_to_next_mark, escape.cpp:146-221 *)
Fixpoint skip_loop (fuel : nat) (s0 : N) (t : seqt) (jump : bool) (unjumpable : list seqt) (r : resc) : res (bool * resc) :=
  match fuel with
  | O => Err Fuel
  | S k =>
    let* '(found, r) :=
      if eo r <? length (rb r) then
        let r := mk_r (rb r) (eo r) (eo r) (reof r) (alloc r) (cnt r) (r_below r) in
        let* '(full, r) := mini_read s0 r in
        if negb full then Ok (false, clean_read (set_eof r))
        else if eo r + SEQ_LEN - 1 <? length (rb r) then
          let* found_type := char2type (nth (eo r + 5) (rb r) 0%N) in
          let pass b :=
            let p := eo r + SEQ_LEN in
            let* i := trouve_amorce s0 (skipn p (rb r)) in
            Ok (b, mk_r (rb r) p (p + i) (reof r) (alloc r) (cnt r) (r_below r)) in
          if seqt_eqb found_type seqt_not_a_sequence then pass false
          else if seqt_eqb found_type t then pass true
          else if jump && negb (existsb (seqt_eqb found_type) unjumpable) then pass false
          else Ok (false, set_eof r)
        else Ok (false, mk_r (rb r) (eo r) (eo r) (reof r) (alloc r) (cnt r) (r_below r))
      else
        let '(buf, below) := g_read (alloc r) (r_below r) in
        let eof := if length buf =? 0 then true else reof r in
        let* i := trouve_amorce s0 buf in
        Ok (false, mk_r buf 0 i eof (alloc r) (cnt r) below) in
    if negb found && negb (reof r) then skip_loop k s0 t jump unjumpable r else Ok (found, r)
  end.
Definition skip_to_next_mark (s0 : N) (t : seqt) (jump : bool) (unjumpable : list seqt) (r : resc) : res (bool * resc) :=
  skip_loop (2 * r_fuel r) s0 t jump unjumpable (mk_r (rb r) (ar r) (eo r) false (alloc r) 0 (r_below r)).

(** next_to_read_is_which_mark, escape.cpp:248-283 *)
Definition next_to_read_is_which_mark (s0 : N) (r : resc) : res (option seqt * resc) :=
  if ar r <? eo r then Ok (None, r)
  else
    let* '(full, r) := mini_read s0 r in
    if full then
      if length (rb r) - ar r <? SEQ_LEN then Err Ebug
      else if eo r =? ar r then
        let* t := char2type (nth (ar r + 5) (rb r) 0%N) in
        if seqt_eqb t seqt_not_a_sequence then Err Ebug else Ok (Some t, r)
      else Ok (None, r)
    else Ok (None, r).

(** get_position in read mode, escape.cpp:503-513 *)
Definition r_position (r : resc) : nat := fpos (r_below r) - length (rb r) + ar r - cnt r.
(** skip(pos) in read only mode, escape.cpp:318-366 *)
Definition r_skip (s0 : N) (pos : nat) (r : resc) : res resc :=
  let r := mk_r (rb r) (ar r) (eo r) (reof r) (alloc r) 0 (r_below r) in
  if r_position r =? pos then Ok r
  else
    let bp := fpos (r_below r) in
    if (bp - length (rb r) <=? pos) && (pos <? bp) then
      let already := length (rb r) - (bp - pos) in
      let* i := trouve_amorce s0 (skipn already (rb r)) in
      Ok (mk_r (rb r) already (already + i) false (alloc r) 0 (r_below r))
    else Ok (mk_r [] 0 0 false (alloc r) 0 (g_skip pos (r_below r))).
