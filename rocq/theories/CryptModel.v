(** * Model of the block encryption layer (src/libdar/tronconneuse.cpp, tronconneuse.hpp).

    The cipher is an argument: the interface crypto_module (src/libdar/crypto_module.hpp:44-105). The layer below is a
    plain byte file. Simplifications: the state left by an exception is not modelled; memory allocation never fails;
    thread cancellation is not modelled; block sizes and lengths are unbounded naturals except where the code converts
    to U_32 and checks it (fill_buf, tronconneuse.cpp:465-468). *)
From Verif Require Import Base FileModel ClientSpec.
Open Scope nat_scope.

(** crypto_module.hpp:44-105: encrypted_block_size_for, clear_block_allocated_size_for, encrypt_data, decrypt_data *)
Record crypto := mk_crypto { c_size : nat -> nat; c_alloc : nat -> nat;
  c_enc : nat -> list N -> list N; c_dec : nat -> list N -> res (list N) }.

(** ** reading *)
(** tronconneuse.hpp:148-177, the fields used when reading: encrypted, buf_offset, buf (its first buf_byte_data bytes),
    current_position, reof, extra_buf (its first extra_buf_data bytes), extra_buf_offset *)
Record rtron := mk_r { r_enc : gfile; r_off : nat; r_buf : list N; r_cur : nat; r_reof : bool; r_extra : list N; r_eoff : nat }.

Section Reader.
Variable C : crypto.
Variable B : nat.       (* clear_block_size *)
Variable shift : nat.   (* initial_shift *)
Variable cb : option (list N -> res nat).  (* trailing_clear_data, applied to the content of the memory file it is given *)

Definition E : nat := c_size C B. (* encrypted_buf_size, init_buf tronconneuse.cpp:519-560 *)

(** remove_trailing_clear_data_from_encrypted_buf, tronconneuse.cpp:579-646; result: encrypted_buf, extra_buf,
    extra_buf_offset, reof, encrypted *)
Definition remove_clear (crypt : nat) (ebuf extra : list N) (eoff : nat) (reof : bool) (enc : gfile)
  : res (list N * list N * nat * bool * gfile) :=
  match cb with
  | None => Ok (ebuf, extra, eoff, reof, enc)
  | Some f =>
    if 0 <? length extra then Err Ebug
    else
      let '(extra, eoff, enc) := if reof then (extra, eoff, enc) else let '(d, enc') := g_read E enc in (d, fpos enc, enc') in
      match f (ebuf ++ extra) with
      | Err _ => if reof then Ok ([], [], eoff, reof, enc) else Ok (ebuf, extra, eoff, reof, enc)
      | Ok off =>
        if off <? shift then Ok (ebuf, extra, eoff, reof, enc)
        else
          let off := off - shift in
          if off <=? crypt then Ok ([], [], eoff, true, enc)
          else if off - crypt <=? length ebuf then Ok (firstn (off - crypt) ebuf, [], eoff, true, enc)
          else Err Ebug
      end
  end.

(** the loading of one block, tronconneuse.cpp:400-457; position_clear2crypt, tronconneuse.cpp:562-568.
    Using data left in extra_buf only happens after an exception: it is marked UB here (see the header) *)
Definition load (s : rtron) : res (nat * rtron) :=
  let block := r_cur s / B in
  let pos := r_cur s mod B in
  let crypt := block * E in
  let off := block * B in
  if r_reof s then Ok (pos, mk_r (r_enc s) off [] (r_cur s) (r_reof s) (r_extra s) (r_eoff s))
  else if (r_eoff s <=? crypt) && (crypt <? r_eoff s + length (r_extra s)) then Err UB
  else
    let '(ebuf, enc) := g_read E (g_skip (crypt + shift) (r_enc s)) in
    let* '(ebuf, extra, eoff, reof, enc) :=
      (if length ebuf <? E then remove_clear crypt ebuf [] (r_eoff s) true enc else Ok (ebuf, [], r_eoff s, false, enc)) in
    let* '(clear, extra, eoff, reof, enc) :=
      match c_dec C block ebuf with
      | Ok c => Ok (c, extra, eoff, reof, enc)
      | Err Erange =>
        if reof then Err Erange
        else match remove_clear crypt ebuf extra eoff reof enc with
             | Err _ => Err Erange
             | Ok (ebuf, extra, eoff, reof, enc) =>
               match c_dec C block ebuf with Ok c => Ok (c, extra, eoff, reof, enc) | Err _ => Err Erange end
             end
      | Err e => Err e
      end in
    if c_alloc C B <? length clear then Err Erange
    else Ok (pos, mk_r enc off clear (r_cur s) reof extra eoff).

(** fill_buf, tronconneuse.cpp:391-471 *)
Definition fill_buf (s : rtron) : res (nat * rtron) :=
  if (r_cur s <? r_off s) || ((r_off s + length (r_buf s) <=? r_cur s) && negb (r_reof s)) then load s
  else if (4294967296 <=? N.of_nat (r_cur s - r_off s))%N then Err Ebug
  else Ok (r_cur s - r_off s, s).

Definition at_cur (s : rtron) (c : nat) : rtron := mk_r (r_enc s) (r_off s) (r_buf s) c (r_reof s) (r_extra s) (r_eoff s).
Definition with_reof (s : rtron) (b : bool) : rtron := mk_r (r_enc s) (r_off s) (r_buf s) (r_cur s) b (r_extra s) (r_eoff s).
Definition with_enc (s : rtron) (f : gfile) : rtron := mk_r f (r_off s) (r_buf s) (r_cur s) (r_reof s) (r_extra s) (r_eoff s).

(** inherited_read, tronconneuse.cpp:213-233 *)
Fixpoint tr_read_loop (fuel n : nat) (got : list N) (s : rtron) : res (list N * rtron) :=
  match fuel with
  | O => Err Fuel
  | S k =>
    if length got <? n then
      let* '(pos, s) := fill_buf s in
      if length (r_buf s) <=? pos then Ok (got, s)
      else
        let d := firstn (n - length got) (skipn pos (r_buf s)) in
        tr_read_loop k n (got ++ d) (at_cur s (r_off s + pos + length d))
    else Ok (got, s)
  end.
Definition tr_read (n : nat) (s : rtron) : res (list N * rtron) := tr_read_loop (S n) n [] s.

(** skip_to_eof, tronconneuse.cpp:125-156 *)
Definition tr_skip_eof (s : rtron) : res rtron :=
  let enc := g_skip_eof (r_enc s) in
  if fpos enc <? shift then Err Ebug
  else
    let block := (fpos enc - shift) / E in
    let s := with_reof (at_cur (with_enc s enc) (block * B)) false in
    let* '(_, s) := fill_buf s in
    let s := at_cur (with_reof s true) (r_off s + length (r_buf s)) in
    Ok (with_enc s (g_skip_eof (r_enc s))).

(** skip, tronconneuse.cpp:101-123; check_current_position, tronconneuse.hpp:209 *)
Definition tr_skip (p : nat) (s : rtron) : res (bool * rtron) :=
  if r_cur s =? p then Ok (true, s)
  else
    let s := if p <? r_off s then with_reof s false else s in
    let* '(pos, s) := fill_buf (at_cur s p) in
    if pos <? length (r_buf s) then Ok (true, s)
    else let* s := tr_skip_eof s in Ok (false, s).

(** skip_relative, tronconneuse.cpp:158-181 *)
Definition tr_skip_relative (x : Z) (s : rtron) : res (bool * rtron) :=
  if (0 <=? x)%Z then tr_skip (r_cur s + Z.to_nat x) s
  else if (- x <=? Z.of_nat (r_cur s))%Z then tr_skip (r_cur s - Z.to_nat (- x)) s
  else let* '(_, s) := tr_skip 0 s in Ok (false, s).

(** inherited_flush_read, tronconneuse.hpp:139 *)
Definition tr_flush_read (s : rtron) : rtron := mk_r (r_enc s) (r_off s) [] (r_cur s) (r_reof s) (r_extra s) (r_eoff s).

(** the operations of a reading client; get_position, tronconneuse.hpp:101; writing in read only mode: generic_file.cpp:149-158 *)
Definition tr_op (o : gop) (s : rtron) : res (gout * rtron) :=
  match o with
  | GRead n => let* '(d, s) := tr_read n s in Ok (OData d, s)
  | GWrite _ => Err Ebug
  | GSkip p => let* '(b, s) := tr_skip p s in Ok (OBool b, s)
  | GEof => let* s := tr_skip_eof s in Ok (OBool true, s)
  | GRel x => let* '(b, s) := tr_skip_relative x s in Ok (OBool b, s)
  | GPos => Ok (OPos (r_cur s), s)
  end.
Fixpoint tr_run (ops : list gop) (s : rtron) : res (list gout * rtron) :=
  match ops with
  | [] => Ok ([], s)
  | o :: r => let* '(a, s1) := tr_op o s in let* '(l, s2) := tr_run r s1 in Ok (a :: l, s2)
  end.
(** the constructor, tronconneuse.cpp:48-87 *)
Definition tr_open (enc : gfile) : res rtron := if B =? 0 then Err Erange else Ok (mk_r enc 0 [] 0 false [] 0).
End Reader.

(** ** writing *)
(** the fields used when writing: encrypted, buf, block_num, weof, current_position; [w_mode_ok] tells that the file below is in
    write only mode (the only mode in which flush does something) *)
Record wtron := mk_w { w_enc : gfile; w_buf : list N; w_num : nat; w_weof : bool; w_cur : nat }.
Section Writer.
Variable C : crypto.
Variable B : nat.
Variable w_mode_ok : bool.

(** flush, tronconneuse.cpp:473-517; crypto_sym::encrypt_data checks the room available, crypto_sym.cpp:178-186 *)
Definition tw_flush (s : wtron) : res wtron :=
  if negb w_mode_ok then Ok s
  else if w_weof s then Ok s
  else if 0 <? length (w_buf s) then
    if c_size C B <? c_size C (length (w_buf s)) then Err Ebug
    else Ok (mk_w (g_write (c_enc C (w_num s) (w_buf s)) (w_enc s)) [] (w_num s) (w_weof s) (w_cur s))
  else Ok s.
(** inherited_write, tronconneuse.cpp:235-274 *)
Fixpoint tw_write_loop (fuel : nat) (a : list N) (s : wtron) : res wtron :=
  match fuel with
  | O => Err Fuel
  | S k =>
    match a with
    | [] => Ok s
    | _ =>
      let n := Nat.min (length a) (B - length (w_buf s)) in
      let s := mk_w (w_enc s) (w_buf s ++ firstn n a) (w_num s) (w_weof s) (w_cur s) in
      let* s := (if B <=? length (w_buf s) then
                   let* s := tw_flush s in Ok (mk_w (w_enc s) (w_buf s) (S (w_num s)) (w_weof s) (w_cur s))
                 else Ok s) in
      tw_write_loop k (skipn n a) s
    end
  end.
Definition tw_write (fuel : nat) (a : list N) (s : wtron) : res wtron :=
  if w_weof s then Err Ebug
  else
    let* s := tw_write_loop fuel a s in
    Ok (mk_w (w_enc s) (w_buf s) (w_num s) (w_weof s) (w_cur s + length a)).
(** write_end_of_file, tronconneuse.hpp:108 *)
Definition tw_end (s : wtron) : res wtron :=
  let* s := tw_flush s in Ok (mk_w (w_enc s) (w_buf s) (w_num s) true (w_cur s)).
Definition tw_open (enc : gfile) : res wtron := if B =? 0 then Err Erange else Ok (mk_w enc [] 0 false 0).

(** what a writing client does: writes, then sync_write (inherited_sync_write, tronconneuse.hpp:135) *)
Inductive wop := WWrite (a : list N) | WSync.
Definition tw_op (o : wop) (s : wtron) : res wtron :=
  match o with WWrite a => tw_write (S (length a)) a s | WSync => tw_flush s end.
Fixpoint tw_run (ops : list wop) (s : wtron) : res wtron :=
  match ops with [] => Ok s | o :: r => let* s := tw_op o s in tw_run r s end.
(** a whole writing session: open, operations, write_end_of_file, terminate (inherited_terminate, tronconneuse.hpp:142) *)
Definition tw_session (ops : list wop) (enc : gfile) : res gfile :=
  let* s := tw_open enc in
  let* s := tw_run ops s in
  let* s := tw_end s in
  let* s := tw_flush s in
  Ok (w_enc s).
End Writer.

(** ** the symmetric cipher module (src/libdar/crypto_sym.cpp:151-250)
    The cipher itself ([enc], [dec] on whole algorithm blocks, for a block number) and the elastic buffer ([pad], [padlen])
    are arguments. *)
Section Sym.
Variable algo : nat.   (* algo_block_size *)
Variable enc dec : nat -> list N -> list N.
Variable pad : nat -> nat -> list N.  (* elastic::dump for a given block number (hence random draw) and size *)
Variable unpad : list N -> res nat.   (* size read by the backward elastic constructor *)
(** encrypted_block_size_for, crypto_sym.cpp:151-163 *)
Definition sym_size (n : nat) : nat := (n / algo + 1) * algo.
(** encrypt_data, crypto_sym.cpp:170-212 *)
Definition sym_enc (num : nat) (clear : list N) : list N := enc num (clear ++ pad num (sym_size (length clear) - length clear)).
(** decrypt_data, crypto_sym.cpp:214-250 *)
Definition sym_dec (num : nat) (crypt : list N) : res (list N) :=
  match crypt with
  | [] => Ok []
  | _ =>
    let clear := dec num crypt in
    let* n := unpad clear in
    if length crypt <? n then Err Erange else Ok (firstn (length crypt - n) clear)
  end.
(** clear_block_allocated_size_for, crypto_sym.cpp:165-168 *)
Definition crypto_sym : crypto := mk_crypto sym_size sym_size sym_enc sym_dec.
End Sym.
