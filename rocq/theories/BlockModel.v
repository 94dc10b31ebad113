(** * Model of block compression (src/libdar/block_compressor.cpp, compress_block_header.cpp, mem_block.cpp).

    The compression algorithm is an argument: the interface compress_module (compress_module.hpp:43-91). The layer below is a
    plain byte file. The mem_block holding the clear data is its content and its read cursor (when writing, the write cursor is
    always at the end of the content). Cancellation exceptions are not modelled. *)
From Verif Require Import Base InfinintModel FileModel.
Open Scope nat_scope.

(** get_min_size_to_compress, compress_data, uncompress_data (the last argument is the room available) *)
Record zipper := mk_zip { z_room : nat -> nat; z_comp : list N -> list N; z_unc : list N -> nat -> res (list N) }.

(** compress_block_header.hpp:44-46 and dump, compress_block_header.cpp:35-39 *)
Definition H_DATA : N := 1.
Definition H_EOF : N := 2.
Definition bh_dump (type size : N) : list N := type :: dumpN size.
(** set_from, compress_block_header.cpp:41-52: None when nothing can be read *)
Definition bh_read (f : gfile) : res (option (N * N) * gfile) :=
  let '(d, f1) := g_read 1 f in
  match d with
  | t :: _ =>
    let* '(n, rest) := readN (skipn (fpos f1) (fdata f1)) in
    Ok (Some (t, n), mk_file (fdata f1) (length (fdata f1) - length rest))
  | [] => Ok (None, f1)
  end.

(** the fields of block_compressor, block_compressor.hpp:91-98; [b_data] and [b_rd]: current->clear_data *)
Record bcomp := mk_b { b_file : gfile; b_data : list N; b_rd : nat; b_susp : bool; b_need : bool; b_reof : bool }.

Section Block.
Variable Z : zipper.
Variable B : nat. (* uncompressed_block_size *)
Variable reading : bool. (* get_mode() == gf_read_only *)

(** constructor, block_compressor.cpp:38-67; min_uncompressed_block_size, block_compressor.hpp:86 *)
Definition b_open (f : gfile) : res bcomp := if B <? 100 then Err Ebug else Ok (mk_b f [] 0 false false false).

(** compress_and_write_current, block_compressor.cpp:262-301; mem_block::set_data_size, mem_block.cpp:130-139 *)
Definition b_flush (s : bcomp) : res bcomp :=
  if 0 <? length (b_data s) then
    let z := z_comp Z (b_data s) in
    if z_room Z B <? length z then Err Ebug
    else if length z =? 0 then Err Ebug
    else Ok (mk_b (g_write z (g_write (bh_dump H_DATA (N.of_nat (length z))) (b_file s))) [] 0 (b_susp s) (b_need s) (b_reof s))
  else Ok s.
(** inherited_sync_write, block_compressor.cpp:225-244 *)
Definition b_sync (s : bcomp) : res bcomp :=
  if reading then Ok s
  else
    let* s := b_flush s in
    if b_need s then Ok (mk_b (g_write (bh_dump H_EOF 0) (b_file s)) (b_data s) (b_rd s) (b_susp s) false (b_reof s))
    else Ok s.
(** inherited_flush_read, block_compressor.hpp:82 *)
Definition b_flush_read (s : bcomp) : bcomp :=
  if reading then mk_b (b_file s) [] 0 (b_susp s) (b_need s) false
  else mk_b (b_file s) (b_data s) (b_rd s) (b_susp s) (b_need s) false.
(** suspend_compression, resume_compression, block_compressor.cpp:81-94 *)
Definition b_suspend (s : bcomp) : res bcomp :=
  if b_susp s then Ok s
  else let* s := b_sync s in let s := b_flush_read s in Ok (mk_b (b_file s) (b_data s) (b_rd s) true (b_need s) (b_reof s)).
Definition b_resume (s : bcomp) : bcomp := mk_b (b_file s) (b_data s) (b_rd s) false (b_need s) (b_reof s).
(** skip, block_compressor.cpp:104-113 *)
Definition b_skip (p : nat) (s : bcomp) : bcomp := mk_b (g_skip p (b_file s)) [] 0 (b_susp s) false false.
(** get_position, block_compressor.cpp:143-163 *)
Definition b_position (s : bcomp) : res nat :=
  if reading then (if b_rd s =? length (b_data s) then Ok (fpos (b_file s)) else Err Ebug)
  else (match b_data s with [] => Ok (fpos (b_file s)) | _ => Err Ebug end).

(** inherited_write, block_compressor.cpp:194-215; mem_block::write, mem_block.cpp:103-119 *)
Fixpoint b_write_loop (fuel : nat) (a : list N) (s : bcomp) : res bcomp :=
  match fuel with
  | O => Err Fuel
  | S k =>
    match a with
    | [] => Ok s
    | _ =>
      let n := Nat.min (length a) (B - length (b_data s)) in
      let s := mk_b (b_file s) (b_data s ++ firstn n a) (b_rd s) (b_susp s) (b_need s) (b_reof s) in
      let* s := (if length (b_data s) =? B then b_flush s else Ok s) in
      b_write_loop k (skipn n a) s
    end
  end.
Definition b_write (a : list N) (s : bcomp) : res bcomp :=
  if b_susp s then Ok (mk_b (g_write a (b_file s)) (b_data s) (b_rd s) (b_susp s) (b_need s) (b_reof s))
  else
    let* s := b_write_loop (S (length a)) a s in
    Ok (mk_b (b_file s) (b_data s) (b_rd s) (b_susp s) (if 0 <? length a then true else b_need s) (b_reof s)).

(** read_and_uncompress_current, block_compressor.cpp:303-346 *)
Definition b_load (s : bcomp) : res bcomp :=
  let* '(h, f) := bh_read (b_file s) in
  match h with
  | None => Ok (mk_b f [] 0 (b_susp s) (b_need s) true)
  | Some (t, n) =>
    if (t =? H_DATA)%N then
      if (N.of_nat (z_room Z B) <? n)%N then Err Erange
      else if (n =? 0)%N then Err Erange
      else
        let '(z, f) := g_read (N.to_nat n) f in
        let* c := z_unc Z z B in
        if B <? length c then Err Ebug
        else Ok (mk_b f c 0 (b_susp s) (b_need s) (b_reof s))
    else if (t =? H_EOF)%N then
      if (n =? 0)%N then Ok (mk_b f [] 0 (b_susp s) (b_need s) true) else Err Erange
    else Err Erange
  end.
(** inherited_read, block_compressor.cpp:166-192; mem_block::read, mem_block.cpp:86-101 *)
Fixpoint b_read_loop (fuel n : nat) (got : list N) (s : bcomp) : res (list N * bcomp) :=
  match fuel with
  | O => Err Fuel
  | S k =>
    if (length got <? n) && negb (b_reof s) then
      let* s := (if b_rd s =? length (b_data s) then b_load s else Ok s) in
      let d := firstn (n - length got) (skipn (b_rd s) (b_data s)) in
      b_read_loop k n (got ++ d) (mk_b (b_file s) (b_data s) (b_rd s + length d) (b_susp s) (b_need s) (b_reof s))
    else Ok (got, s)
  end.
Definition b_read (n : nat) (s : bcomp) : res (list N * bcomp) :=
  if b_susp s then
    if b_reof s then Ok ([], s)
    else let '(d, f) := g_read n (b_file s) in Ok (d, mk_b f (b_data s) (b_rd s) (b_susp s) (b_need s) (b_reof s))
  else b_read_loop (S (S (n + length (fdata (b_file s))))) n [] s.
End Block.

(** ** a writing client: streams separated by sync_write, as for the files of an archive (filtre.cpp:3357-3359); the position
    is asked before each stream (filtre.cpp:3364: the data offset recorded in the catalogue) *)
Section Session.
Variable Z : zipper.
Variable B : nat.
Fixpoint b_writes (ws : list (list N)) (s : bcomp) : res bcomp :=
  match ws with [] => Ok s | a :: r => let* s := b_write Z B a s in b_writes r s end.
Fixpoint b_streams (l : list (list (list N))) (s : bcomp) : res (list nat * bcomp) :=
  match l with
  | [] => Ok ([], s)
  | ws :: r =>
    let* p := b_position false s in
    let* s := b_writes ws s in
    let* s := b_sync Z B false s in
    let* '(ps, s) := b_streams r s in
    Ok (p :: ps, s)
  end.
(** terminate, block_compressor.cpp:246-260 *)
Definition b_session (l : list (list (list N))) (f : gfile) : res (list nat * gfile) :=
  let* s := b_open B f in
  let* '(ps, s) := b_streams l s in
  let* s := b_sync Z B false s in
  Ok (ps, b_file s).
(** a reading client: skip, then reads *)
Fixpoint b_reads (ns : list nat) (s : bcomp) : res (list (list N) * bcomp) :=
  match ns with
  | [] => Ok ([], s)
  | n :: r => let* '(d, s) := b_read Z B n s in let* '(l, s) := b_reads r s in Ok (d :: l, s)
  end.
Definition b_fetch (f : gfile) (p : nat) (ns : list nat) : res (list (list N)) :=
  let* s := b_open B f in
  let* '(l, _) := b_reads ns (b_skip p s) in Ok l.
End Session.
