(** * Model of the slice header and of the archive header
    (src/libdar/label.cpp, tlv.cpp, tlv_list.cpp, slice_header.cpp, archive_version.cpp, header_flags.cpp,
    header_version.cpp, tools.cpp strings), non-lax mode.

    A generic_file read sequentially is the list of the bytes from the current position; [pos] is the position of
    its first byte when the code asks for it. *)
From Verif Require Import Base NumModel InfinintModel CrcModel SliceModel.
Open Scope N_scope.

(** number of bytes consumed by a reader *)
Definition consumed (f rest : list N) : N := N.of_nat (length f) - N.of_nat (length rest).

(** label.hpp:75, label::dump / label::read, label.cpp:112-121 *)
Definition LABEL_SIZE : nat := 10.
Definition label_read (f : list N) : res (list N * list N) :=
  if (length f <? LABEL_SIZE)%nat then Err Erange else Ok (firstn LABEL_SIZE f, skipn LABEL_SIZE f).
(** label::is_cleared, label.cpp:69-76 *)
Definition label_is_cleared (l : list N) : bool := forallb (fun b => b =? 0) l.
Definition label_zero : list N := repeat 0 LABEL_SIZE.

(** htonl / htons in a 4 / 2 bytes field *)
Definition be32 (n : N) : list N := [n / 16777216 mod 256; n / 65536 mod 256; n / 256 mod 256; n mod 256].
Definition be16 (n : N) : list N := [n / 256 mod 256; n mod 256].

(** tlv: a type and the bytes of the memory_file it derives from *)
Record tlv := mk_tlv { tlv_type : N; tlv_val : list N }.
(** tlv::dump, tlv.cpp:38-50 *)
Definition tlv_dump (t : tlv) : list N := be16 (tlv_type t) ++ dumpN (N.of_nat (length (tlv_val t))) ++ tlv_val t.
(** tlv::init, tlv.cpp:57-67. The two bytes of the type are read without checking how many came; when they are missing
    the next read meets the end of file and raises Erange, so that the uninitialised type is never used. *)
Definition tlv_read (f : list N) : res (tlv * list N) :=
  match f with
  | a :: b :: f =>
    let* '(len, f) := readN f in
    if N.of_nat (length f) <? len then Err Erange
    else Ok (mk_tlv (a * 256 + b) (firstn (N.to_nat len) f), skipn (N.to_nat len) f)
  | _ => Err Erange
  end.
(** tlv_list::dump, tlv_list.cpp:33-45 *)
Definition tlvs_dump (l : list tlv) : list N := dumpN (N.of_nat (length l)) ++ concat (map tlv_dump l).
(** tlv_list::init, tlv_list.cpp:59-71 *)
Fixpoint tlvs_loop (number : nat) (f : list N) : res (list tlv * list N) :=
  match number with
  | O => Ok ([], f)
  | S k => let* '(t, f) := tlv_read f in
           let* '(l, f) := tlvs_loop k f in Ok (t :: l, f)
  end.
(** [number] of a forged list can be huge; each tlv takes at least one byte, so the loop stops at the end of the file:
    the model runs it at most once more than there are bytes *)
Definition tlvs_read (f : list N) : res (list tlv * list N) :=
  let* '(number, f) := readN f in
  tlvs_loop (if N.of_nat (length f) <? number then S (length f) else N.to_nat number) f.

(** slice_header fields, slice_header.hpp:170-180; SAUV_MAGIC_NUMBER :45; flag_type :49-54 *)
Definition SAUV_MAGIC : N := 123.
Definition flag_terminal : N := 84.       (* 'T' *)
Definition flag_non_terminal : N := 78.   (* 'N' *)
Definition flag_at_end : N := 69.         (* 'E' *)
Record slice_header := mk_sh { sh_magic : N; sh_name : list N; sh_data : list N; sh_flag : N; sh_sly : layout }.
(** slice_header::min_size, slice_header.hpp:125 *)
Definition min_size : N := 16.
(** extension_type and tlv_type, slice_header.cpp:60-76 *)
Definition extension_none : N := 78.
Definition extension_size : N := 83.
Definition extension_tlv : N := 84.
Definition tlv_size_t : N := 1.
Definition tlv_first_size_t : N := 2.
Definition tlv_data_name_t : N := 3.
Definition tlv_header_size_t : N := 4.

(** slice_header::build_tlv_list, slice_header.cpp:413-457 *)
Definition build_tlv (h : slice_header) (with_hs : bool) : res (list tlv) :=
  let s := sh_sly h in
  if with_hs && ((other_slice_header s =? 0) || (first_slice_header s =? 0)) then Err Ebug
  else Ok ((if first_size s =? 0 then [] else [mk_tlv tlv_first_size_t (dumpN (first_size s))]) ++
           (if other_size s =? 0 then [] else [mk_tlv tlv_size_t (dumpN (other_size s))]) ++
           (if with_hs then [mk_tlv tlv_header_size_t (dumpN (first_slice_header s) ++ dumpN (other_slice_header s))]
            else []) ++
           [mk_tlv tlv_data_name_t (sh_data h)]).
(** the bytes of slice_header::write, slice_header.cpp:283-316 *)
Definition sh_bytes (h : slice_header) (as_first with_hs : bool) : res (list N) :=
  if with_hs && negb as_first then Err Ebug
  else
    let s := sh_sly h in
    let* ext :=
      if older_sar_than_v8 s
      then if negb (first_size s =? other_size s) && as_first
           then Ok (extension_size :: dumpN (other_size s)) else Ok [extension_none]
      else let* l := build_tlv h with_hs in Ok (extension_tlv :: tlvs_dump l) in
    Ok (be32 (sh_magic h) ++ sh_name h ++ [sh_flag h] ++ ext).
(** slice_header::write at position [pos]: the bytes, and the object with the sizes of the header it learnt
    (slice_header.cpp:318-344) *)
Definition sh_write (h : slice_header) (as_first with_hs : bool) (pos : N) : res (list N * slice_header) :=
  let* b := sh_bytes h as_first with_hs in
  let s := sh_sly h in
  if negb with_hs && (first_slice_header s =? 0) && (other_slice_header s =? 0)
  then
    let fh := pos + N.of_nat (length b) in
    if fh <? min_size then Err Ebug
    else
      let oh := if older_sar_than_v8 s then min_size else fh in
      if negb (first_size s =? 0) && (first_size s <=? fh) then Err Ebug
      else if negb (other_size s =? 0) && (other_size s <=? oh) then Err Ebug
      else Ok (b, mk_sh (sh_magic h) (sh_name h) (sh_data h) (sh_flag h)
                        (mk_layout (first_size s) (other_size s) fh oh (older_sar_than_v8 s)))
  else Ok (b, h).

(** slice_header::fill_from, slice_header.cpp:371-411. [pause] is the answer of the user to the question asked for each
    unknown entry (false: Euser_abort). State: layout and data name. *)
Fixpoint fill_from (pause : bool) (l : list tlv) (s : layout) (dn : list N) : res (layout * list N) :=
  match l with
  | [] => Ok (s, dn)
  | t :: l =>
    if tlv_type t =? tlv_first_size_t then
      let* '(v, _) := readN (tlv_val t) in
      fill_from pause l (mk_layout v (other_size s) (first_slice_header s) (other_slice_header s) (older_sar_than_v8 s)) dn
    else if tlv_type t =? tlv_size_t then
      let* '(v, _) := readN (tlv_val t) in
      fill_from pause l (mk_layout (first_size s) v (first_slice_header s) (other_slice_header s) (older_sar_than_v8 s)) dn
    else if tlv_type t =? tlv_data_name_t then
      let* '(d, _) := label_read (tlv_val t) in fill_from pause l s d
    else if tlv_type t =? tlv_header_size_t then
      let* '(fh, r) := readN (tlv_val t) in
      let* '(oh, _) := readN r in
      if fh =? 0 then Err Erange else if oh =? 0 then Err Erange
      else fill_from pause l (mk_layout (first_size s) (other_size s) fh oh (older_sar_than_v8 s)) dn
    else if pause then fill_from pause l s dn else Err Euser_abort
  end.

(** slice_header::read, slice_header.cpp:82-271, non lax. [fic]: the size of the file when the header is read from
    a fichier_global (a slice); [pos]: position of the first byte of [f]. *)
Definition sh_read (fic : option N) (pause : bool) (pos : N) (f0 : list N) : res (slice_header * list N) :=
  match f0 with
  | m3 :: m2 :: m1 :: m0 :: f =>
    let magic := m3 * 16777216 + m2 * 65536 + m1 * 256 + m0 in
    if negb (magic =? SAUV_MAGIC) then Err Erange
    else
      let* '(iname, f) := label_read f in
      match f with
      | flag :: ext :: f =>
        let* '(s, dn, f) :=
          if ext =? extension_none then
            match fic with
            | Some sz => if sz <=? min_size then Err Erange
                         else Ok (mk_layout sz sz min_size min_size true, label_zero, f)
            | None => Ok (mk_layout 0 0 min_size min_size true, label_zero, f)
            end
          else if ext =? extension_size then
            let* '(os, f) := readN f in
            if os <=? min_size then Err Erange
            else match fic with
                 | None => Err Erange
                 | Some sz =>
                   if sz <=? min_size then Err Erange
                   else let fh := pos + consumed f0 f in
                        if fh <? min_size then Err Erange
                        else Ok (mk_layout sz os fh min_size true, label_zero, f)
                 end
          else if ext =? extension_tlv then
            let* '(tl, f) := tlvs_read f in
            let* '(s, dn) := fill_from pause tl (mk_layout 0 0 0 0 false) label_zero in
            let* s :=
              if other_slice_header s =? 0 then
                let oh := pos + consumed f0 f in
                if oh <=? min_size then Err Erange
                else
                  let fh := if first_slice_header s =? 0 then oh else first_slice_header s in
                  if negb (fh =? oh) then Err Ebug
                  else
                    let os := match fic with
                              | Some sz => if other_size s =? 0 then sz else other_size s
                              | None => other_size s
                              end in
                    Ok (mk_layout (first_size s) os fh oh false)
              else Ok s in
            let fs := if first_size s =? 0 then other_size s else first_size s in
            let s := mk_layout fs (other_size s) (first_slice_header s) (other_slice_header s) false in
            if negb (first_size s =? 0) && (first_size s <=? first_slice_header s) then Err Erange
            else if negb (other_size s =? 0) && (other_size s <=? other_slice_header s) then Err Erange
            else Ok (s, dn, f)
          else Err Erange in
        Ok (mk_sh magic iname (if label_is_cleared dn then iname else dn) flag s, f)
      | _ => Err Erange
      end
  | _ => Err Erange
  end.

(** archive_version: version and fix, archive_version.hpp:75-76 *)
Record aver := mk_aver { av_version : N; av_fix : N }.
(** to_digit / to_char, archive_version.cpp:124-138, on unsigned char *)
Definition to_digit (v : N) : N := if v <? 48 then v + 208 else v - 48.
Definition to_char (v : N) : N := if v <? 208 then v + 48 else v - 208.
(** constructor, archive_version.cpp:46-55 *)
Definition EMPTY_VALUE : N := 48 * 256 + 48.
Definition av_make (x fix_ : N) : res aver := if EMPTY_VALUE <? x then Err Efeature else Ok (mk_aver x fix_).
(** dump, archive_version.cpp:57-76 *)
Definition av_dump (v : aver) : list N :=
  if 8 <=? av_version v
  then [to_char (av_version v / 256); to_char (av_version v mod 256); to_char (av_fix v); 0]
  else [to_char (av_version v / 256); to_char (av_version v mod 256); 0].
(** read, archive_version.cpp:79-108; [old] is the object before the call: its fix field is left as is below format 8 *)
Definition av_read (old : aver) (f : list N) : res (aver * list N) :=
  match f with
  | a :: b :: c :: f =>
    let v := to_digit a * 256 + to_digit b in
    if v <? 8 then if c =? 0 then Ok (mk_aver v (av_fix old), f) else Err Erange
    else match f with
         | [] => Err Erange
         | z :: f => if z =? 0 then Ok (mk_aver v (to_digit c), f) else Err Erange
         end
  | _ => Err Erange
  end.
(** value() and the comparisons, archive_version.hpp:64-69,78 *)
Definition av_value (v : aver) : N := av_version v * 256 + av_fix v.
Definition av_ge (v : aver) (x : N) : bool := x * 256 <=? av_value v.
Definition av_gt (v : aver) (x : N) : bool := x * 256 <? av_value v.

(** header_flags::read, header_flags.cpp:61-79, U_I of 64 bits *)
Fixpoint flags_read (bits : N) (f : list N) : res (N * list N) :=
  match f with
  | [] => Err Erange
  | a :: f =>
    if (bits * 256 mod 2^64) / 256 =? bits then
      let bits := N.lor (bits * 256 mod 2^64) (N.land a 254) in
      if N.testbit a 0 then flags_read bits f else Ok (bits, f)
    else Err Erange
  end.
(** header_flags::dump, header_flags.cpp:81-104. The first loop; "0x01 << bit_size" is an int shift: undefined from 31
    bits on, and so is the shift of a 64 bits integer by 64 bits *)
Fixpoint flags_width (fuel : nat) (bitfield : N) (bit_size : N) : res (N * N) :=
  match fuel with
  | O => Err Fuel
  | S k =>
    if N.shiftr bitfield bit_size =? 0 then Ok (bitfield, bit_size)
    else if 31 <=? bit_size then Err UB
    else flags_width k (N.lor bitfield (N.shiftl 1 bit_size)) (bit_size + 8)
  end.
Fixpoint flags_out (k : nat) (bitfield : N) : list N :=
  match k with
  | O => []
  | S k => N.land (N.shiftr bitfield (8 * N.of_nat k)) 255 :: flags_out k bitfield
  end.
Definition flags_dump (bits : N) : res (list N) :=
  let* '(bf, bs) := flags_width 9 bits 8 in Ok (flags_out (N.to_nat (bs / 8)) bf).
(** header_flags::is_set, header_flags.cpp:54-59 (the arguments used have no reserved bit) *)
Definition flag_is_set (bits x : N) : bool := N.land bits x =? x.

(** tools_write_string / tools_read_string, tools.cpp:188-211 *)
Definition write_string (s : list N) : list N := s ++ [0].
Fixpoint read_string (f : list N) : res (list N * list N) :=
  match f with
  | [] => Err Erange
  | a :: f => if a =? 0 then Ok ([], f) else let* '(s, f) := read_string f in Ok (a :: s, f)
  end.
(** tools_read_string_size, tools.cpp:218-240: one turn of the loop on (small_read, taille, bytes read so far, file);
    unstack tops [small_read] up to 65535 *)
Definition rss_state : Type := N * N * list N * list N.
Definition rss_turn (st : rss_state) : rss_state :=
  let '(small, taille, s, f) := st in
  let '(small, s, f) :=
    if 0 <? small then
      let max_read := if 10240 <? small then 10240 else small in
      let lu := firstn (N.to_nat max_read) f in
      (small - N.of_nat (length lu), s ++ lu, skipn (N.to_nat max_read) f)
    else (small, s, f) in
  let d := N.min (65535 - small) taille in
  (small + d, taille - d, s, f).
Fixpoint rss_loop (fuel : nat) (st : rss_state) : res (list N * list N) :=
  match fuel with
  | O => Err Fuel
  | S k =>
    let st := rss_turn st in
    let '(small, _, s, f) := st in
    if 0 <? small then rss_loop k st else Ok (s, f)
  end.
Definition read_string_size (fuel : nat) (taille : N) (f : list N) : res (list N * list N) :=
  rss_loop fuel (0, taille, [], f).

(** compression letters, compression.cpp:40-105 (per_block = false at header_version.cpp:719) *)
Inductive compression := Cnone | Cgzip | Cbzip2 | Clzo | Cxz | Clzo15 | Clzo1 | Czstd | Clz4.
Definition comp_char (c : compression) : N :=
  match c with Cnone => 110 | Cgzip => 122 | Cbzip2 => 121 | Clzo => 108 | Cxz => 120 | Clzo15 => 106 | Clzo1 => 107
             | Czstd => 100 | Clz4 => 113 end.
Definition char_comp (a : N) : res compression :=
  if a =? 110 then Ok Cnone
  else if (a =? 122) || (a =? 90) then Ok Cgzip
  else if (a =? 121) || (a =? 89) then Ok Cbzip2
  else if (a =? 106) || (a =? 74) then Ok Clzo15
  else if (a =? 107) || (a =? 75) then Ok Clzo1
  else if (a =? 108) || (a =? 76) then Ok Clzo
  else if (a =? 120) || (a =? 88) then Ok Cxz
  else if (a =? 100) || (a =? 68) then Ok Czstd
  else if (a =? 113) || (a =? 81) then Ok Clz4
  else Err Erange.
(** crypto letters, crypto.cpp:84-128 *)
Inductive crypto := Knone | Kscram | Kblowfish | Kaes | Ktwofish | Kserpent | Kcamellia.
Definition crypto_char (c : crypto) : N :=
  match c with Knone => 110 | Kscram => 115 | Kblowfish => 98 | Kaes => 97 | Ktwofish => 116 | Kserpent => 112
             | Kcamellia => 99 end.
Definition char_crypto (a : N) : res crypto :=
  if a =? 110 then Ok Knone else if a =? 115 then Ok Kscram else if a =? 98 then Ok Kblowfish
  else if a =? 97 then Ok Kaes else if a =? 116 then Ok Ktwofish else if a =? 112 then Ok Kserpent
  else if a =? 99 then Ok Kcamellia else Err Erange.
Definition is_knone (c : crypto) : bool := match c with Knone => true | _ => false end.
(** hash letters, archive_aux.cpp:147-195 *)
Inductive hash := Hnone | Hmd5 | Hsha1 | Hsha512 | Hargon2 | Hwhirl | Hsha3 | Hblake.
Definition hash_char (h : hash) : N :=
  match h with Hnone => 110 | Hmd5 => 109 | Hsha1 => 49 | Hsha512 => 53 | Hargon2 => 97 | Hwhirl => 119 | Hsha3 => 51
             | Hblake => 98 end.
Definition char_hash (a : N) : res hash :=
  if a =? 49 then Ok Hsha1 else if a =? 51 then Ok Hsha3 else if a =? 53 then Ok Hsha512
  else if a =? 109 then Ok Hmd5 else if a =? 110 then Ok Hnone else if a =? 97 then Ok Hargon2
  else if a =? 119 then Ok Hwhirl else if a =? 98 then Ok Hblake else Err Erange.
Definition is_hnone (h : hash) : bool := match h with Hnone => true | _ => false end.

(** header_version fields, header_version.hpp:137-162 *)
Inductive hver := mk_hv {
  hv_edition : aver; hv_zip : compression; hv_cmd : list N; hv_ioff : N; hv_sym : crypto;
  hv_key : option (list N); hv_rhead : option slice_header; hv_rver : option hver; hv_rterm : N;
  hv_only_layout : bool; hv_marks : bool; hv_ciphered : bool; hv_signed : bool;
  hv_has_kdf : bool; hv_salt : list N; hv_iter : N; hv_hash : hash; hv_bs : N }.

(** flag values, header_version.cpp:47-68 *)
Definition FLAG_SCRAMBLED : N := 0x20.
Definition FLAG_SEQUENCE_MARK : N := 0x10.
Definition FLAG_INITIAL_OFFSET : N := 0x08.
Definition FLAG_HAS_CRYPTED_KEY : N := 0x04.
Definition FLAG_HAS_REF_SLICING : N := 0x02.
Definition FLAG_HAS_REF_HEADER : N := 0x8000.
Definition FLAG_HAS_REF_VERSION : N := 0x4000.
Definition FLAG_HAS_COMPRESS_BS : N := 0x0800.
Definition FLAG_HAS_KDF_PARAM : N := 0x0400.
Definition FLAG_ARCHIVE_IS_SIGNED : N := 0x0200.
(** all_flags_known, header_version.cpp:805-826 *)
Definition KNOWN_FLAGS : N := 0xCEFE.
Definition all_flags_known (bits : N) : bool := N.ldiff bits KNOWN_FLAGS =? 0.

Definition PRE_FORMAT_10_ITERATION : N := 2000.
Definition HEADER_CRC_SIZE : nat := 2.

Definition set_if (b : bool) (x bits : N) : N := if b then N.lor bits x else bits.
(** the flag built by inner_write, header_version.cpp:671-707 *)
Definition hv_flags (h : hver) : N :=
  set_if (0 <? hv_bs h) FLAG_HAS_COMPRESS_BS
  (set_if (0 <? N.of_nat (length (hv_salt h))) FLAG_HAS_KDF_PARAM
  (set_if (hv_signed h) FLAG_ARCHIVE_IS_SIGNED
  (set_if (negb (is_knone (hv_sym h))) FLAG_SCRAMBLED
  (set_if (hv_marks h) FLAG_SEQUENCE_MARK
  (set_if (match hv_rver h with Some _ => true | None => false end) FLAG_HAS_REF_VERSION
  (set_if (match hv_rhead h with Some _ => true | None => false end) FLAG_HAS_REF_HEADER
  (set_if (match hv_key h with Some _ => true | None => false end) FLAG_HAS_CRYPTED_KEY
  (set_if (negb (hv_ioff h =? 0)) FLAG_INITIAL_OFFSET 0)))))))).

(** the bytes of inner_write before the CRC, header_version.cpp:711-783 *)
Fixpoint hv_body (h : hver) : res (list N) :=
  let bits := hv_flags h in
  if negb (all_flags_known bits) then Err Ebug
  else
    let* fl := flags_dump bits in
    let* rh := match hv_rhead h with
               | None => Ok []
               | Some s => if hv_only_layout h then Err Ebug else sh_bytes s true true
               end in
    let* rv := match hv_rver h with
               | None => Ok []
               | Some v => match hv_rver v with
                           | Some _ => Err Ebug
                           | None => let* b := hv_body v in Ok (b ++ dumpN (hv_rterm h))
                           end
               end in
    Ok (av_dump (hv_edition h) ++ [comp_char (hv_zip h)] ++ write_string (hv_cmd h) ++ fl ++
        (if hv_ioff h =? 0 then [] else dumpN (hv_ioff h)) ++
        (if is_knone (hv_sym h) then [] else [crypto_char (hv_sym h)]) ++
        (match hv_key h with None => [] | Some k => dumpN (N.of_nat (length k)) ++ k end) ++
        rh ++ rv ++
        (match hv_salt h with [] => [] | _ :: _ =>
           dumpN (N.of_nat (length (hv_salt h))) ++ hv_salt h ++ dumpN (hv_iter h) ++ [hash_char (hv_hash h)] end) ++
        (if 0 <? hv_bs h then dumpN (hv_bs h) else [])).
(** the CRC of a sequence of bytes read or written under reset_crc(2)/get_crc(), generic_file.cpp:392-419 (the way the
    bytes are cut in calls does not matter: C07) *)
Definition crc_of (b : list N) : res crc :=
  let* c := crc_create HEADER_CRC_SIZE in crc_compute 0 b c.
(** header_version::write, header_version.hpp:58, header_version.cpp:664-803 *)
Definition hv_write (h : hver) : res (list N) :=
  let* b := hv_body h in
  let* c := crc_of b in
  Ok (b ++ crc_dump c).

(** header_version::clear, header_version.cpp:148-168 *)
Definition hv_clear : hver :=
  mk_hv (mk_aver 0 0) Cnone [] 0 Knone None None None 0 false false false false false [] PRE_FORMAT_10_ITERATION Hsha1 0.

(** header_version::inner_read up to get_crc(), header_version.cpp:271-590, into a freshly constructed object (fuel: one per
    level of nested header). Returns the object, the flag field and the rest of the file. [pos]: position of [f]. *)
Fixpoint hv_inner (fuel : nat) (pause : bool) (pos : N) (f0 : list N) : res (hver * N * list N) :=
  match fuel with
  | O => Err Fuel
  | S fuel =>
    let* '(ed, f) := av_read (mk_aver 0 0) f0 in
    match f with
    | [] => Err Erange
    | z :: f =>
      let* zip := char_comp z in
      let* '(cmd, f) := read_string f in
      let* '(bits, f) := if av_gt ed 1 then flags_read 0 f else Ok (0, f) in
      let* '(ioff, f) := if flag_is_set bits FLAG_INITIAL_OFFSET then readN f else Ok (0, f) in
      let* '(ciph, sym, f) :=
        if flag_is_set bits FLAG_SCRAMBLED then
          if av_ge ed 9 then
            match f with
            | [] => Err Erange
            | a :: f => let* s := char_crypto a in Ok (true, s, f)
            end
          else Ok (true, Knone, f)
        else Ok (false, Knone, f) in
      let marks := flag_is_set bits FLAG_SEQUENCE_MARK in
      if negb (av_ge ed 8) && marks then Err Erange
      else
        let* '(key, f) :=
          if flag_is_set bits FLAG_HAS_CRYPTED_KEY then
            let* '(n, f) := readN f in
            if N.of_nat (length f) <? n then Err Erange
            else Ok (Some (firstn (N.to_nat n) f), skipn (N.to_nat n) f)
          else Ok (None, f) in
        let* '(rh, only, f) :=
          if flag_is_set bits FLAG_HAS_REF_SLICING || flag_is_set bits FLAG_HAS_REF_HEADER then
            if flag_is_set bits FLAG_HAS_REF_HEADER && flag_is_set bits FLAG_HAS_REF_SLICING then Err Erange
            else if flag_is_set bits FLAG_HAS_REF_SLICING then
              let* '(l, f) := layout_read f in
              Ok (Some (mk_sh 0 label_zero label_zero 0 l), true, f)
            else
              let* '(s, f) := sh_read None pause (pos + consumed f0 f) f in
              Ok (Some s, false, f)
          else Ok (None, false, f) in
        let* '(rv, rterm, f) :=
          if flag_is_set bits FLAG_HAS_REF_VERSION then
            let* '(v, _, f') := hv_inner fuel pause (pos + consumed f0 f) f in
            (* the nested object too replaces a null initial offset by the position, header_version.cpp:648-649 *)
            let v := if hv_ioff v =? 0
                     then mk_hv (hv_edition v) (hv_zip v) (hv_cmd v) (pos + consumed f0 f') (hv_sym v) (hv_key v)
                                (hv_rhead v) (hv_rver v) (hv_rterm v) (hv_only_layout v) (hv_marks v) (hv_ciphered v)
                                (hv_signed v) (hv_has_kdf v) (hv_salt v) (hv_iter v) (hv_hash v) (hv_bs v)
                     else v in
            (* nested edition equal to empty_archive_version(), header_version.cpp:594-600 *)
            if av_value (hv_edition v) =? EMPTY_VALUE * 256 then Err Erange
            else
              let* '(t, f) := readN f' in
              match hv_rver v with
              | Some _ => Err Erange
              | None => Ok (Some v, t, f)
              end
          else Ok (None, 0, f) in
        let sgn := flag_is_set bits FLAG_ARCHIVE_IS_SIGNED in
        let* '(kdf, salt, iter, hash, f) :=
          if flag_is_set bits FLAG_HAS_KDF_PARAM then
            let* '(n, f) := readN f in
            let* '(salt, f) := read_string_size (S (S (length f))) n f in
            let* '(iter, f) := readN f in
            match f with
            | [] => Err UB
            | a :: f => let* h := char_hash a in
                        if is_hnone h then Err Erange else Ok (true, salt, iter, h, f)
            end
          else Ok (false, [], PRE_FORMAT_10_ITERATION, Hsha1, f) in
        let* '(bs, f) := if flag_is_set bits FLAG_HAS_COMPRESS_BS then readN f else Ok (0, f) in
        Ok (mk_hv ed zip cmd ioff sym key rh rv rterm only marks ciph sgn kdf salt iter hash bs, bits, f)
    end
  end.

(** header_version::read, header_version.hpp:55, the end of inner_read header_version.cpp:592-662. When the reading of the stored
    CRC itself fails and an unknown flag is set, the position where the caller goes on is taken to be the end of file. *)
Definition hv_read (pause : bool) (pos : N) (f0 : list N) : res (hver * list N) :=
  let* '(h, bits, f) := hv_inner (S (length f0)) pause pos f0 in
  let body := firstn (length f0 - length f) f0 in
  let* ctrl := crc_of body in
  if av_value (hv_edition h) =? EMPTY_VALUE * 256 then Err Erange
  else
    let* f :=
      if av_gt (hv_edition h) 7 then
        match (let* '(coh, f) := crc_read f false in
               if INFININT_MODE_START <=? N.of_nat (crc_size coh) then Err Ebug
               else if crc_eq coh ctrl then Ok f else Err Erange) with
        | Ok f => Ok f
        | Err e => if negb (all_flags_known bits)
                   then match crc_read f false with Ok (_, f) => Ok f | Err _ => Ok [] end
                   else Err e
        end
      else Ok f in
    let h := if hv_ioff h =? 0
             then mk_hv (hv_edition h) (hv_zip h) (hv_cmd h) (pos + consumed f0 f) (hv_sym h) (hv_key h)
                        (hv_rhead h) (hv_rver h) (hv_rterm h) (hv_only_layout h) (hv_marks h) (hv_ciphered h)
                        (hv_signed h) (hv_has_kdf h) (hv_salt h) (hv_iter h) (hv_hash h) (hv_bs h)
             else h in
    Ok (h, f).

(** header_version::copy_from, header_version.cpp:170-214 *)
Fixpoint hv_copy (h : hver) : hver :=
  let rterm := match hv_rhead h with Some _ => hv_rterm h | None => 0 end in
  mk_hv (hv_edition h) (hv_zip h) (hv_cmd h) (hv_ioff h) (hv_sym h) (hv_key h) (hv_rhead h)
        (match hv_rver h with Some v => Some (hv_copy v) | None => None end) rterm
        (hv_only_layout h) (hv_marks h) (hv_ciphered h) (hv_signed h) (hv_has_kdf h) (hv_salt h) (hv_iter h)
        (hv_hash h) (hv_bs h).
