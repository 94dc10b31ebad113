(** * HashModel: writing a slice on disk with its hash file

    Models src/libdar/fichier_local.cpp:325-381 (one write request on top of write(2)),
    src/libdar/fichier_global.cpp:88-109 (asking the user when the disk is full),
    src/libdar/generic_file.cpp:86-99 and 148-156 (terminate, write), the class hash_fichier
    (src/libdar/hash_fichier.cpp:33-325), the hexadecimal printing of
    src/libdar/tools.cpp:2042-2088 with src/libdar/tools.hpp:584-598, the way
    entrepot::open (src/libdar/entrepot.cpp:83-190) creates both files and
    sar::open_writeonly (src/libdar/sar.cpp:1112-1316) decides about a file already there.

    Simplifications: the kernel is a list of what its successive calls answer, an exhausted
    list meaning that all goes well from there on; libgcrypt is a function of the bytes fed
    to it (gcry_md_write accumulates, gcry_md_read yields the digest), given as a parameter;
    fadvise, ownership and permissions, the debugging mode only_hash (hash_fichier.hpp:104)
    and the tuyau_global wrapper are not modelled. *)
From Coq Require Import List.
From Verif Require Import Base.
Local Open Scope nat_scope.

(** What one write(2) answers (fichier_local.cpp:351-370): an amount of bytes, or -1 with
    errno EINTR, ENOSPC, EIO or anything else. *)
Inductive sysret := Wrote (n : nat) | Eintr | Enospc | Eio | Eother.

(** What a call may throw: Euser_abort, Ethread_cancel, Ehardware, Erange, SRC_BUG;
    [Wfuel] is the artefact of bounded recursion, proved never to occur. *)
Inductive werr := Wabort | Wcancel | Whard | Wrange | Wbug | Wfuel.

(** The outside world: results of the next write(2) calls, answers to the next
    user_interaction::pause, and whether the next check_self_cancellation throws. *)
Record env := { calls : list sysret; answers : list bool; cancels : list bool }.

(** A file opened for writing: what the disk holds, fichier_global::disk_full
    (fichier_global.hpp:133) and generic_file::terminated. *)
Record fl := { content : list byte; full : bool; closed : bool }.

(** fichier_local.cpp:346-371, the loop around write(2).  Returns what is left of the
    environment, the bytes that reached the disk, and the exception if any; ENOSPC ends the
    loop without exception. *)
Fixpoint wloop (step : nat) (cs : list sysret) (data : list byte) : list sysret * list byte * option werr :=
  match data with
  | [] => (cs, [], None)
  | _ =>
    match cs with
    | [] => ([], data, None)
    | Wrote n :: r =>
        let k := Nat.min n (Nat.min step (length data)) in
        let '(cs', w, e) := wloop step r (skipn k data) in
        (cs', firstn k data ++ w, e)
    | Eintr :: r => wloop step r data
    | Enospc :: r => (r, [], None)
    | Eio :: r => (r, [], Some Whard)
    | Eother :: r => (r, [], Some Wrange)
    end
  end.

(** fichier_local::fichier_global_inherited_write, fichier_local.cpp:325-381:
    check_self_cancellation first, then the loop; the amount written is returned. *)
Definition local_write (step : nat) (e : env) (f : fl) (data : list byte) : env * fl * (nat + werr) :=
  let e1 := {| calls := calls e; answers := answers e; cancels := tl (cancels e) |} in
  if hd false (cancels e) then (e1, f, inr Wcancel)
  else
    let '(cs, w, x) := wloop step (calls e1) data in
    ({| calls := cs; answers := answers e1; cancels := cancels e1 |},
     {| content := content f ++ w; full := full f; closed := closed f |},
     match x with None => inl (length w) | Some y => inr y end).

(** fichier_global::inherited_write, fichier_global.cpp:88-109. *)
Fixpoint gloop (fuel : nat) (step : nat) (e : env) (f : fl) (data : list byte) : env * fl * option werr :=
  match fuel with
  | O => (e, f, Some Wfuel)
  | S fuel' =>
    match data with
    | [] => (e, f, None)
    | _ =>
      if full f then (e, f, None)
      else
        match local_write step e f data with
        | (e1, f1, inr x) => (e1, f1, Some x)
        | (e1, f1, inl n) =>
          if n <? length data then
            let e2 := {| calls := calls e1; answers := tl (answers e1); cancels := cancels e1 |} in
            if hd true (answers e1) then gloop fuel' step e2 f1 (skipn n data)
            else (e2, {| content := content f1; full := true; closed := closed f1 |}, Some Wabort)
          else (e1, f1, None)
        end
    end
  end.

(** generic_file::write, generic_file.cpp:148-156, on a file opened in a writing mode. *)
Definition file_write (step : nat) (e : env) (f : fl) (data : list byte) : env * fl * option werr :=
  if closed f then (e, f, Some Wbug)
  else gloop (S (length (calls e))) step e f data.

(** generic_file::terminate, generic_file.cpp:86-99, on a fichier_local
    (inherited_terminate only calls fadvise, fichier_local.hpp:120). *)
Definition file_terminate (f : fl) : fl := {| content := content f; full := full f; closed := true |}.

(** ** Hexadecimal, tools.cpp:2042-2088 and tools.hpp:584-598 *)

(** tools_number_base_decomposition_in_big_endian(number, 16): digits, least significant
    first.  [fuel] bounds the divisions; an unsigned char needs two at most. *)
Fixpoint decomposition (fuel : nat) (number : N) : list N :=
  match fuel with
  | O => []
  | S fuel' => if (number =? 0)%N then [] else (number mod 16)%N :: decomposition fuel' (number / 16)%N
  end.

(** tools.cpp:2063-2070: 'a' + (t - 10) above 9, '0' + t otherwise. *)
Definition digit_char (t : N) : byte := if (9 <? t)%N then (97 + (t - 10))%N else (48 + t)%N.

(** tools_unsigned_char_to_hexa, tools.cpp:2042-2074.  More than two digits is SRC_BUG,
    which an unsigned char cannot reach: not represented. *)
Definition char_to_hexa (x : byte) : list byte :=
  let digit := decomposition 8 x in
  (match length digit with O => [48; 48]%N | 1 => [48]%N | _ => [] end) ++ map digit_char (rev digit).

(** tools_string_to_hexa, tools.cpp:2076-2088. *)
Fixpoint string_to_hexa (s : list byte) : list byte :=
  match s with [] => [] | c :: r => char_to_hexa c ++ string_to_hexa r end.

(** ** hash_fichier *)

(** The fields of hash_fichier.hpp:120-132: [slice] is ref, [hfile] is hash_ref,
    [digested] what gcry_md_write received so far, [name] is ref_filename. *)
Record hf := {
  slice : fl; hfile : fl; digested : list byte;
  aborting : bool; dumped : bool; at_eof : bool; hclosed : bool;
  outer_full : bool; name : list byte }.

Definition set_slice (h : hf) (s : fl) : hf :=
  {| slice := s; hfile := hfile h; digested := digested h; aborting := aborting h; dumped := dumped h;
     at_eof := at_eof h; hclosed := hclosed h; outer_full := outer_full h; name := name h |}.
Definition set_hfile (h : hf) (s : fl) : hf :=
  {| slice := slice h; hfile := s; digested := digested h; aborting := aborting h; dumped := dumped h;
     at_eof := at_eof h; hclosed := hclosed h; outer_full := outer_full h; name := name h |}.
Definition set_digested (h : hf) (d : list byte) : hf :=
  {| slice := slice h; hfile := hfile h; digested := d; aborting := aborting h; dumped := dumped h;
     at_eof := at_eof h; hclosed := hclosed h; outer_full := outer_full h; name := name h |}.
Definition set_aborting (h : hf) : hf :=
  {| slice := slice h; hfile := hfile h; digested := digested h; aborting := true; dumped := dumped h;
     at_eof := at_eof h; hclosed := hclosed h; outer_full := outer_full h; name := name h |}.
Definition set_dumped (h : hf) : hf :=
  {| slice := slice h; hfile := hfile h; digested := digested h; aborting := aborting h; dumped := true;
     at_eof := true; hclosed := hclosed h; outer_full := outer_full h; name := name h |}.
Definition set_hclosed (h : hf) : hf :=
  {| slice := slice h; hfile := hfile h; digested := digested h; aborting := aborting h; dumped := dumped h;
     at_eof := at_eof h; hclosed := true; outer_full := outer_full h; name := name h |}.

(** The constructor, hash_fichier.cpp:33-95, over the two files just opened. *)
Definition new_hash (s h : fl) (nm : list byte) : hf :=
  {| slice := s; hfile := h; digested := []; aborting := false; dumped := false; at_eof := false;
     hclosed := false; outer_full := false; name := nm |}.

(** hash_fichier::fichier_global_inherited_write, hash_fichier.cpp:132-174: the data is
    digested first, then written; Euser_abort is noted on its way. *)
Definition hash_inherited_write (step : nat) (e : env) (h : hf) (data : list byte) : env * hf * option werr :=
  if at_eof h then (e, h, Some Wbug)
  else
    let h1 := set_digested h (digested h ++ data) in
    match file_write step e (slice h1) data with
    | (e1, s1, x) =>
        let h2 := set_slice h1 s1 in
        (e1, match x with Some Wabort => set_aborting h2 | _ => h2 end, x)
    end.

(** generic_file::write then fichier_global::inherited_write on the hash_fichier itself:
    hash_fichier returns [size], so that the loop runs at most once. *)
Definition hash_write (step : nat) (e : env) (h : hf) (data : list byte) : env * hf * option werr :=
  if hclosed h then (e, h, Some Wbug)
  else match data with
       | [] => (e, h, None)
       | _ => if outer_full h then (e, h, None) else hash_inherited_write step e h data
       end.

(** Several writes in a row on one file, stopping at the first exception. *)
Fixpoint writes (step : nat) (e : env) (f : fl) (l : list (list byte)) : env * fl * option werr :=
  match l with
  | [] => (e, f, None)
  | d :: r =>
    match file_write step e f d with
    | (e1, f1, None) => writes step e1 f1 r
    | (e1, f1, Some x) => (e1, f1, Some x)
    end
  end.

(** hash_fichier::write_hash_in_hexa, hash_fichier.cpp:306-325: the four writes and the
    terminate(); every exception becomes an Erange. *)
Definition write_hash_in_hexa (step : nat) (e : env) (h : hf) (digest : list byte) : env * hf * option werr :=
  match writes step e (hfile h) [string_to_hexa digest; [32; 32]%N; name h; [10]%N] with
  | (e1, f1, None) => (e1, set_hfile h (file_terminate f1), None)
  | (e1, f1, Some _) => (e1, set_hfile h f1, Some Wrange)
  end.

Section WithDigest.
(** What libgcrypt computes from the bytes it was given. *)
Variable digest : list byte -> list byte.

(** generic_file::terminate over hash_fichier::inherited_terminate, hash_fichier.cpp:214-304.
    The object is terminated whatever happens. *)
Definition hash_terminate (step : nat) (e : env) (h : hf) : env * hf * option werr :=
  if hclosed h then (e, h, None)
  else
    let h1 := set_slice h (file_terminate (slice h)) in
    if dumped h1 then (e, set_hclosed h1, None)
    else
      let h2 := set_dumped h1 in
      if aborting h2 then (e, set_hclosed h2, None)
      else
        match write_hash_in_hexa step e h2 (digest (digested h2)) with
        | (e1, h3, x) => (e1, set_hclosed h3, x)
        end.

(** hash_fichier::skip, hash_fichier.cpp:121-130, over fichier_local::get_position. *)
Definition hash_skip (h : hf) (pos : nat) : option werr :=
  if aborting h then None
  else if closed (slice h) then Some Wbug
  else if pos =? length (content (slice h)) then None else Some Wbug.

(** What the layer above (sar) asks to a slice. *)
Inductive op := Write (d : list byte) | Skip (pos : nat) | Term.

Definition step_op (step : nat) (e : env) (h : hf) (o : op) : env * hf * option werr :=
  match o with
  | Write d => hash_write step e h d
  | Skip pos => (e, h, hash_skip h pos)
  | Term => hash_terminate step e h
  end.

(** A whole history of requests, with what each of them answered. *)
Fixpoint run (step : nat) (e : env) (h : hf) (ops : list op) : env * hf * list (op * option werr) :=
  match ops with
  | [] => (e, h, [])
  | o :: r =>
    match step_op step e h o with
    | (e1, h1, x) =>
      match run step e1 h1 r with
      | (e2, h2, t) => (e2, h2, (o, x) :: t)
      end
    end
  end.

(** hash_fichier::~hash_fichier, hash_fichier.cpp:97-119: terminate(), exceptions ignored. *)
Definition hash_destroy (step : nat) (e : env) (h : hf) : env * hf :=
  match hash_terminate step e h with (e1, h1, _) => (e1, h1) end.

End WithDigest.

(** ** Opening *)

(** One path on the disk: nothing, or a file and what it holds. *)
Definition node := option (list byte).

(** Errors of opening: Esystem with its code, Erange, Ebug, or the user refusing. *)
Inductive oerr := Oexist | Oabsent | Oaccess | Orange | Obug | Oabort.

(** fichier_local::open (fichier_local.cpp:383-470) in a writing mode: O_CREAT, O_EXCL when
    [fail_if_exists], O_TRUNC when [erase].  [err] is an error of another kind reported by
    the system, if any (EACCES and EROFS on one side, the others on the other). *)
Definition open_write (n : node) (fail_if_exists erase : bool) (err : option oerr) : node * option oerr :=
  match err with
  | Some x => (n, Some x)
  | None =>
    match n with
    | Some c => if fail_if_exists then (n, Some Oexist) else (Some (if erase then [] else c), None)
    | None => (Some [], None)
    end
  end.

(** The two paths an archive slice uses: the slice and its hash file. *)
Record disk := { p_slice : node; p_hash : node }.

(** entrepot::open with a hash algorithm or none (entrepot.cpp:83-190): the slice first,
    the hash file then; a failure of the second deletes the object, not the file. *)
Definition entrepot_open (hash : bool) (d : disk) (fail_if_exists erase : bool) (err1 err2 : option oerr)
  : disk * option oerr :=
  if hash && (negb erase && negb fail_if_exists) then (d, Some Obug)
  else
    match open_write (p_slice d) fail_if_exists erase err1 with
    | (s, Some x) => ({| p_slice := s; p_hash := p_hash d |}, Some x)
    | (s, None) =>
      if hash then
        match open_write (p_hash d) fail_if_exists erase err2 with
        | (h, x) => ({| p_slice := s; p_hash := h |}, x)
        end
      else ({| p_slice := s; p_hash := p_hash d |}, None)
    end.

(** What the system answers to the successive open(2) of one slice: first try (slice and
    hash file), reading back, second try (slice and hash file). *)
Record oenv := { o_new : option oerr; o_newh : option oerr; o_read : option oerr; o_over : option oerr; o_overh : option oerr;
                 o_answer : bool (** answer to the pause of sar.cpp:1229 *) }.

(** sar::open_writeonly, sar.cpp:1112-1284 (up to the writing of the slice header).
    [own c] is whether slice_header::read on a file holding [c] yields the internal name of
    the archive under construction (1160-1178).  Erange of the first try is handled as
    io_exist (1132-1136); io_absent when reading back is SRC_BUG (1203) and goes through
    (1210), the other errors of reading back lead to overwriting (1214). *)
Definition open_writeonly (own : list byte -> bool) (hash allow warn : bool) (d : disk) (o : oenv) : disk * option oerr :=
  match entrepot_open hash d true false (o_new o) (o_newh o) with
  | (d1, None) => (d1, None)
  | (d1, Some x) =>
    match x with
    | Oexist | Orange =>
      let over :=
        if allow then
          if warn && negb (o_answer o) then (d1, Some Oabort)
          else match entrepot_open hash d1 false true (o_over o) (o_overh o) with
               | (d2, Some Oexist) => (d2, Some Obug)
               | (d2, Some Oabsent) => (d2, Some Obug)
               | (d2, y) => (d2, y)
               end
        else (d1, Some Orange) in
      match o_read o with
      | Some Oexist | Some Oabsent | Some Obug => (d1, Some Obug)
      | Some _ => over
      | None =>
        match p_slice d1 with
        | None => (d1, Some Obug)
        | Some c =>
          if own c then
            if hash then (d1, Some Obug) else
              match entrepot_open hash d1 false false (o_over o) (o_overh o) with
              | (d2, Some Oexist) => (d2, Some Obug)
              | (d2, Some Oabsent) => (d2, Some Obug)
              | (d2, y) => (d2, y)
              end
          else over
        end
      end
    | Oabsent => (d1, Some Obug)
    | _ => (d1, Some x)
    end
  end.
