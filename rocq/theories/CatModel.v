(** * Model of the catalogue written at the end of an archive and of the entries inlined for sequential reading.

    src/libdar/cat_entree.cpp, cat_signature.cpp, cat_nomme.cpp, cat_inode.cpp, cat_file.cpp, cat_delta_signature.cpp,
    cat_lien.cpp, cat_device.cpp, cat_directory.cpp, cat_mirage.cpp, cat_etoile.hpp, cat_detruit.cpp, cat_ignored*.cpp,
    catalogue.cpp: the inherited_dump() methods and the constructors from a pile_descriptor.

    Simplifications: reading_ver is the version this code writes (12.0, archive_aux.cpp:56), the branches for older
    formats are left out; lax and only_detruit are false; integers are N (C03); the layer written to and read from
    is a sequence of bytes; statistics are left out. Where the code ignores the result of a one-byte read, reaching
    the end of file there is the outcome [UB] (the variable is then uninitialised). A shared inode (cat_etoile) is designated
    by an address; a hard link (cat_mirage) holds that address. *)
From Verif Require Import Base InfinintModel CrcModel DatetimeModel HeaderModel PathModel.
Open Scope N_scope.

(** ** one-byte signature, cat_signature.cpp *)
Inductive sstatus := Ssaved | Sinode_only | Sfake | Snot_saved | Sdelta.
(** cat_signature(unsigned char, saved_status), cat_signature.cpp:38-69: SRC_BUG on a letter that is not lowercase *)
Definition is_lower (c : N) : bool := (97 <=? c) && (c <=? 122).
Definition sig_byte (letter : N) (st : sstatus) : res N :=
  if negb (is_lower letter) then Err Ebug else
  let field := match st with Ssaved => 3 | Sinode_only => 4 | Sfake => 7 | Snot_saved => 2 | Sdelta => 1 end in
  Ok (N.lor (N.shiftl field 5) (N.land letter 0x1F)).
(** get_base_and_status, cat_signature.cpp:92-130 *)
Definition sig_decode (field : N) : option (N * sstatus) :=
  let base := N.lor (N.land field 0x1F) 0x60 in
  if negb (is_lower base) then None else
  let v := N.shiftr field 5 in
  if v =? 1 then Some (base, Sdelta) else if v =? 2 then Some (base, Snot_saved) else if v =? 3 then Some (base, Ssaved)
  else if v =? 4 then Some (base, Sinode_only) else if v =? 7 then Some (base, Sfake) else None.
(** cat_signature(generic_file &), cat_signature.cpp:71-78, as used at cat_entree.cpp:78-93: whatever is wrong the
    exception is caught and a null pointer replaces the entry ([None]) *)
Definition sig_read (f : list N) : option (N * sstatus * list N) :=
  match read1 f with
  | None => None
  | Some (b, f) => match sig_decode b with None => None | Some (t, s) => Some (t, s, f) end
  end.

(** ** the objects *)
Inductive eastat := EAfull | EApart | EAnone | EAfake | EAremo.
Inductive fsastat := FSAnone | FSApart | FSAfull.
(** fields of cat_inode, cat_inode.hpp:290-315 (and the name, cat_nomme.hpp, and the status, cat_entree.hpp) *)
Record cinode := CI {
  i_name : list N; i_saved : sstatus; i_uid : N; i_gid : N; i_perm : N;
  i_atime : datetime; i_mtime : datetime; i_ctime : datetime;
  i_ea : eastat; i_ea_size : option N; i_ea_off : option N; i_ea_crc : option crc;
  i_fsa : fsastat; i_fsa_fam : option N; i_fsa_size : option N; i_fsa_off : option N; i_fsa_crc : option crc }.
Definition set_name (n : list N) (i : cinode) : cinode :=
  CI n (i_saved i) (i_uid i) (i_gid i) (i_perm i) (i_atime i) (i_mtime i) (i_ctime i) (i_ea i) (i_ea_size i) (i_ea_off i) (i_ea_crc i)
     (i_fsa i) (i_fsa_fam i) (i_fsa_size i) (i_fsa_off i) (i_fsa_crc i).
(** fields of cat_delta_signature, cat_delta_signature.hpp *)
Inductive magic := Mnone | Mmd4 | Mblake2 | Mrk.
Record dsig := DSig { ds_magic : magic; ds_size : N; ds_off : N; ds_result : option crc }.
(** fields of cat_file, cat_file.hpp:275-298 *)
Record cfile := CF {
  c_size : N; c_off : N; c_ssize : N; c_dirty : bool; c_fds_read : N; c_fds_write : N;
  c_algo_read : compression; c_algo_write : compression; c_check : option crc; c_base : option crc; c_sig : option dsig }.
Inductive kind :=
| Kfile (c : cfile) | Kdoor (c : cfile) | Klien (target : list N) | Kchar (maj min : N) | Kblock (maj min : N) | Ktube | Kprise.
(** entries of a directory; a hard link holds the address of the shared inode *)
Inductive entry :=
| Eino (i : cinode) (k : kind)
| Edir (i : cinode) (children : list entry)
| Emir (name : list N) (star : N)
| Edet (name : list N) (signe : N) (date : datetime)
| Eign (name : list N)
| Eigndir (i : cinode).
(** cat_etoile.hpp:60-90: the shared inode, the etiquette, the number of references and the "reduceable" flag *)
Record star := Star { st_ino : cinode; st_kind : kind; st_etiq : N; st_refs : N; st_reduceable : bool }.
Definition stars := N -> option star.

(** ** writing *)
Definition opt_bug {A} (o : option A) : res A := match o with Some a => Ok a | None => Err Ebug end.
(** cat_nomme::inherited_dump after cat_entree::inherited_dump, cat_nomme.cpp:54-63, cat_entree.cpp:468-477 *)
Definition nomme_dump (letter : N) (st : sstatus) (name : list N) : res (list N) :=
  let* s := sig_byte letter st in Ok (s :: write_string name).
(** flags, cat_inode.cpp:62-80 and 539-574 *)
Definition ea_flag (e : eastat) : N := match e with EAfull => 1 | EApart => 2 | EAnone => 3 | EAfake => 4 | EAremo => 5 end.
Definition fsa_flag (e : fsastat) : N := match e with FSAnone => 0 | FSApart => 0x08 | FSAfull => 0x10 end.
(** cat_inode::inherited_dump, cat_inode.cpp:526-652 *)
Definition inode_dump (small : bool) (letter : N) (i : cinode) : res (list N) :=
  let flag := N.lor (ea_flag (i_ea i)) (fsa_flag (i_fsa i)) in
  let* n := nomme_dump letter (i_saved i) (i_name i) in
  let* a := dt_dump (i_atime i) in
  let* m := dt_dump (i_mtime i) in
  let* c := dt_dump (i_ctime i) in
  let* ea1 := match i_ea i with EAfull => let* s := opt_bug (i_ea_size i) in Ok (dumpN s) | _ => Ok [] end in
  let* ea2 := match i_ea i with
              | EAfull => if small then Ok [] else
                  let* o := opt_bug (i_ea_off i) in let* k := opt_bug (i_ea_crc i) in Ok (dumpN o ++ crc_dump k)
              | _ => Ok [] end in
  let* fs1 := match i_fsa i with FSAnone => Ok [] | _ => let* s := opt_bug (i_fsa_fam i) in Ok (dumpN s) end in
  let* fs2 := match i_fsa i with FSAfull => let* s := opt_bug (i_fsa_size i) in Ok (dumpN s) | _ => Ok [] end in
  let* fs3 := match i_fsa i with
              | FSAfull => if small then Ok [] else
                  let* o := opt_bug (i_fsa_off i) in let* k := opt_bug (i_fsa_crc i) in Ok (dumpN o ++ crc_dump k)
              | _ => Ok [] end in
  Ok (n ++ [flag] ++ dumpN (i_uid i) ++ dumpN (i_gid i) ++ be16 (i_perm i) ++ a ++ m ++ c ++ ea1 ++ ea2 ++ fs1 ++ fs2 ++ fs3).

(** rsync_sig_magic_to_char / char_to_rsync_sig_magic, archive_aux.cpp:228-260 *)
Definition magic_char (m : magic) : N := match m with Mnone => 110 | Mmd4 => 52 | Mblake2 => 66 | Mrk => 82 end.
Definition char_magic (c : N) : res magic :=
  if c =? 110 then Ok Mnone else if c =? 52 then Ok Mmd4 else if c =? 66 then Ok Mblake2 else if c =? 82 then Ok Mrk else Err Ebug.
(** dump_metadata, cat_delta_signature.cpp:197-208 *)
Definition dsig_dump (d : dsig) : res (list N) :=
  let* r := opt_bug (ds_result d) in
  Ok (magic_char (ds_magic d) :: dumpN (ds_size d) ++ (if ds_size d =? 0 then [] else dumpN (ds_off d)) ++ crc_dump r).

(** cat_file.hpp:61-63 *)
Definition WITH_HOLE : N := 1.
Definition IS_DIRTY : N := 2.
Definition HAS_DELTA_SIG : N := 4.
Definition has_data (s : sstatus) : bool := match s with Ssaved | Sdelta => true | _ => false end.
Definition is_delta (s : sstatus) : bool := match s with Sdelta => true | _ => false end.
(** cat_file::inherited_dump, cat_file.cpp:406-488, without the inode part *)
Definition file_dump (small : bool) (st : sstatus) (c : cfile) : res (list N) :=
  let flags := N.lor (N.lor (match c_sig c with Some _ => HAS_DELTA_SIG | None => 0 end) (c_fds_write c)) (if c_dirty c then IS_DIRTY else 0) in
  let* d := if negb small then
      let* a := if has_data st then
                  let* b := if is_delta st then let* k := opt_bug (c_base c) in Ok (crc_dump k) else Ok [] in
                  Ok (dumpN (c_off c) ++ dumpN (c_ssize c) ++ [flags; comp_char (c_algo_write c)] ++ b)
                else Ok [flags] in
      let* k := if has_data st then let* k := opt_bug (c_check c) in Ok (crc_dump k) else Ok [] in
      let* s := match c_sig c with Some s => dsig_dump s | None => Ok [] end in
      Ok (a ++ k ++ s)
    else if has_data st then
      let* b := if is_delta st then let* k := opt_bug (c_base c) in Ok (crc_dump k) else Ok [] in
      Ok ([flags; comp_char (c_algo_write c)] ++ b)
    else Ok [flags] in
  Ok (dumpN (c_size c) ++ d).

(** signature() of each class *)
Definition letter_of (k : kind) : N :=
  match k with Kfile _ => 102 | Kdoor _ => 111 | Klien _ => 108 | Kchar _ _ => 99 | Kblock _ _ => 98 | Ktube => 112 | Kprise => 115 end.
(** cat_lien.cpp:101-118, cat_device.cpp:122-143; tubes and sockets add nothing *)
Definition kind_dump (small : bool) (st : sstatus) (k : kind) : res (list N) :=
  match k with
  | Kfile c | Kdoor c => file_dump small st c
  | Klien t => Ok (match st with Ssaved => write_string t | _ => [] end)
  | Kchar a b | Kblock a b => Ok (match st with Ssaved => be16 a ++ be16 b | _ => [] end)
  | Ktube | Kprise => Ok []
  end.
Definition ino_dump (small : bool) (i : cinode) (k : kind) : res (list N) :=
  let* a := inode_dump small (letter_of k) i in
  let* b := kind_dump small (i_saved i) k in
  Ok (a ++ b).
(** cat_eod *)
Definition eod_dump : res (list N) := let* s := sig_byte 122 Ssaved in Ok [s].

Definition mem (a : N) (l : list N) : bool := existsb (N.eqb a) l.
(** cat_mirage::inherited_dump, cat_mirage.cpp:317-349; [done] = the shared inodes whose inode_dumped (small: inode_wrote)
    flag is set. In small mode the flag is set by the caller once the data is saved (filtre.cpp:999), not here. *)
Definition mir_dump (small : bool) (st : stars) (done : list N) (name : list N) (a : N) : res (list N * list N) :=
  let* s := opt_bug (st a) in
  if (1 <? st_refs s) || negb (st_reduceable s) then
    let* n := nomme_dump 109 Ssaved name in
    if negb (mem a done) then
      let* b := ino_dump small (st_ino s) (st_kind s) in
      Ok (n ++ dumpN (st_etiq s) ++ [62] ++ b, if small then done else a :: done)
    else Ok (n ++ dumpN (st_etiq s) ++ [88], done)
  else
    let* b := ino_dump small (set_name name (st_ino s)) (st_kind s) in Ok (b, done).
(** cat_detruit::inherited_dump, cat_detruit.cpp:66-81 *)
Definition det_dump (name : list N) (signe : N) (d : datetime) : res (list N) :=
  let* n := nomme_dump 120 Ssaved name in
  let* t := dt_dump d in
  Ok (n ++ [signe] ++ t).
(** the empty directory a cat_ignored_dir is replaced by, cat_ignored_dir.cpp:48-53 *)
Definition ignored_as_dir (i : cinode) : cinode :=
  CI (i_name i) (i_saved i) (i_uid i) (i_gid i) (i_perm i) (i_atime i) (i_mtime i) (i_ctime i)
     EAnone None None None FSAnone None None None None.
(** cat_directory::inherited_dump, cat_directory.cpp:252-279, and the others above *)
Fixpoint entry_dump (small : bool) (st : stars) (e : entry) (done : list N) {struct e} : res (list N * list N) :=
  match e with
  | Eino i k => let* b := ino_dump small i k in Ok (b, done)
  | Edir i ch =>
    let* b := inode_dump small 100 i in
    let* '(c, done) := if small then Ok ([], done) else (fix go (l : list entry) (done : list N) : res (list N * list N) :=
        match l with
        | [] => Ok ([], done)
        | x :: r =>
          let* '(b1, d1) := match x with Eign _ => Ok ([], done) | _ => entry_dump small st x done end in
          let* '(b2, d2) := go r d1 in
          Ok (b1 ++ b2, d2)
        end) ch done in
    let* z := eod_dump in
    Ok (b ++ c ++ z, done)
  | Emir name a => mir_dump small st done name a
  | Edet name s d => let* b := det_dump name s d in Ok (b, done)
  | Eign name => Err Ebug       (* never dumped, cat_directory.cpp:263-264 *)
  | Eigndir i => let* b := inode_dump small 100 (ignored_as_dir i) in let* z := eod_dump in Ok (b ++ z, done)
  end.

(** ** reading *)
(** create_crc_from_file with the current format *)
Definition crc_get (f : list N) : res (crc * list N) := crc_read f false.
Definition byte_get (f : list N) : res (N * list N) := match read1 f with Some x => Ok x | None => Err UB end.
(** two bytes, checked, cat_inode.cpp:177-179 and cat_device.cpp:95-103 *)
Definition u16_get (f : list N) : res (N * list N) :=
  match f with a :: b :: f => Ok (a * 256 + b, f) | _ => Err Erange end.
(** constructor of cat_inode from a file, cat_inode.cpp:120-330; the missing flag at end of file is followed by an integer that is missing too
    and an unknown flag raises Erange: Erange in any case *)
Definition inode_read (small : bool) (st : sstatus) (f : list N) : res (cinode * list N) :=
  let* '(name, f) := read_string f in
  let* '(flag, f) := match read1 f with Some x => Ok x | None => Err Erange end in
  let eaf := N.land flag 0x07 in
  let* ea := if eaf =? 1 then Ok EAfull else if eaf =? 2 then Ok EApart else if eaf =? 3 then Ok EAnone
             else if eaf =? 4 then Ok EAfake else if eaf =? 5 then Ok EAremo else Err Erange in
  let* '(uid, f) := readN f in
  let* '(gid, f) := readN f in
  let* '(perm, f) := u16_get f in
  let* '(a, f) := dt_read 12 f in
  let* '(m, f) := dt_read 12 f in
  let* '(c, f) := dt_read 12 f in
  let* '(ea_size, f) := match ea with EAfull => let* '(x, f) := readN f in Ok (Some x, f) | _ => Ok (None, f) end in
  let* '(ea_off, ea_crc, f) :=
    if negb small then
      match ea with EAfull => let* '(o, f) := readN f in let* '(k, f) := crc_get f in Ok (Some o, Some k, f) | _ => Ok (None, None, f) end
    else Ok (None, None, f) in
  let fsaf := N.land flag 0x18 in
  let* fsa := if fsaf =? 0 then Ok FSAnone else if fsaf =? 0x08 then Ok FSApart else if fsaf =? 0x10 then Ok FSAfull else Err Erange in
  let* '(fam, f) := match fsa with FSAnone => Ok (None, f) | _ => let* '(x, f) := readN f in Ok (Some x, f) end in
  let* '(fsize, f) := match fsa with FSAfull => let* '(x, f) := readN f in Ok (Some x, f) | _ => Ok (None, f) end in
  let* '(foff, fcrc, f) :=
    if negb small then
      match fsa with FSAfull => let* '(o, f) := readN f in let* '(k, f) := crc_get f in Ok (Some o, Some k, f) | _ => Ok (None, None, f) end
    else Ok (None, None, f) in
  Ok (CI name st uid gid perm a m c ea ea_size ea_off ea_crc fsa fam fsize foff fcrc, f).

(** cat_delta_signature::read(false, ver), cat_delta_signature.cpp:51-104 *)
Definition dsig_read (f : list N) : res (dsig * list N) :=
  let* '(c, f) := byte_get f in
  let* m := char_magic c in
  let* '(sz, f) := readN f in
  let* '(off, f) := if sz =? 0 then Ok (0, f) else readN f in
  let* '(r, f) := crc_get f in
  Ok (DSig m sz off (Some r), f).

Definition has_flag (x bit : N) : bool := negb (N.land x bit =? 0).
Definition clear_flag (x bit : N) : N := N.land x (255 - bit).
(** constructor of cat_file, cat_file.cpp:108-325; in small mode the structure of the delta signature exists but is not
    read there ([DSig Mnone 0 0 None]), cat_delta_signature.cpp:258-270 *)
Definition file_read (small : bool) (st : sstatus) (default_algo : compression) (f : list N) : res (cfile * list N) :=
  let* '(size, f) := readN f in
  if negb small then
    if has_data st then
      let* '(off, f) := readN f in
      let* '(ss, f) := readN f in
      let* '(fds, f) := byte_get f in
      let dirty := has_flag fds IS_DIRTY in
      let fds := if dirty then clear_flag fds IS_DIRTY else fds in
      let* '(ch, f) := byte_get f in
      let* algo := char_comp ch in
      let sg := has_flag fds HAS_DELTA_SIG in
      let* '(base, f) := if sg && is_delta st then let* '(k, f) := crc_get f in Ok (Some k, f) else Ok (None, f) in
      let fds := if sg then clear_flag fds HAS_DELTA_SIG else fds in
      let* '(chk, f) := crc_get f in
      let* '(d, f) := if sg then let* '(d, f) := dsig_read f in Ok (Some d, f) else Ok (None, f) in
      Ok (CF size off ss dirty fds fds algo algo (Some chk) base d, f)
    else
      let* '(fds, f) := byte_get f in
      let sg := has_flag fds HAS_DELTA_SIG in
      let fds := clear_flag fds HAS_DELTA_SIG in
      let* '(d, f) := if sg then let* '(d, f) := dsig_read f in Ok (Some d, f) else Ok (None, f) in
      Ok (CF size 0 0 false fds 0 default_algo default_algo None None d, f)
  else
    if has_data st then
      let* '(fds, f) := byte_get f in
      let* '(ch, f) := byte_get f in
      let* algo := char_comp ch in
      let sg := has_flag fds HAS_DELTA_SIG in
      let* '(base, f) := if sg && is_delta st then let* '(k, f) := crc_get f in Ok (Some k, f) else Ok (None, f) in
      let fds := if sg then clear_flag fds HAS_DELTA_SIG else fds in
      Ok (CF size 0 0 false fds fds algo algo None base (if sg then Some (DSig Mnone 0 0 None) else None), f)
    else
      let* '(fds, f) := byte_get f in
      let sg := has_flag fds HAS_DELTA_SIG in
      let fds := if sg then clear_flag fds HAS_DELTA_SIG else fds in
      Ok (CF size 0 0 false fds fds default_algo default_algo None None (if sg then Some (DSig Mnone 0 0 None) else None), f).

(** cat_lien.cpp:47-66, cat_device.cpp:79-109 *)
Definition lien_read (st : sstatus) (f : list N) : res (list N * list N) :=
  match st with Ssaved => read_string f | _ => Ok ([], f) end.
Definition device_read (st : sstatus) (f : list N) : res (N * N * list N) :=
  match st with
  | Ssaved => let* '(a, f) := u16_get f in let* '(b, f) := u16_get f in Ok (a, b, f)
  | _ => Ok (0, 0, f)
  end.
(** the inode types of the switch of cat_entree::read, cat_entree.cpp:99-120 and 147-149; [None]: another type *)
Definition kind_read (small : bool) (algo : compression) (ty : N) (st : sstatus) (f : list N) : option (res (kind * list N)) :=
  if ty =? 102 then Some (let* '(c, f) := file_read small st algo f in Ok (Kfile c, f))
  else if ty =? 108 then Some (let* '(t, f) := lien_read st f in Ok (Klien t, f))
  else if ty =? 99 then Some (let* '(a, b, f) := device_read st f in Ok (Kchar a b, f))
  else if ty =? 98 then Some (let* '(a, b, f) := device_read st f in Ok (Kblock a b, f))
  else if ty =? 112 then Some (Ok (Ktube, f))
  else if ty =? 115 then Some (Ok (Kprise, f))
  else if ty =? 111 then Some (let* '(c, f) := file_read small st algo f in Ok (Kdoor c, f))
  else None.

(** the map from etiquettes to shared inodes *)
Definition corres := list (N * star).
Fixpoint lookup (t : N) (co : corres) : option star :=
  match co with [] => None | (k, s) :: r => if k =? t then Some s else lookup t r end.
Fixpoint add_ref (t : N) (co : corres) : corres :=
  match co with
  | [] => []
  | (k, s) :: r => if k =? t then (k, Star (st_ino s) (st_kind s) (st_etiq s) (st_refs s + 1) (st_reduceable s)) :: r else (k, s) :: add_ref t r
  end.
(** binding to the shared inode, cat_mirage.cpp:131-147 (alone) and 176-228 (with the inode) *)
Definition mir_alone (name : list N) (t : N) (co : corres) : res (entry * corres) :=
  match lookup t co with None => Err Erange | Some _ => Ok (Emir name t, add_ref t co) end.
Definition mir_with (name : list N) (t : N) (i : cinode) (k : kind) (co : corres) : res (entry * corres) :=
  match lookup t co with Some _ => Err Erange | None => Ok (Emir name t, (t, Star i k t 1 true) :: co) end.

(** cat_entree::read, cat_entree.cpp:42-289 (no CRC at this level: [small_read] below) and the constructors of
    cat_directory (cat_directory.cpp:93-228) and cat_mirage (cat_mirage.cpp:41-230). [Ok (None, ...)] is an end of
    directory. A null pointer makes both callers raise Erange (cat_directory.cpp:204-206, cat_mirage.cpp:166-174). *)
Fixpoint ent_read (small : bool) (algo : compression) (n : nat) (co : corres) (f : list N) {struct n} : res (option entry * corres * list N) :=
  match n with
  | O => Err Fuel
  | S n =>
    match sig_read f with
    | None => Err Erange
    | Some (ty, st, f) =>
      if ty =? 100 then
        let* '(i, f) := inode_read small st f in
        let* '(ch, co, f) := list_read small algo n co f in
        Ok (Some (Edir i ch), co, f)
      else if ty =? 109 then
        let* '(name, f) := read_string f in
        let* '(t, f) := readN f in
        let* '(flag, f) := byte_get f in
        if flag =? 88 then let* '(e, co) := mir_alone name t co in Ok (Some e, co, f)
        else if flag =? 62 then
          let* '(x, co, f) := ent_read small algo n co f in
          match x with
          | Some (Eino i k) => let* '(e, co) := mir_with name t i k co in Ok (Some e, co, f)
          | _ => Err Erange
          end
        else Err Erange
      else if ty =? 104 then
        let* '(name, f) := read_string f in
        let* '(t, f) := readN f in
        let* '(e, co) := mir_alone name t co in Ok (Some e, co, f)
      else if ty =? 101 then
        let* '(i, f) := inode_read small st f in
        let* '(c, f) := file_read small st algo f in
        let* '(t, f) := readN f in
        let* '(e, co) := mir_with (i_name i) t (set_name [] i) (Kfile c) co in Ok (Some e, co, f)
      else if ty =? 122 then match st with Ssaved => Ok (None, co, f) | _ => Err Erange end
      else if ty =? 120 then
        match st with
        | Ssaved =>
          let* '(name, f) := read_string f in
          let* '(s, f) := match read1 f with Some x => Ok x | None => Err Erange end in
          let* '(d, f) := dt_read 12 f in
          Ok (Some (Edet name s d), co, f)
        | _ => Err Erange
        end
      else
        match kind_read small algo ty st [] with
        | None => Err Erange
        | Some _ =>
          let* '(i, f) := inode_read small st f in
          match kind_read small algo ty st f with
          | None => Err Erange
          | Some r => let* '(k, f) := r in Ok (Some (Eino i k), co, f)
          end
        end
    end
  end
with list_read (small : bool) (algo : compression) (n : nat) (co : corres) (f : list N) {struct n} : res (list entry * corres * list N) :=
  match n with
  | O => Err Fuel
  | S n =>
    let* '(x, co, f) := ent_read small algo n co f in
    match x with
    | None => Ok ([], co, f)
    | Some e => let* '(l, co, f) := list_read small algo n co f in Ok (e :: l, co, f)
    end
  end.

(** ** the catalogue *)
(** reset_crc(width) before and get_crc() after passing [data] through the layer; how the data is cut does not
    matter (C07) *)
Definition crc_of (width : nat) (data : list N) : res crc := let* c := crc_create width in crc_compute 0 data c.
Record catalogue := Cat { k_label : list N; k_place : path; k_root : cinode; k_children : list entry; k_stars : stars }.
Definition CAT_CRC_SIZE : nat := 4.      (* catalogue.cpp:1482 *)
Definition root_entry (c : catalogue) : entry := Edir (k_root c) (k_children c).
(** catalogue::dump, catalogue.cpp:1013-1056; [done] = the state of the inode_dumped flags, emptied by reset_dump()
    (catalogue.cpp:1006-1011) *)
Definition cat_dump (done : list N) (c : catalogue) : res (list N * list N) :=
  let* '(b, done) := entry_dump false (k_stars c) (root_entry c) done in
  let data := k_label c ++ write_string (display (k_place c)) ++ b in
  let* k := crc_of CAT_CRC_SIZE data in
  Ok (data ++ crc_dump k, done).
(** enough fuel for the length of the data *)
Definition fuel_for (f : list N) : nat := 2 * length f + 2.
(** catalogue::catalogue(...), catalogue.cpp:113-254; label::read raises Erange when data is missing. When the CRC cannot be
    read an Egeneric makes the comparison fail (:221-229) but a CRC cut short is read as uninitialised memory ([UB]). *)
Definition cat_read (algo : compression) (f0 : list N) : res (catalogue * list N) :=
  let* '(lab, f) := label_read f0 in
  let* '(tmp, f) := read_string f in
  let* place := match path_make tmp false with Ok p => Ok p | Err _ => path_make tmp true end in
  if relative place && negb (str_eqb tmp dot) then Err Erange else
  match sig_read f with
  | None => Err Erange
  | Some (ty, st, f) =>
    if negb (ty =? 100) then Err Erange else
    let* '(i, f) := inode_read false st f in
    let* '(ch, co, f) := list_read false algo (fuel_for f) [] f in
    let* calc := crc_of CAT_CRC_SIZE (firstn (length f0 - length f) f0) in
    let* '(k, f) := match crc_get f with Err UB => Err UB | Err _ => Err Erange | Ok x => Ok x end in
    if crc_eq k calc then Ok (Cat lab place i ch (fun t => lookup t co), f) else Err Erange
  end.

(** ** inlined entries for sequential reading *)
Definition ENTREE_CRC_SIZE : nat := 2.   (* cat_entree.cpp:39 *)
(** cat_entree::dump(pdesc, true), cat_entree.cpp:310-349 *)
Definition small_dump (st : stars) (done : list N) (e : entry) : res (list N) :=
  let* '(b, _) := entry_dump true st e done in
  let* k := crc_of ENTREE_CRC_SIZE b in
  Ok (b ++ crc_dump k).
(** cat_entree::read(..., small = true) with the CRC, cat_entree.cpp:183-285: [Ok None] is the null pointer returned on
    a bad signature *)
Definition small_read (algo : compression) (co : corres) (f0 : list N) : res (option (option entry * corres * list N)) :=
  match sig_read f0 with
  | None => Ok None
  | Some _ =>
    let* '(e, co, f) := ent_read true algo (fuel_for f0) co f0 in
    let* calc := crc_of ENTREE_CRC_SIZE (firstn (length f0 - length f) f0) in
    let* '(k, f) := crc_get f in
    if crc_eq k calc then Ok (Some (e, co, f)) else Err Erange
  end.
