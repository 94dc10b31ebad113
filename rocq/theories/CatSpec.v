(** * What a catalogue shows: a specification of "the same tree", used by C37.

    A node shows what the listing of an archive shows. [small] selects what is inlined for sequential reading (the
    positions and checksums of data, EA and FSA are not known yet there). [w] selects the side: on the side that writes the
    flags and algorithm used for writing, on the side that reads those used for reading (cat_file.hpp:148-154). *)
From Verif Require Import Base InfinintModel CrcModel DatetimeModel PropDatetime HeaderModel PathModel CatModel.
Open Scope N_scope.

(** uid, gid, permission, dates, status of data, EA and FSA *)
Record vhead := VH {
  vh_name : list N; vh_saved : sstatus; vh_ids : N * N * N; vh_dates : datetime * datetime * datetime;
  vh_ea : eastat * option N * option (option N * option (list N));
  vh_fsa : fsastat * option N * option N * option (option N * option (list N)) }.
Definition v_crc (c : option crc) : option (list N) := option_map cyclic c.
Definition v_head (small : bool) (i : cinode) : vhead :=
  VH (i_name i) (i_saved i) (i_uid i, i_gid i, i_perm i) (i_atime i, i_mtime i, i_ctime i)
     (i_ea i, match i_ea i with EAfull => i_ea_size i | _ => None end,
      match i_ea i with EAfull => if small then None else Some (i_ea_off i, v_crc (i_ea_crc i)) | _ => None end)
     (i_fsa i, match i_fsa i with FSAnone => None | _ => i_fsa_fam i end, match i_fsa i with FSAfull => i_fsa_size i | _ => None end,
      match i_fsa i with FSAfull => if small then None else Some (i_fsa_off i, v_crc (i_fsa_crc i)) | _ => None end).
(** a file: size, sparse flag; when data is saved: position, stored size, dirty flag, algorithm, checksum, checksum of the
    base of a binary patch; the delta signature *)
Record vfile := VF {
  vf_size : N; vf_sparse : bool;
  vf_where : option (N * N * bool * option (list N)); vf_algo : option compression; vf_base : option (option (list N));
  vf_sig : option (option (magic * N * option N * option (list N))) }.
(** data or a binary patch is stored for the file *)
Definition stored (st : sstatus) : bool := match st with Ssaved => true | Sdelta => true | _ => false end.
Definition v_sig (d : dsig) := (ds_magic d, ds_size d, if ds_size d =? 0 then None else Some (ds_off d), v_crc (ds_result d)).
Definition v_file (small w : bool) (st : sstatus) (c : cfile) : vfile :=
  VF (c_size c) (N.odd (if w then c_fds_write c else c_fds_read c))
     (if stored st && negb small then Some (c_off c, c_ssize c, c_dirty c, v_crc (c_check c)) else None)
     (if stored st then Some (if w then c_algo_write c else c_algo_read c) else None)
     (match st with Sdelta => Some (v_crc (c_base c)) | _ => None end)
     (option_map (fun d => if small then None else Some (v_sig d)) (c_sig c)).
Inductive vkind :=
| VKfile (v : vfile) | VKdoor (v : vfile) | VKlien (t : option (list N)) | VKchar (n : option (N * N)) | VKblock (n : option (N * N)) | VKtube | VKprise.
Definition if_saved {A} (st : sstatus) (x : A) : option A := match st with Ssaved => Some x | _ => None end.
Definition v_kind (small w : bool) (st : sstatus) (k : kind) : vkind :=
  match k with
  | Kfile c => VKfile (v_file small w st c)
  | Kdoor c => VKdoor (v_file small w st c)
  | Klien t => VKlien (if_saved st t)
  | Kchar a b => VKchar (if_saved st (a, b))
  | Kblock a b => VKblock (if_saved st (a, b))
  | Ktube => VKtube
  | Kprise => VKprise
  end.
(** a tree; a hard link shows the number of the set it belongs to and the shared inode under its own name *)
Inductive vnode :=
| Vino (h : vhead) (k : vkind)
| Vlink (t : N) (h : vhead) (k : vkind)
| Vdir (h : vhead) (l : list vnode)
| Vdel (name : list N) (signe : N) (d : datetime)
| Vbroken.
Definition called (n : list N) (h : vhead) : vhead := VH n (vh_saved h) (vh_ids h) (vh_dates h) (vh_ea h) (vh_fsa h).
(** neither EA nor FSA *)
Definition bare (h : vhead) : vhead := VH (vh_name h) (vh_saved h) (vh_ids h) (vh_dates h) (EAnone, None, None) (FSAnone, None, None, None).
(** a set of hard links reduced to one member is an ordinary file *)
Definition is_set (s : star) : bool := (1 <? st_refs s) || negb (st_reduceable s).
Definition v_link (small w keep : bool) (st : stars) (name : list N) (a : N) : vnode :=
  match st a with
  | None => Vbroken
  | Some s => let h := called name (v_head small (st_ino s)) in let k := v_kind small w (i_saved (st_ino s)) (st_kind s) in
              if keep || is_set s then Vlink (st_etiq s) h k else Vino h k
  end.
(** what is to be found back: entries ignored during the backup are not stored, an ignored directory is stored empty and without EA nor FSA,
    an inlined directory comes without its content *)
Fixpoint expected (small : bool) (st : stars) (e : entry) : list vnode :=
  match e with
  | Eino i k => [Vino (v_head small i) (v_kind small true (i_saved i) k)]
  | Edir i ch => [Vdir (v_head small i) (if small then [] else concat (map (expected small st) ch))]
  | Emir name a => [v_link small true false st name a]
  | Edet name s d => [Vdel name s d]
  | Eign _ => []
  | Eigndir i => [Vdir (bare (v_head small i)) []]
  end.
(** what the objects read show *)
Fixpoint shown (small : bool) (st : stars) (e : entry) : list vnode :=
  match e with
  | Eino i k => [Vino (v_head small i) (v_kind small false (i_saved i) k)]
  | Edir i ch => [Vdir (v_head small i) (concat (map (shown small st) ch))]
  | Emir name a => [v_link small false true st name a]
  | Edet name s d => [Vdel name s d]
  | Eign _ => [Vbroken]
  | Eigndir _ => [Vbroken]
  end.

(** ** the objects the program builds *)
Definition no_nul (s : list N) : Prop := Forall (fun c => c <> 0) s.
Definition present {A} (o : option A) : Prop := o <> None.
(** a name comes from a C string, permissions fit 16 bits; what is announced (EA, FSA) has been recorded *)
Definition inode_ok (small : bool) (i : cinode) : Prop :=
  no_nul (i_name i) /\ i_perm i < 65536 /\ date (i_atime i) /\ date (i_mtime i) /\ date (i_ctime i) /\
  (i_ea i = EAfull -> present (i_ea_size i) /\ (small = false -> present (i_ea_off i) /\ present (i_ea_crc i))) /\
  (i_fsa i <> FSAnone -> present (i_fsa_fam i)) /\
  (i_fsa i = FSAfull -> present (i_fsa_size i) /\ (small = false -> present (i_fsa_off i) /\ present (i_fsa_crc i))).
(** saved data has a checksum, a binary patch has the checksum of its base and the structure of a signature
    (set_patch_base_crc refuses a file without it, cat_file.cpp:1159-1162), which has the checksum of the result *)
Definition file_ok (small : bool) (st : sstatus) (c : cfile) : Prop :=
  c_fds_write c < 2 /\
  (small = false -> stored st = true -> present (c_check c)) /\
  (st = Sdelta -> present (c_base c) /\ present (c_sig c)) /\
  (small = false -> forall d, c_sig c = Some d -> present (ds_result d)).
Definition kind_ok (small : bool) (st : sstatus) (k : kind) : Prop :=
  match k with
  | Kfile c | Kdoor c => file_ok small st c
  | Klien t => no_nul t
  | Kchar a b | Kblock a b => a < 65536 /\ b < 65536
  | Ktube | Kprise => True
  end.
Fixpoint entry_ok (small : bool) (st : stars) (e : entry) : Prop :=
  match e with
  | Eino i k => inode_ok small i /\ kind_ok small (i_saved i) k
  | Edir i ch => inode_ok small i /\ (small = false -> fold_right and True (map (entry_ok small st) ch))
  | Emir name a => no_nul name /\ exists s, st a = Some s /\ inode_ok small (st_ino s) /\ kind_ok small (i_saved (st_ino s)) (st_kind s)
  | Edet name s d => no_nul name /\ date d
  | Eign _ => True
  | Eigndir i => no_nul (i_name i) /\ i_perm i < 65536 /\ date (i_atime i) /\ date (i_mtime i) /\ date (i_ctime i)
  end.
(** two sets of hard links have different numbers *)
Definition distinct_sets (st : stars) : Prop :=
  forall a b sa sb, st a = Some sa -> st b = Some sb -> st_etiq sa = st_etiq sb -> a = b.
