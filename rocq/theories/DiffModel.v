(** * Model of the comparison of an archive with a filesystem (dar -d): src/libdar/filtre.cpp (filtre_difference), cat_inode.cpp (compare), cat_file.cpp (sub_compare), cat_lien.cpp, cat_device.cpp,
    generic_file.cpp (diff), ea.cpp (diff), filesystem_specific_attribute.cpp (is_included_in), catalogue.cpp (read), defile.cpp, filesystem_diff.cpp.

    Simplifications. Reading data from the archive or from a file of the filesystem does not fail: data is a list of bytes. Doors (Solaris) are left out. The delta signature librsync would compute of
    given data is a parameter ([rsig]). Dates of access are not restored afterwards (alter_atime, which has no effect on the report). The messages of the filesystem layer (EA that cannot be read,
    negative dates) and the messages naming the directory being inspected are left out. [read_second_time_dir()] is false (catalogue.hpp:130). An archive read sequentially is in the model only for
    the checksum, which is known after the data only, and for hard links. *)
From Coq Require Import List.
From Verif Require Import Base InfinintModel CrcModel DatetimeModel PathModel CatModel SeqModel.
Import ListNotations.
Open Scope N_scope.

(** ** data, generic_file.cpp:325-390 *)
(** the loop on i, generic_file.cpp:358-360: the number of leading bytes that are equal *)
Fixpoint same_bytes (a b : list N) : nat :=
  match a, b with x :: a, y :: b => if x =? y then S (same_bytes a b) else O | _, _ => O end.
(** [sz] is BUFFER_SIZE; a read gives fewer bytes than asked at end of file only. Returns whether a difference was met, the checksum and err_offset. *)
Fixpoint diff_loop (fuel : nat) (sz : nat) (me you : list N) (value : crc) (off : N) : res (bool * crc * N) :=
  match fuel with
  | O => Err Fuel
  | S fuel =>
    let b1 := firstn sz me in let b2 := firstn sz you in
    let lu1 := length b1 in let lu2 := length b2 in
    if (lu1 =? lu2)%nat then
      let i := same_bytes b1 b2 in
      if (i <? lu1)%nat then Ok (true, value, off + N.of_nat i)
      else
        let* value := crc_compute 0 b1 value in
        let off := off + N.of_nat lu1 in
        if (0 <? lu1)%nat then diff_loop fuel sz (skipn sz me) (skipn sz you) value off else Ok (false, value, off)
    else Ok (true, value, off + N.of_nat (if (lu2 <? lu1)%nat then lu2 else lu1))
  end.
Definition BUFFER_SIZE : nat := N.to_nat 102400.
Definition gf_diff (sz : nat) (me you : list N) (width : nat) : res (bool * crc * N) :=
  let* value := crc_create width in diff_loop (S (S (length me))) sz me you value 0.

(** ** EA, ea.cpp:129-160: [attr] is a map *)
Fixpoint ea_find (key : list N) (l : eas) : option (list N) :=
  match l with [] => None | (k, v) :: l => if str_eqb k key then Some v else ea_find key l end.
Definition ea_diff (cov : list N -> bool) (me you : eas) : bool :=
  existsb (fun kv => cov (fst kv) && negb match ea_find (fst kv) you with Some v => str_eqb v (snd kv) | None => false end) me.

(** ** FSA, filesystem_specific_attribute.cpp *)
Inductive fval := Vbool (b : bool) | Vint (n : N) | Vtime (d : datetime).
Record fsa := Fsa { f_fam : N; f_nat : N; f_val : fval }.
(** equal_value_to, filesystem_specific_attribute.cpp:1259-1313 *)
Definition fval_eqb (a b : fval) : bool :=
  match a, b with Vbool x, Vbool y => Bool.eqb x y | Vint x, Vint y => x =? y | Vtime x, Vtime y => dt_eq x y | _, _ => false end.
(** is_same_type_as, :112-116, and operator ==, filesystem_specific_attribute.hpp:93 *)
Definition fsa_eqb (a b : fsa) : bool := (f_fam a =? f_fam b) && (f_nat a =? f_nat b) && fval_eqb (f_val a) (f_val b).
(** operator <, :118-127 *)
Definition fsa_lt (a b : fsa) : bool := if f_fam a <? f_fam b then true else if f_fam b <? f_fam a then false else f_nat a <? f_nat b.
(** the inner loop, :192-197: once the end of the list is reached the iterator is read nevertheless *)
Fixpoint advance (x : fsa) (rt : list fsa) : res (list fsa) :=
  match rt with
  | [] => Ok []
  | y :: r => if fsa_lt y x then match r with [] => Err UB | _ :: _ => advance x r end else Ok rt
  end.
(** is_included_in, :166-209 *)
Fixpoint included (scope : N -> bool) (it rt : list fsa) : res bool :=
  match it with
  | [] => Ok true
  | x :: it' =>
    match rt with
    | [] => Ok false
    | _ :: _ =>
      if negb (scope (f_fam x)) then included scope it' rt
      else
        let* rt := advance x rt in
        match rt with
        | [] => Ok false
        | y :: _ => if fsa_eqb y x then included scope it' rt else Ok false
        end
    end
  end.

(** ** inodes *)
(** saved_status, ea_saved_status, fsa_saved_status: those of the catalogue (CatModel). On the side of the archive: the data as read from it, the checksum recorded, the delta signature
    recorded (kind of hash, block length, signature), the checksum of the result of a patch. *)
Inductive akind :=
| Afile (size : N) (data : list N) (check : option crc) (sig : option (N * N * list N)) (result : option crc)
| Alink (target : list N) | Adir | Achar (major minor : N) | Ablock (major minor : N) | Atube | Aprise.
Record ainode := Ain { a_name : list N; a_uid : N; a_gid : N; a_perm : N; a_mtime : datetime; a_ctime : datetime; a_saved : sstatus; a_kind : akind;
  a_ea : eastat; a_eas : eas; a_fsa : fsastat; a_fsas : list fsa }.
(** on the side of the filesystem (make_read_entree, filesystem_hard_link_read.cpp:116-444): everything is saved, EA and FSA are full or none *)
Inductive fkind := Ffile (data : list N) | Flink (target : list N) | Fdir | Fchar (major minor : N) | Fblock (major minor : N) | Ftube | Fprise.
Record finode := Fin { f_name : list N; f_uid : N; f_gid : N; f_perm : N; f_mtime : datetime; f_ctime : datetime; f_kind : fkind; f_eas : option eas; f_fsas : option (list fsa) }.
(** same_as, cat_inode.cpp:365-368 and cat_nomme.hpp:63, compatible_signature, cat_signature.cpp:124-134: the signature is a letter for each class *)
Definition a_letter (k : akind) : N := match k with Afile _ _ _ _ _ => 102 | Alink _ => 108 | Adir => 100 | Achar _ _ => 99 | Ablock _ _ => 98 | Atube => 112 | Aprise => 115 end.
Definition f_letter (k : fkind) : N := match k with Ffile _ => 102 | Flink _ => 108 | Fdir => 100 | Fchar _ _ => 99 | Fblock _ _ => 98 | Ftube => 112 | Fprise => 115 end.
Definition same_as (a : ainode) (f : finode) : bool := str_eqb (a_name a) (f_name f) && (a_letter (a_kind a) =? f_letter (f_kind f)).

(** ** options of the comparison *)
Record dopt := Dopt { o_cap : time_unit; o_what : fields; o_shift : N; o_linkdate : bool; o_ea : list N -> bool; o_scope : list N; o_isolated : bool; o_seq : bool;
  o_librsync : bool; o_rsig : N -> N -> list N -> list N; o_size : nat }.
Definition in_scope (o : dopt) (fam : N) : bool := existsb (N.eqb fam) (o_scope o).

(** the checksum of the data of the filesystem against the one recorded, cat_file.cpp:1712-1746, copy_to with checksum, generic_file.cpp:227-243 *)
Definition crc_check (k : crc) (data : list N) : res unit :=
  let* v := crc_of (crc_size k) data in
  if negb (crc_size k =? crc_size v)%nat || negb (crc_eq k v) then Err Erange else Ok tt.
(** sub_compare_internal, cat_file.cpp:1480-1748, as sub_compare calls it (1473-1478): can_read_other_data, hourshift zero *)
Definition file_compare (o : dopt) (a : ainode) (size : N) (data : list N) (check : option crc) (sig : option (N * N * list N)) (result : option crc) (f : finode) (you : list N) : res unit :=
  if negb (size =? N.of_nat (length you)) then Err Erange
  else
    let* e := equal_with_hourshift (o_cap o) 0 (a_mtime a) (f_mtime f) in
    if negb e then Err Erange
    else if (match a_saved a with Ssaved => true | _ => false end) && negb (o_isolated o) then
      let width := if o_seq o then crc_width (N.of_nat (length you)) else match check with Some k => crc_size k | None => crc_width (N.of_nat (length you)) end in
      let* '(d, v, _) := gf_diff (o_size o) data you width in
      if d : bool then Err Erange
      else match check with
        | Some k => if negb (crc_size k =? crc_size v)%nat then Err Erange else if negb (crc_eq k v) then Err Erange else Ok tt
        | None => Ok tt
        end
    else
      let by_crc :=
        match a_saved a with
        | Sdelta => match check with
                    | None => Err Erange
                    | Some _ => match result with None => Err Ebug | Some k => crc_check k you end
                    end
        | _ => match check with Some k => crc_check k you | None => Ok tt end
        end in
      match sig with
      | Some (magic, len, s) =>
        if negb (o_seq o && o_isolated o) && o_librsync o then
          if magic =? 0 then Err Ebug else if str_eqb s (o_rsig o magic len you) then Ok tt else Err Erange
        else by_crc
      | None => by_crc
      end.
(** cat_inode::compare, cat_inode.cpp:383-524. The two sides of a comparison having the same class, the other combinations of sub_compare raise SRC_BUG. *)
Definition date_checked (w : fields) : bool := match w with F_inode_type => false | _ => true end.
Definition sub_compare (o : dopt) (a : ainode) (f : finode) : res unit :=
  let saved := match a_saved a with Ssaved => true | _ => false end in
  match a_kind a, f_kind f with
  | Afile size data check sig result, Ffile you => file_compare o a size data check sig result f you
  | Alink t, Flink t' => if saved && negb (str_eqb t t') then Err Erange else Ok tt
  | Achar x y, Fchar x' y' | Ablock x y, Fblock x' y' => if saved && negb ((x =? x') && (y =? y')) then Err Erange else Ok tt
  | Adir, Fdir | Atube, Ftube | Aprise, Fprise => Ok tt
  | _, _ => Err Ebug
  end.
Definition ctime_check (o : dopt) (a : ainode) (f : finode) : res unit :=
  let* e := equal_with_hourshift (o_cap o) (o_shift o) (a_ctime a) (f_ctime f) in
  let* l := dt_lt (a_ctime a) (f_ctime f) in
  if negb e && l then Err Erange else Ok tt.
Definition ea_compare (o : dopt) (a : ainode) (f : finode) : res unit :=
  match a_ea a with
  | EAfull => match f_eas f with
              | Some you => if negb (o_isolated o) && ea_diff (o_ea o) (a_eas a) you then Err Erange else Ok tt
              | None => Err Erange
              end
  | EApart | EAfake => match f_eas f with Some _ => ctime_check o a f | None => Err Erange end
  | EAnone | EAremo => Ok tt
  end.
Definition fsa_compare (o : dopt) (a : ainode) (f : finode) : res unit :=
  let missing := match o_scope o with [] => Ok tt | _ :: _ => Err Erange end in
  match a_fsa a with
  | FSAfull => match f_fsas f with
               | Some you => if o_isolated o then Ok tt else let* i := included (in_scope o) (a_fsas a) you in if i : bool then Ok tt else Err Erange
               | None => missing
               end
  | FSApart => match f_fsas f with Some _ => ctime_check o a f | None => missing end
  | FSAnone => Ok tt
  end.
Definition compare (o : dopt) (a : ainode) (f : finode) : res unit :=
  let do_mtime := match f_kind f with Flink _ => o_linkdate o | _ => true end in
  if negb (same_as a f) then Err Erange
  else if (match o_what o with F_all => true | _ => false end) && negb (a_uid a =? f_uid f) then Err Erange
  else if (match o_what o with F_all => true | _ => false end) && negb (a_gid a =? f_gid f) then Err Erange
  else if (match o_what o with F_all | F_ignore_owner => true | _ => false end) && negb (a_perm a =? f_perm f) then Err Erange
  else
    let* bad := if do_mtime && date_checked (o_what o) then let* e := equal_with_hourshift (o_cap o) (o_shift o) (a_mtime a) (f_mtime f) in Ok (negb e) else Ok false in
    if bad : bool then Err Erange
    else
      let* _ := sub_compare o a f in
      let* _ := ea_compare o a f in
      fsa_compare o a f.

(** ** the walk *)
(** a catalogue in memory: inodes, hard links (with the number of links known to the catalogue), entries that are not inodes (recorded as removed), directories *)
Inductive atree := Tino (i : ainode) | Tmir (i : ainode) (links : N) | Tgone (name : list N) | Tdir (i : ainode) (children : list atree).
Definition tname (t : atree) : list N := match t with Tino i | Tmir i _ | Tdir i _ => a_name i | Tgone n => n end.
(** what the system answers about a path *)
Inductive lookup := Absent | Found (f : finode) | Fails (e : exn).
(** paths are lists of names, the last component first *)
Definition fpath := list (list N).

(** defile, defile.cpp:31-58 and defile.hpp: [pe] the path, [pi] the field init. Popping the root of the path is SRC_BUG. *)
Record defile := Df { d_path : fpath; d_init : bool }.
Definition df_pop (d : defile) : res defile :=
  if d_init d then Ok (Df (d_path d) false) else match d_path d with [] => Err Ebug | _ :: p => Ok (Df p false) end.
Definition df_enter (name : list N) (dir : bool) (d : defile) : res defile :=
  let* d := df_pop d in Ok (Df (name :: d_path d) (if dir then true else d_init d)).
Definition df_eod (d : defile) : res defile := df_pop d.

Inductive verdict := Vok | Vdiff | Vmissing | Verr (e : exn) | Vskipped | Vlinkskipped | Vnothing.
Definition dline : Type := fpath * verdict.

(** the state: for each directory being read of the catalogue the children not read yet (catalogue::read, catalogue.cpp:312-349, skip_read_to_parent_dir :301-310), the path being reported,
    the directory of the filesystem being read and the height of filename_pile (filesystem_diff.cpp) *)
Record dst := Dst { w_stack : list (list atree); w_path : defile; w_cur : fpath; w_pile : nat }.
(** skip_read_filename_in_parent_dir, filesystem_diff.cpp:213-223 *)
Definition fs_up (s : dst) : res dst :=
  match w_pile s with O => Err Ebug | S n => Ok (Dst (w_stack s) (w_path s) (List.tl (w_cur s)) n) end.
(** cat.skip_read_to_parent_dir() then juillet.enfile(&tmp_eod) *)
Definition cat_up (s : dst) : res dst :=
  match w_stack s with
  | _ :: ((_ :: _) as st) => let* d := df_eod (w_path s) in Ok (Dst st d (w_cur s) (w_pile s))
  | _ => Err Erange
  end.
(** exceptions that are not caught by the loop, filtre.cpp:1382-1397; undefined behaviour and lack of fuel end the model *)
Definition fatal (e : exn) : bool := match e with Ebug | Euser_abort | UB | Fuel => true | _ => false end.
Definition is_dirkind (k : fkind) : bool := match k with Fdir => true | _ => false end.
(** an entry that was read, filtre.cpp:1280-1403; [i] is e_ino. Messages are the lines returned. The exceptions of compare that are not Erange lead to the last handler. *)
Definition on_inode (o : dopt) (fs : fpath -> lookup) (i : ainode) (dir : bool) (s : dst) : list dline * res dst :=
  let here := d_path (w_path s) in
  match fs (a_name i :: w_cur s) with
  | Fails e => if fatal e then ([], Err e) else ([(here, Verr e)], Ok s)
  | Absent =>
    match (if dir then cat_up s else Ok s) with
    | Err e => if fatal e then ([(here, Vmissing)], Err e) else ([(here, Vmissing); (here, Verr e)], Ok s)
    | Ok s' => ([(here, Vmissing)], Ok s')
    end
  | Found f =>
    let fdir := is_dirkind (f_kind f) in
    let s := if fdir then Dst (w_stack s) (w_path s) (f_name f :: w_cur s) (S (w_pile s)) else s in
    match compare o i f with
    | Ok _ => ([(here, Vok)], Ok s)
    | Err Erange =>
      match (let* s := if negb dir && fdir then fs_up s else Ok s in if dir && negb fdir then cat_up s else Ok s) with
      | Err e => if fatal e then ([(here, Vdiff)], Err e) else ([(here, Vdiff); (here, Verr e)], Ok s)
      | Ok s' => ([(here, Vdiff)], Ok s')
      end
    | Err e => if fatal e then ([], Err e) else ([(here, Verr e)], Ok s)
    end
  end.
Definition on_entry (o : dopt) (subtree : fpath -> bool) (names : list N -> bool) (fs : fpath -> lookup) (t : atree) (s : dst) : list dline * res dst :=
  let here := d_path (w_path s) in
  let dir := match t with Tdir _ _ => true | _ => false end in
  if subtree here && (dir || names (tname t)) then
    match t with
    | Tino i => on_inode o fs i false s
    | Tdir i _ => on_inode o fs i true s
    | Tmir i links =>
      if negb (match a_kind i with Afile _ _ _ _ _ => true | _ => false end) || (links =? 1) || negb (o_seq o) then on_inode o fs i false s
      else ([(here, Vnothing)], Ok s)
    | Tgone _ => ([(here, Vnothing)], Ok s)
    end
  else
    match (if dir then cat_up s else Ok s) with
    | Err e => if fatal e then ([(here, Vskipped)], Err e) else ([(here, Vskipped); (here, Verr e)], Ok s)
    | Ok s' => ([(here, Vskipped)], Ok s')
    end.
(** the message about a hard link when reading sequentially comes first, filtre.cpp:1262-1270 *)
Definition link_line (o : dopt) (t : atree) (here : fpath) : list dline :=
  match t with
  | Tmir i links => if negb (match a_kind i with Afile _ _ _ _ _ => true | _ => false end) || (links =? 1) || negb (o_seq o) then [] else [(here, Vlinkskipped)]
  | _ => []
  end.
(** catalogue::read: the next entry (None for cat_eod), or the end *)
Inductive nextread := Rend | Reod (st : list (list atree)) | Rent (t : atree) (st : list (list atree)).
Definition cat_read (st : list (list atree)) : nextread :=
  match st with
  | [] => Rend
  | (t :: l) :: up => Rent t (match t with Tdir _ ch => ch :: l :: up | _ => l :: up end)
  | [] :: [] => Rend
  | [] :: up => Reod up
  end.
(** filtre_difference, filtre.cpp:1252-1406: the lines reported, then how it ends *)
Fixpoint walk (fuel : nat) (o : dopt) (subtree : fpath -> bool) (names : list N -> bool) (fs : fpath -> lookup) (s : dst) : list dline * res unit :=
  match fuel with
  | O => ([], Err Fuel)
  | S fuel =>
    match cat_read (w_stack s) with
    | Rend => ([], let* _ := fs_up s in Ok tt)
    | Reod st =>
      match df_eod (w_path s) with
      | Err e => ([], Err e)
      | Ok d =>
        match fs_up (Dst st d (w_cur s) (w_pile s)) with
        | Err e => ([], Err e)
        | Ok s => walk fuel o subtree names fs s
        end
      end
    | Rent t st =>
      match df_enter (tname t) (match t with Tdir _ _ => true | _ => false end) (w_path s) with
      | Err e => ([], Err e)
      | Ok d =>
        let s := Dst st d (w_cur s) (w_pile s) in
        let '(lines, r) := on_entry o subtree names fs t s in
        let lines := link_line o t (d_path d) ++ lines in
        match r with
        | Err e => (lines, Err e)
        | Ok s => let '(more, r) := walk fuel o subtree names fs s in (lines ++ more, r)
        end
      end
    end
  end.
Fixpoint nodes (t : atree) : nat :=
  match t with Tdir _ ch => S (S ((fix go l := match l with [] => O | t :: l => (nodes t + go l)%nat end) ch)) | _ => 1%nat end.
Definition nodes_of (l : list atree) : nat := fold_right (fun t n => (nodes t + n)%nat) O l.
(** the start: reset_read of the catalogue and of the filesystem object, whose root directory is put in the pile (filesystem_diff.cpp:149-187); [juillet] starts with the path of the root
    (defile.hpp: init is true) *)
Definition difference (o : dopt) (subtree : fpath -> bool) (names : list N -> bool) (fs : fpath -> lookup) (root : list atree) : list dline * res unit :=
  walk (S (nodes_of root)) o subtree names fs (Dst [root] (Df [] true) [] 1).

(** the statistics, filtre.cpp:1307, 1326, 1356, 1360, 1368, 1402 *)
Definition treated (l : list dline) : nat := length (filter (fun x => match snd x with Vok | Vnothing => true | _ => false end) l).
Definition errored (l : list dline) : nat := length (filter (fun x => match snd x with Vdiff | Vmissing | Verr _ => true | _ => false end) l).
Definition ignored (l : list dline) : nat := length (filter (fun x => match snd x with Vskipped => true | _ => false end) l).
