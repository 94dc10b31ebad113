(** * Model of sequential reading: what a backup lays down between tape marks and how it is read back without the final
    catalogue being reachable (interrupted archives).

    Writer: src/libdar/filtre.cpp (filtre_sauvegarde, save_inode, save_ea), escape_catalogue.cpp:187-430 (the pre_add methods), ea.cpp.
    Reader: escape_catalogue.cpp:55-170 (constructor), 471-845 (read), 449-470 (skip_read_to_parent_dir), cat_file.cpp:1014-1105
    (get_crc), cat_inode.cpp:709-800 and 895-950 (get_ea, ea_get_crc), filtre.cpp:236-530 (filtre_restore),
    filesystem_restore.cpp:176-430 (write, in a place where nothing exists yet), filesystem_hard_link_write.cpp:330-400 (make_file).

    Simplifications: the stream is a list of data bytes and marks (EscapeSpec.v: C11 and C12 prove that the escape layer reads
    and searches it that way); no compression, no encryption, no sparse file detection; FSA are left out; options of the
    restoration are the defaults but for the filters ([cov] says whether a path is covered, knowing whether it is a directory) and lax; the archive is not signed. When a search
    fails or raises, data left unread before the next mark is of no consequence, since the next operation is a search too. A hard link to an inode
    met earlier is reported as such ([Olink]): what its restoration does when the first link was not restored is not modelled. *)
From Coq Require Import List.
From Verif Require Import Base InfinintModel CrcModel DatetimeModel HeaderModel PathModel EscapeModel EscapeSpec CatModel CatSpec.
Import ListNotations.
Open Scope N_scope.

(** tools_file_size_to_crc_size, tools.cpp:2099-2117 *)
Definition GIGA : N := 1073741824.
Definition crc_width (size : N) : nat :=
  if negb (size =? 0) then
    let q := size / GIGA in let r := size mod GIGA in
    N.to_nat (4 * (if negb (r =? 0) then q + 1 else q))
  else 1%nat.

(** ** extended attributes, ea.cpp *)
Definition eas := list (list N * list N).
(** write_pair_key, ea.cpp:211-218; dump, ea.cpp:100-110 *)
Definition pair_dump (p : list N * list N) : list N := write_string (fst p) ++ dumpN (N.of_nat (length (snd p))) ++ snd p.
Definition ea_dump (l : eas) : list N := dumpN (N.of_nat (length l)) ++ concat (map pair_dump l).
(** attr[key] = val, ea.cpp:62; the order of the entries of the map is not modelled *)
Fixpoint ea_set (k v : list N) (l : eas) : eas :=
  match l with [] => [(k, v)] | (k', v') :: r => if str_eqb k' k then (k, v) :: r else (k', v') :: ea_set k v r end.
(** constructor, ea.cpp:49-71, and read_pair_string, ea.cpp:185-209. [Err Fuel]: the loop of tools_read_string_size never ends when data is missing *)
Fixpoint ea_pairs (fuel : nat) (n : N) (acc : eas) (f : list N) : res (eas * list N) :=
  match fuel with
  | O => Err Fuel
  | S k =>
    if n =? 0 then Ok (acc, f) else
    let* '(key, f) := read_string f in
    let* '(len, f) := readN f in
    let* '(v, f) := read_string_size (S (S (length f))) len f in
    ea_pairs k (n - 1) (ea_set key v acc) f
  end.
Definition ea_read (f : list N) : res (eas * list N) := let* '(n, f) := readN f in ea_pairs (S (length f)) n [] f.

(** ** the writer *)
(** what follows the header of an entry: nothing; the mark telling that the file could not be opened (filtre.cpp:3320-3340); data without
    checksum because reading the file failed (the exception leaves save_inode, filtre.cpp:3566-3574); or data, saved again as long as the file changed
    meanwhile and skipping back was not possible (filtre.cpp:3690-3760), each copy with the size the file had by then *)
Inductive body :=
| Bnone
| Bfailed (wasted : list (N * list N))
| Baborted (wasted : list (N * list N)) (d : list N)
| Bdata (wasted : list (N * list N)) (last : N * list N) (dirty : bool).
(** what filtre_sauvegarde does for one entry; [r_sig] is what dump_delta_signature writes *)
Record rec := Rec { r_entry : entry; r_body : body; r_sig : option (list N); r_ea : eas }.
(** what the filesystem gives: entries, and the end of the current directory *)
Inductive event := Eput (r : rec) | Eend.

(** pre_add_crc, escape_catalogue.cpp:235-270, with the checksum computed by copy_to of width crc_width(size), filtre.cpp:3480-3520 *)
Definition copy_items (c : N * list N) : res (list item) :=
  let* k := crc_of (crc_width (fst c)) (snd c) in
  Ok (map D (snd c) ++ M seqt_file_crc :: map D (crc_dump k)).
Fixpoint wasted_items (l : list (N * list N)) : res (list item) :=
  match l with
  | [] => Ok []
  | c :: l => let* a := copy_items c in let* b := wasted_items l in Ok (a ++ M seqt_changed :: b)
  end.
Definition sig_items (s : option (list N)) : list item := match s with Some b => M seqt_delta_sig :: map D b | None => [] end.
(** pre_add_ea, save_ea, pre_add_ea_crc: filtre.cpp:977-986, 3915-3975, escape_catalogue.cpp:201-233 and 288-320 *)
Definition ea_items (i : cinode) (l : eas) : res (list item) :=
  match i_ea i with
  | EAfull =>
    let* s := opt_bug (i_ea_size i) in
    let* k := crc_of (crc_width s) (ea_dump l) in
    Ok (M seqt_ea :: map D (ea_dump l) ++ M seqt_ea_crc :: map D (crc_dump k))
  | _ => Ok []
  end.
(** the inode written with an entry, [None] for a link to an inode already written (filtre.cpp:664, 685-703) *)
Definition written (st : stars) (done : list N) (e : entry) : option cinode :=
  match e with
  | Eino i _ | Edir i _ => Some i
  | Emir _ a => if mem a done then None else match st a with Some s => Some (st_ino s) | None => None end
  | Eigndir i => Some (ignored_as_dir i)
  | Edet _ _ _ | Eign _ => None
  end.
(** body, delta signature and EA, filtre.cpp:640-1005 and save_inode 3090-3900 *)
Definition tail_items (st : stars) (done : list N) (r : rec) : res (list item) :=
  match r_body r with
  | Bfailed wasted => let* w := wasted_items wasted in Ok (w ++ [M seqt_failed_backup])
  | Baborted wasted d => let* w := wasted_items wasted in Ok (w ++ map D d)
  | Bnone =>
    match written st done (r_entry r) with
    | None => Ok []
    | Some i => let* x := ea_items i (r_ea r) in Ok (sig_items (r_sig r) ++ x)
    end
  | Bdata wasted last dirty =>
    match written st done (r_entry r) with
    | None => Err Ebug
    | Some i =>
      let* w := wasted_items wasted in
      let* l := copy_items last in
      let* x := ea_items i (r_ea r) in
      Ok (w ++ l ++ (if dirty then [M seqt_dirty] else []) ++ sig_items (r_sig r) ++ x)
    end
  end.
(** pre_add, escape_catalogue.cpp:187-199, then the rest *)
Definition rec_items (st : stars) (done : list N) (r : rec) : res (list item) :=
  let* h := small_dump st done (r_entry r) in
  let* t := tail_items st done r in
  Ok (M seqt_file :: map D h ++ t).
(** set_inode_wrote(true), filtre.cpp:998-999, not reached when an exception left save_inode *)
Definition rec_marks (st : stars) (done : list N) (r : rec) : list N :=
  match r_body r, r_entry r with
  | Bfailed _, _ | Baborted _ _, _ => done
  | _, Emir _ a => if mem a done then done else a :: done
  | _, _ => done
  end.
(** cat_eod inlined at the end of a directory, filtre.cpp:1144 and cat_entree.cpp:310-349 *)
Definition eod_items : res (list item) :=
  let* z := eod_dump in let* k := crc_of ENTREE_CRC_SIZE z in Ok (M seqt_file :: map D (z ++ crc_dump k)).
(** the loop of filtre_sauvegarde, filtre.cpp:640-1185 *)
Fixpoint events_items (st : stars) (done : list N) (evs : list event) : res (list item) :=
  match evs with
  | [] => Ok []
  | Eput r :: evs => let* a := rec_items st done r in let* b := events_items st (rec_marks st done r) evs in Ok (a ++ b)
  | Eend :: evs => let* a := eod_items in let* b := events_items st done evs in Ok (a ++ b)
  end.
(** data name (escape_catalogue.cpp:50-53), in-place path (escape_catalogue.cpp:878-907), entries, catalogue (macro_tools.cpp:1728-1750) *)
Definition head_items (c : catalogue) : list item :=
  M seqt_data_name :: map D (k_label c) ++ M seqt_in_place :: map D (write_string (display (k_place c))).
Definition archive_items (st : stars) (evs : list event) (c : catalogue) : res (list item) :=
  let* a := events_items st [] evs in
  let* '(b, _) := cat_dump [] c in
  Ok (head_items c ++ a ++ M seqt_catalogue :: map D b).

(** ** the reader *)
(** the only mark a search cannot jump over, macro_tools.cpp:886-889 *)
Definition UNJ : list seqt := [seqt_catalogue].
(** skip_to_next_mark(t, false) *)
Definition find (t : seqt) (its : list item) : bool * list item := search t false UNJ its.

(** what happens to an entry given to the restoration: not covered; no data to restore; link to an inode met before; created with its data, the fact it is dirty
    and its EA; error reported; the program never comes back; uninitialised memory was compared *)
Inductive outcome := Oskip | Onothing | Olink (t : N) | Odone (data : option (list N)) (dirty : bool) (ea : option eas) | Oerr | Ohang | Oundef.
Inductive wres := Wbad | Wea_bad | Whang | Wundef | Wok (data : option (list N)) (ea : option eas).

(** cat_file::get_data + copy_to + get_crc + comparison, filesystem_hard_link_write.cpp:335-385, cat_file.cpp:1048-1078 *)
Definition data_get (size : N) (its : list item) : res (list N) * list item :=
  let d := data_before its in
  let '(ok, its) := find seqt_file_crc its in
  if negb ok then (Err Erange, its) else
  match crc_get (data_before its) with
  | Err UB => (Err UB, its)
  | Err _ => (Err Erange, its)
  | Ok (k, rest) =>
    let its := map D rest ++ after_data its in
    match crc_of (crc_width size) d with
    | Err e => (Err e, its)
    | Ok k' => if crc_eq k' k then (Ok d, its) else (Err Erange, its)
    end
  end.
(** get_ea and ea_get_crc, cat_inode.cpp:709-800 and 895-950 *)
Definition ea_get (i : cinode) (its : list item) : res (option eas) * list item :=
  match i_ea i with
  | EAfull =>
    let '(_, its) := find seqt_delta_sig its in
    let '(ok, its) := find seqt_ea its in
    if negb ok then (Err Erange, its) else
    let d := data_before its in
    match ea_read d with
    | Err Fuel => (Err Fuel, its)
    | Err _ => (Err Erange, its)
    | Ok (l, rest) =>
      let width := match i_ea_size i with Some s => if s =? 0 then 2%nat else crc_width s | None => 2%nat end in
      match crc_of width (firstn (length d - length rest) d) with
      | Err e => (Err e, its)
      | Ok k =>
        let '(ok, its) := find seqt_ea_crc its in
        if negb ok then (Err Erange, its) else
        match crc_get (data_before its) with
        | Err UB => (Err UB, its)
        | Err _ => (Err Erange, its)
        | Ok (k', rest) => (if crc_eq k k' then Ok (Some l) else Err Erange, map D rest ++ after_data its)
        end
      end
    end
  | EAremo => (Ok (Some []), its)
  | _ => (Ok None, its)
  end.
(** creation then EA, filesystem_restore.cpp:283-330; data_restored is set between both *)
Definition write_new (size : option N) (i : cinode) (its : list item) : wres * list item :=
  let '(d, its) := match size with Some s => let '(d, its) := data_get s its in (let* d := d in Ok (Some d), its) | None => (Ok None, its) end in
  match d with
  | Err UB => (Wundef, its)
  | Err _ => (Wbad, its)
  | Ok d =>
    let '(x, its) := ea_get i its in
    match x with Ok x => (Wok d x, its) | Err Fuel => (Whang, its) | Err UB => (Wundef, its) | Err _ => (Wea_bad, its) end
  end.
(** filesystem_restore::write without anything of that name in place, filesystem_restore.cpp:234-410 *)
Definition write (isdir : bool) (size : option N) (i : cinode) (its : list item) : wres * list item :=
  match i_saved i with
  | Sdelta | Sinode_only => (Wbad, its)
  | Ssaved => write_new size i its
  | _ => if isdir then write_new None i its else (Wbad, its)
  end.
(** the loop on copies, filtre.cpp:303-372; one more turn needs a mark to be there, so [fuel] is the number of items *)
Fixpoint copies (fuel : nat) (isdir : bool) (size : option N) (i : cinode) (its : list item) : outcome * list item :=
  match fuel with
  | O => (Oerr, its)
  | S k =>
    let '(w, its) := write isdir size i its in
    match w with
    | Whang => (Ohang, its)
    | Wundef => (Oundef, its)
    | _ =>
      let '(again, its) := find seqt_changed its in
      if again && match w with Wok _ _ | Wea_bad => true | _ => false end then copies k isdir size i its
      else match w with
           | Wok d x => let '(dy, its) := find seqt_dirty its in (Odone d dy x, its)
           | _ => (Oerr, its)
           end
    end
  end.
Definition file_size (k : kind) : option N := match k with Kfile c | Kdoor c => Some (c_size c) | _ => None end.
(** a status that leaves nothing to do for what is not a directory, filesystem_restore.cpp:404-411; the searches of filtre.cpp:370-377 still take place *)
Definition idle (s : sstatus) : bool := match s with Snot_saved | Sfake => true | _ => false end.
Definition after_idle (its : list item) : list item := snd (find seqt_dirty (snd (find seqt_changed its))).
Definition restore_inode (isdir : bool) (size : option N) (i : cinode) (its : list item) : outcome * list item :=
  if negb isdir && idle (i_saved i) then (Onothing, after_idle its) else copies (S (length its)) isdir size i its.
(** the entry given by the catalogue; [co0] is the map before this entry was read: a link of it is to an inode met before *)
Definition restore_entry (co0 co : corres) (e : entry) (its : list item) : outcome * list item :=
  match e with
  | Eino i k => restore_inode false (file_size k) i its
  | Edir i _ => restore_inode true None i its
  | Emir _ t =>
    match lookup t co with
    | None => (Oerr, its)
    | Some s =>
      match lookup (st_etiq s) co0, i_saved (st_ino s) with      (* known_etiquette(get_etiquette()) *)
      | Some _, Ssaved => (Olink (st_etiq s), after_idle its)
      | _, _ => restore_inode false (file_size (st_kind s)) (st_ino s) its
      end
    end
  | Edet _ _ _ => (Oerr, after_idle its)
  | Eign _ | Eigndir _ => (Oerr, its)
  end.

(** the innermost name first: juillet of filtre.cpp, current_dir and stack_dir of filesystem_restore.cpp *)
Definition dirpath := list (list N).
(** a line of the report: where, what the archive says of the entry, what became of it *)
Record line := Line { l_path : dirpath; l_what : list vnode; l_out : outcome }.
(** how the reading ends: with the entries to remove found in the catalogue; with the whole catalogue when nothing was read (isolated catalogue); normally without catalogue (lax);
    with an exception *)
Inductive fin := Fend (removed : list (dirpath * N * datetime)) | Fwhole (c : catalogue) | Fnormal | Fexn (e : exn).
(** escape_catalogue.hpp:150-175: corres, depth, wait_parent_depth, has_read_data; the stack of the consumer *)
Record rst := Rst { s_co : corres; s_depth : nat; s_wait : nat; s_read : bool; s_stack : dirpath }.

Definition name_of (e : entry) : list N :=
  match e with Eino i _ | Edir i _ | Eigndir i => i_name i | Emir n _ | Edet n _ _ | Eign n => n end.
Definition is_dir (e : entry) : bool := match e with Edir _ _ => true | _ => false end.
(** the entries to remove, with their paths: the catalogue read keeping only them, escape_catalogue.cpp:689-780 *)
Fixpoint removed (at_ : dirpath) (e : entry) : list (dirpath * N * datetime) :=
  match e with
  | Edet n s d => [(n :: at_, s, d)]
  | Edir i ch => concat (map (removed (i_name i :: at_)) ch)
  | _ => []
  end.
Definition removals (c : catalogue) : list (dirpath * N * datetime) := concat (map (removed []) (k_children c)).
(** next_to_read_is_mark(seqt_failed_backup) with [rest] still to be read before the next mark *)
Definition next_failed (rest : list N) (its : list item) : bool :=
  match rest, its with [], M seqt_failed_backup :: _ => true | _, _ => false end.
Definition erange (e : exn) : bool := match e with Erange => true | _ => false end.
Definition cons_line (l : line) (x : list line * fin) : list line * fin := (l :: fst x, snd x).

(** no more entry, escape_catalogue.cpp:627-682: the missing ends of directories are given to the consumer (a pop on an empty
    stack is SRC_BUG, filesystem_restore.cpp:219-220), then the catalogue is searched. In lax mode an error while reading the catalogue is not
    modelled differently. *)
Definition finish (lax : bool) (algo : compression) (s : rst) (its : list item) : fin :=
  if (length (s_stack s) <? s_depth s)%nat then Fexn Ebug else
  let '(ok, its) := search seqt_catalogue true UNJ its in
  if ok then
    match cat_read algo (data_before its) with
    | Ok (c, _) => if s_read s || (0 <? s_depth s)%nat then Fend (removals c) else Fwhole c
    | Err e => Fexn e
    end
  else if lax then Fnormal else Fexn Erange.

(** escape_catalogue::read in the states ec_init and ec_marks (escape_catalogue.cpp:500-625), each entry being passed to the loop of filtre_restore
    (filtre.cpp:242-530); one turn consumes a mark *)
Fixpoint run (fuel : nat) (lax : bool) (algo : compression) (cov : dirpath -> bool -> bool) (s : rst) (its : list item) : list line * fin :=
  match fuel with
  | O => ([], Fexn Fuel)
  | S n =>
    let '(ok, its) := search seqt_file true UNJ its in
    if negb ok then ([], finish lax algo s its) else
    match small_read algo (s_co s) (data_before its) with
    | Err e => if lax && erange e then run n lax algo cov s its else ([], Fexn e)
    | Ok None => if next_failed (skipn 1 (data_before its)) (after_data its) then run n lax algo cov s (after_data its) else ([], Fexn Erange)
    | Ok (Some (x, co, rest)) =>
      if next_failed rest (after_data its) then run n lax algo cov (Rst co (s_depth s) (s_wait s) (s_read s) (s_stack s)) (after_data its) else
      let its := map D rest ++ after_data its in
      match x with
      | None =>
        match s_depth s with
        | O => if lax then run n lax algo cov (Rst co O (s_wait s) (s_read s) (s_stack s)) its else ([], Fexn Erange)
        | S depth =>
          if (0 <? s_wait s)%nat then
            run n lax algo cov (Rst co depth (if (depth <? s_wait s)%nat then O else s_wait s) (s_read s) (s_stack s)) its
          else
            match s_stack s with
            | [] => ([], Fexn Ebug)
            | _ :: up => run n lax algo cov (Rst co depth O true up) its
            end
        end
      | Some e =>
        let depth := if is_dir e then S (s_depth s) else s_depth s in
        if (0 <? s_wait s)%nat then
          if (depth <? s_wait s)%nat then ([], Fexn Ebug) else run n lax algo cov (Rst co depth (s_wait s) (s_read s) (s_stack s)) its
        else
          let here := name_of e :: s_stack s in
          let what := shown true (fun t => lookup t co) e in
          if cov here (is_dir e) then
            let '(o, its) := restore_entry (s_co s) co e its in
            let next := run n lax algo cov
              (Rst co depth (if is_dir e then match o with Odone _ _ _ => O | _ => depth end else O) true
                   (if is_dir e then match o with Odone _ _ _ => here | _ => s_stack s end else s_stack s)) its in
            cons_line (Line here what o) (match o with Ohang => ([], Fexn Fuel) | Oundef => ([], Fexn UB) | _ => next end)
          else cons_line (Line here what Oskip) (run n lax algo cov (Rst co depth (if is_dir e then depth else O) true (s_stack s)) its)
      end
    end
  end.

(** the constructor of escape_catalogue, escape_catalogue.cpp:76-170 *)
Definition seq_open (lax : bool) (its : list item) : res (list item) :=
  let '(ok, its) := find seqt_data_name its in
  let* its :=
    if ok then match label_read (data_before its) with
               | Ok (_, rest) => Ok (map D rest ++ after_data its)
               | Err _ => if lax then Ok its else Err Erange
               end
    else if lax then Ok its else Err Erange in
  let '(ok, its) := find seqt_in_place its in
  if ok then
    match (let* '(s, rest) := read_string (data_before its) in
           let* p := path_make s false in
           if relative p && negb (str_eqb (display p) dot) then Err Erange else Ok rest) with
    | Ok rest => Ok (map D rest ++ after_data its)
    | Err e => if lax then Ok its else Err e
    end
  else if lax then Ok its else Err Erange.
Definition seq_read (lax : bool) (algo : compression) (cov : dirpath -> bool -> bool) (its : list item) : list line * fin :=
  match seq_open lax its with
  | Err e => ([], Fexn e)
  | Ok its => run (S (S (length its))) lax algo cov (Rst [] O O false []) its
  end.
