(** C40: full and differential backups of a directory tree, and their restoration over an existing directory tree.

    Sources: src/libdar/filtre.cpp (filtre_sauvegarde 545-1200, filtre_restore 179-543), src/libdar/catalogue.cpp (compare 519-626,
    update_destroyed_with 628-721, read 312-345, skip_read_to_parent_dir 301-310), src/libdar/filesystem_restore.cpp (write 176-640,
    action_over_remove 643-690, action_over_data 692-886, action_over_ea 888-1047), src/libdar/filesystem_hard_link_write.cpp
    (make_file 206-470, raw_set_ea, raw_clear_ea_set), src/libdar/filesystem_tools.cpp (supprime 149-178, widen_perm 180-226,
    make_owner_perm 228-292, make_date 294-324).

    Left out (see DESIGN.md): hard links, FSA, delta patches, metadata-only entries (inode_only), dirty files, sequential reading, the
    access date, snapshots and backups made against a fixed date, "dry-run" (empty), flat and only_deleted restorations, user questions.
    libdar runs as root, and what_to_check is "all". *)
From Verif Require Import Base DatetimeModel CritModel.
From Coq Require Import NArith List Bool Lia.
Import ListNotations.
Open Scope N_scope.
Local Set Warnings "-notation-overridden".

Notation name := (list N).
(** path relative to the root of the backup or restoration, innermost name first *)
Notation rpath := (list (list N)).

(** std::string comparison *)
Definition name_eqb (a b : name) : bool := if list_eq_dec N.eq_dec a b then true else false.
(** association lists: the entries of a directory, and the EA of an inode *)
Section Assoc.
Context {A : Type}.
Fixpoint aget (n : name) (l : list (name * A)) : option A :=
  match l with [] => None | (m, a) :: r => if name_eqb n m then Some a else aget n r end.
Fixpoint aset (n : name) (a : A) (l : list (name * A)) : list (name * A) :=
  match l with [] => [(n, a)] | (m, b) :: r => if name_eqb n m then (m, a) :: r else (m, b) :: aset n a r end.
Fixpoint adel (n : name) (l : list (name * A)) : list (name * A) :=
  match l with [] => [] | (m, b) :: r => if name_eqb n m then adel n r else (m, b) :: adel n r end.
End Assoc.

(** what cat_entree::signature() tells of an inode: plain file, directory, symbolic link, or another type *)
Inductive fkind := KFile | KDir | KLink | KOther (sig : N).
Definition kind_eqb (a b : fkind) : bool :=
  match a, b with KFile, KFile => true | KDir, KDir => true | KLink, KLink => true | KOther x, KOther y => x =? y | _, _ => false end.
Definition is_dir (k : fkind) : bool := match k with KDir => true | _ => false end.

(** an inode of a filesystem: h_data stands for the data of a file, the target of a symbolic link, the numbers of a device *)
Record head := Head { h_kind : fkind; h_uid : N; h_gid : N; h_perm : N; h_mtime : datetime; h_ctime : datetime;
  h_data : list N; h_ea : list (name * list N) }.
(** a directory tree: only directories have entries *)
Inductive node := Node (h : head) (ch : list (name * node)).
Definition hd_of (t : node) : head := match t with Node h _ => h end.
Definition ch_of (t : node) : list (name * node) := match t with Node _ c => c end.

(** ea_saved_status of an entry of the archive, with the EA the archive holds *)
Inductive eastat := EA_none | EA_partial | EA_full (l : list (name * list N)) | EA_removed.
(** an inode of the catalogue; c_saved: saved_status::saved, otherwise not_saved; c_data: what the archive holds when saved *)
Record chead := CHead { c_kind : fkind; c_uid : N; c_gid : N; c_perm : N; c_mtime : datetime; c_ctime : datetime; c_size : N;
  c_saved : bool; c_data : list N; c_ea : eastat }.
(** cat_inode (and, for a cat_directory, its entries), cat_detruit with the type of the removed entry, cat_ignored *)
Inductive cnode := CIno (h : chead) (ch : list (name * cnode)) | CDet (k : fkind) | CIgn.

(** ---------- backup ---------- *)
Section Backup.
Variable cap : time_unit.        (* clock precision used by has_changed_since *)
Variable hourshift : N.
Variable cov : rpath -> bool.    (* subtree and name filters *)

Definition size_of (h : head) : N := N.of_nat (length (h_data h)).
Definition ino_of_head (h : head) : inode := {| i_uid := h_uid h; i_gid := h_gid h; i_perm := h_perm h; i_mod := h_mtime h; i_size := size_of h |}.
Definition ino_of_chead (c : chead) : inode := {| i_uid := c_uid c; i_gid := c_gid c; i_perm := c_perm c; i_mod := c_mtime c; i_size := c_size c |}.
(** e_ino->has_changed_since(f_ino, hourshift, what_to_check): cat_inode.cpp:379-398, and cat_file.cpp for a plain file (PropChange.v
    shows that the comparison always answers) *)
Definition changed (h : head) (f : chead) : bool :=
  match (if kind_eqb (h_kind h) KFile then file_has_changed_since cap (ino_of_head h) (ino_of_chead f) hourshift F_all
         else has_changed_since cap (ino_of_head h) (ino_of_chead f) hourshift F_all) with Ok b => b | Err _ => true end.
(** e_ino->get_last_change() <= f_ino->get_last_change() || loose_equal: filtre.cpp:810; a <= b is !(b < a), datetime.hpp *)
Definition ctime_old (h : head) (f : chead) : bool :=
  match dt_lt (c_ctime f) (h_ctime h) with Ok b => negb b | Err _ => false end
  || match loose_equal (h_ctime h) (c_ctime f) with Ok b => b | Err _ => false end.
Definition has_ea_recorded (e : eastat) : bool := match e with EA_none => false | _ => true end.
(** filtre_sauvegarde, filtre.cpp:777-905: change_to_remove_ea, avoid_saving_inode, avoid_saving_ea and the resulting statuses; the
    inode comes from the filesystem with its data and, if it has any, its EA *)
Definition save_head (h : head) (f : option chead) : chead :=
  let change_to_remove_ea := match f with
    | Some fh => match h_ea h, c_ea fh with [], EA_partial => true | [], EA_full _ => true | _, _ => false end
    | None => false end in
  let avoid_saving_inode := match f with Some fh => negb (changed h fh) | None => false end in
  let avoid_saving_ea := match f with
    | Some fh => match h_ea h with [] => false | _ => has_ea_recorded (c_ea fh) && ctime_old h fh end
    | None => false end in
  {| c_kind := h_kind h; c_uid := h_uid h; c_gid := h_gid h; c_perm := h_perm h; c_mtime := h_mtime h; c_ctime := h_ctime h;
     c_size := size_of h; c_saved := negb avoid_saving_inode; c_data := if avoid_saving_inode then [] else h_data h;
     c_ea := if change_to_remove_ea then EA_removed
             else match h_ea h with [] => EA_none | l => if avoid_saving_ea then EA_partial else EA_full l end |}.

(** catalogue::compare, catalogue.cpp:519-626, for the entry found under that name in the directory of the reference (None also when
    the directory does not exist there: out_compare): the inode to compare with, if it has the same type, and the directory below *)
Definition ref_inode (h : head) (f : option cnode) : option chead :=
  match f with Some (CIno fh _) => if kind_eqb (h_kind h) (c_kind fh) then Some fh else None | _ => None end.
Definition ref_below (f : option cnode) : option (list (name * cnode)) :=
  match f with Some (CIno fh fch) => if is_dir (c_kind fh) then Some fch else None | _ => None end.
Definition ref_child (below : option (list (name * cnode))) (n : name) : option cnode :=
  match below with Some l => aget n l | None => None end.
(** the walk of filtre_sauvegarde over a directory; an entry the filters exclude is recorded as cat_ignored (filtre.cpp:1023-1044) *)
Fixpoint save_node (rp : rpath) (f : option cnode) (t : node) : cnode :=
  match t with
  | Node h ch =>
    CIno (save_head h (ref_inode h f))
      ((fix go (l : list (name * node)) := match l with
        | [] => []
        | (n, c) :: r => (n, if cov (n :: rp) then save_node (n :: rp) (ref_child (ref_below f) n) c else CIgn) :: go r end) ch)
  end.
Definition save_list (rp : rpath) (below : option (list (name * cnode))) :=
  fix go (l : list (name * node)) := match l with
  | [] => []
  | (n, c) :: r => (n, if cov (n :: rp) then save_node (n :: rp) (ref_child below n) c else CIgn) :: go r end.

(** update_destroyed_with, catalogue.cpp:628-721: the reference is read in order; what is missing from the new catalogue is added as a
    cat_detruit (add_children puts it last), and the reading goes into the directories present on both sides only *)
Fixpoint destroyed (ref : cnode) (cur : list (name * cnode)) : list (name * cnode) :=
  match ref with
  | CIno _ ch =>
    (fix go (l : list (name * cnode)) (cur : list (name * cnode)) := match l with
      | [] => cur
      | (n, x) :: r =>
        go r (match x with
          | CIno xh xch => match aget n cur with
            | None => cur ++ [(n, CDet (c_kind xh))]
            | Some (CIno yh ych) => if is_dir (c_kind xh) && is_dir (c_kind yh) then aset n (CIno yh (destroyed x ych)) cur else cur
            | Some _ => cur end
          | _ => cur end)
      end) ch cur
  | _ => cur
  end.
Definition destroyed_list :=
  fix go (l : list (name * cnode)) (cur : list (name * cnode)) := match l with
      | [] => cur
      | (n, x) :: r =>
        go r (match x with
          | CIno xh xch => match aget n cur with
            | None => cur ++ [(n, CDet (c_kind xh))]
            | Some (CIno yh ych) => if is_dir (c_kind xh) && is_dir (c_kind yh) then aset n (CIno yh (destroyed x ych)) cur else cur
            | Some _ => cur end
          | _ => cur end)
      end.

(** cat_directory::inherited_dump, cat_directory.cpp:219-260: the cat_ignored entries are not written to the archive *)
Fixpoint written (x : cnode) : cnode :=
  match x with
  | CIno h ch => CIno h ((fix go (l : list (name * cnode)) := match l with
      | [] => []
      | (_, CIgn) :: r => go r
      | (n, c) :: r => (n, written c) :: go r end) ch)
  | _ => x
  end.
Definition written_list :=
  fix go (l : list (name * cnode)) := match l with
      | [] => []
      | (_, CIgn) :: r => go r
      | (n, c) :: r => (n, written c) :: go r end.

(** op_create (i_archive.cpp): filtre_sauvegarde, then update_destroyed_with, then the catalogue is dropped. The root directory itself
    is not an entry. The reference of a full backup is an empty catalogue. *)
Definition backup (ref : list (name * cnode)) (tree : list (name * node)) : list (name * cnode) :=
  written_list (destroyed_list ref (save_list [] (Some ref) tree)).
End Backup.

(** ---------- restoration ---------- *)
Section Restore.
(** the owner given to a new inode, and the time of the restoration (one value: it only matters that it is not the archive's) *)
Variables (me_uid me_gid : N) (now : datetime).
(** overwriting policy (crit_action::get_action, C24), with the answers of the user when it asks *)
Variable pol : head -> cnode -> adata * aea.
(** filters of the restoration: path of the entry, and whether it is a directory *)
Variable cov : rpath -> bool -> bool.

(** ea_attributs::operator+, and the effect of ea_filesystem_write_ea: every attribute of the second is set over the first *)
Definition ea_write (old l : list (name * list N)) : list (name * list N) := fold_left (fun acc kv => aset (fst kv) (snd kv) acc) l old.
Definition with_ea (h : head) (l : list (name * list N)) : head :=
  Head (h_kind h) (h_uid h) (h_gid h) (h_perm h) (h_mtime h) (h_ctime h) (h_data h) l.
Definition with_mtime (h : head) (d : datetime) : head :=
  Head (h_kind h) (h_uid h) (h_gid h) (h_perm h) d (h_ctime h) (h_data h) (h_ea h).
Definition with_perm (h : head) (p : N) : head :=
  Head (h_kind h) (h_uid h) (h_gid h) p (h_mtime h) (h_ctime h) (h_data h) (h_ea h).
(** make_date then make_owner_perm, filesystem_tools.cpp:228-324; the permissions of a symbolic link are not set *)
Definition with_meta (h : head) (x : chead) : head :=
  Head (h_kind h) (c_uid x) (c_gid x) (match c_kind x with KLink => h_perm h | _ => c_perm x end) (c_mtime x) (h_ctime h) (h_data h) (h_ea h).

(** a system call that adds or removes an entry changes the modification date of the directory *)
Definition touch (d : node) (ch : list (name * node)) : node := Node (with_mtime (hd_of d) now) ch.
Definition create (n : name) (h : head) (d : node) : node := touch d (ch_of d ++ [(n, Node h [])]).
Definition remove (n : name) (d : node) : node := touch d (adel n (ch_of d)).
(** a change of the inode of an existing entry; nothing if there is no such entry *)
Definition on_child (n : name) (f : head -> head) (d : node) : node :=
  match aget n (ch_of d) with Some (Node h c) => Node (hd_of d) (aset n (Node (f h) c) (ch_of d)) | None => d end.

(** make_file, filesystem_hard_link_write.cpp:206-470: 0700, except for a symbolic link *)
Definition link_perm : N := 511.
Definition fresh (x : chead) : head :=
  Head (c_kind x) me_uid me_gid (match c_kind x with KLink => link_perm | _ => 448 end) now now (c_data x) [].

Inductive wout := WOk (push : option bool) | WErr.
(** result of write(): the current directory, whether its date is to be set back (stack_dir.back().set_restore_date(true)), and the
    outcome: an error, or done, with the directory to enter, if any, and its restore_date *)
Definition wres := (node * bool * wout)%type.

(** write(), no entry of that name in the filesystem: filesystem_restore.cpp:300-433 *)
Definition write_new (d : node) (n : name) (x : cnode) : wres :=
  match x with
  | CDet _ => (d, false, WErr)
  | CIgn => (d, false, WOk None)
  | CIno xh _ =>
    if c_saved xh || is_dir (c_kind xh) then
      let h := fresh xh in
      let h := match c_ea xh with EA_full l => with_ea h (ea_write (h_ea h) l) | _ => h end in
      let h := if is_dir (c_kind xh) then h else with_meta h xh in
      let h := match c_ea xh with EA_full l => with_ea h (ea_write (h_ea h) l) | _ => h end in
      (create n h d, true, WOk (if is_dir (c_kind xh) then Some true else None))
    else (d, false, WOk None)
  end.

(** action_over_ea, filesystem_restore.cpp:888-1047: the EA once done, and whether they have been restored; errors are caught by write.
    ip: the EA that were in place when the entry was found; cur: the EA now *)
Definition over_ea (a : aea) (xe : eastat) (ip cur : list (name * list N)) : list (name * list N) * bool :=
  let a := match a, ip with A_merge_preserve, [] => A_overwrite | A_merge_overwrite, [] => A_overwrite | _, _ => a end in
  let a := match a, xe with A_merge_preserve, EA_removed => A_clear | A_merge_overwrite, EA_removed => A_clear | _, _ => a end in
  let xl := match xe with EA_full l => l | _ => [] end in
  match a with
  | A_preserve | A_preserve_mark => (cur, false)
  | A_overwrite | A_overwrite_mark => (ea_write [] xl, true)
  | A_clear => ([], true)
  | A_merge_preserve => (ea_write cur (ea_write xl ip), true)
  | A_merge_overwrite => (ea_write cur (ea_write ip xl), true)
  | A_undefined | A_ask => (cur, false)
  end.

Inductive dres := DRestored | DPolicy | DRemoved | DNoData.
Definition is_remove (a : adata) : bool := match a with D_remove => true | _ => false end.
(** action_over_data, filesystem_restore.cpp:692-886 *)
Definition over_data (d : node) (n : name) (eh : head) (xh : chead) (a : adata) : node * option dres :=
  match a with
  | D_preserve | D_preserve_mark =>
    if is_dir (c_kind xh) && negb (kind_eqb (c_kind xh) (h_kind eh)) then (d, None) else (d, Some DPolicy)
  | D_overwrite | D_overwrite_mark =>
    if is_dir (c_kind xh) && kind_eqb (c_kind xh) (h_kind eh)
    then (on_child n (fun h => with_perm h (N.lor (c_perm xh) 128)) d, Some DRestored)
    else
      let d := create n (fresh xh) (remove n d) in
      (on_child n (fun h => with_ea h (ea_write (h_ea h) (h_ea eh))) d, Some DRestored)
  | D_remove => (remove n d, Some DRemoved)
  | D_undefined | D_ask => (d, None)
  end.

(** write(), an entry of that name is in the filesystem: filesystem_restore.cpp:434-621 *)
Definition write_over (d : node) (n : name) (eh : head) (x : cnode) : wres :=
  let '(da, ea) := pol eh x in
  match x with
  | CIgn => (d, false, WOk None)
  | CDet _ => match da with
    | D_preserve | D_preserve_mark => (d, true, WOk None)
    | D_overwrite | D_overwrite_mark | D_remove => (remove n d, true, WOk None)
    | D_undefined | D_ask => (d, false, WErr)
    end
  | CIno xh _ =>
    match (if c_saved xh then over_data d n eh xh da else (d, Some DNoData)) with
    | (d, None) => (d, false, WErr)
    | (d, Some done) =>
      let restored := match done with DRestored => true | _ => false end in
      let ea_saved := match c_ea xh with EA_full _ | EA_removed => true | _ => false end in
      let act := fun h => with_ea h (fst (over_ea ea (c_ea xh) (h_ea eh) (h_ea h))) in
      let ea_restored := negb (is_remove da) && ea_saved && snd (over_ea ea (c_ea xh) (h_ea eh) []) in
      let d := if negb (is_remove da) && ea_saved then on_child n act d else d in
      let missing := match aget n (ch_of d) with Some _ => false | None => true end in
      if (ea_saved || c_saved xh) && negb restored && missing then (d, false, WErr)
      else
        let d := if ea_saved || c_saved xh then
                   if restored then (if is_dir (h_kind eh) then d else on_child n (fun h => with_meta h xh) d)
                   else on_child n (fun h => with_mtime h (h_mtime eh)) d
                 else d in
        let d := if ea_restored then on_child n act d else d in
        (d, is_remove da || restored,
         WOk (if is_dir (c_kind xh) && (is_dir (h_kind eh) || restored) then Some restored else None))
    end
  end.

Definition write1 (d : node) (n : name) (x : cnode) : wres :=
  match aget n (ch_of d) with None => write_new d n x | Some e => write_over d n (hd_of e) x end.

(** the tree of the filesystem, addressed by paths (outermost name first) *)
Fixpoint fget (p : rpath) (t : node) : option node :=
  match p with [] => Some t | n :: r => match aget n (ch_of t) with Some c => fget r c | None => None end end.
Fixpoint fput (p : rpath) (v : node) (t : node) : node :=
  match p with
  | [] => v
  | n :: r => match aget n (ch_of t) with Some c => Node (hd_of t) (aset n (fput r v c) (ch_of t)) | None => t end
  end.
Definition dir_at (cur : rpath) (t : node) : option node :=
  match fget (rev cur) t with Some d => if is_dir (h_kind (hd_of d)) then Some d else None | None => None end.

(** reading of the catalogue: the directories being read, innermost first, with what remains to be read in each *)
Record rframe := RF { rf_name : name; rf_rest : list (name * cnode) }.
(** stack_dir: the directories entered by write(), innermost first *)
Record sframe := SF { sf_name : name; sf_head : chead; sf_date : bool }.
(** fs: the filesystem; cur: current_dir, relative to fs_root; errs: statistics::errored *)
Record rstate := RS { fs : node; cur : rpath; stk : list sframe; rd : list rframe; errs : nat }.
Inductive rout := Running (s : rstate) | Finished (s : rstate) | Aborted (s : rstate).

Definition mark (b : bool) (s : list sframe) : list sframe :=
  match s with [] => [] | f :: r => if b then SF (sf_name f) (sf_head f) true :: r else s end.

(** write() of a cat_eod: filesystem_restore.cpp:199-225; an error here ends the restoration (filtre.cpp:525-533 is out of the try) *)
Definition eod (s : rstate) : rout :=
  let c := tl (cur s) in
  match stk s with
  | [] => Aborted s
  | f :: r =>
    if sf_date f then
      match fget (rev (sf_name f :: c)) (fs s) with
      | None => Aborted s
      | Some (Node h ch) => Running (RS (fput (rev (sf_name f :: c)) (Node (with_meta h (sf_head f)) ch) (fs s)) c r (rd s) (errs s))
      end
    else Running (RS (fs s) c r (rd s) (errs s))
  end.

(** one turn of the loop of filtre_restore, filtre.cpp:240-534 *)
Definition rstep (s : rstate) : rout :=
  match rd s with
  | [] => Finished s
  | fr :: up =>
    match rf_rest fr with
    | [] => match up with [] => Finished s | _ => eod (RS (fs s) (cur s) (stk s) up (errs s)) end
    | (n, x) :: rest =>
      let rd1 := RF (rf_name fr) rest :: up in
      let xdir := match x with CIno xh _ => is_dir (c_kind xh) | _ => false end in
      let rd2 := match x with CIno xh ch => if is_dir (c_kind xh) then RF n ch :: rd1 else rd1 | _ => rd1 end in
      let pth := n :: removelast (map rf_name rd1) in
      if cov pth xdir then
        let failed s1 := Running (RS s1 (cur s) (stk s) rd1 (S (errs s))) in
        match dir_at (cur s) (fs s) with
        | None =>
          (* the current directory does not exist, or is not one: nothing is found there, nothing can be created *)
          match x with
          | CIno xh _ => if c_saved xh || is_dir (c_kind xh) then failed (fs s) else Running (RS (fs s) (cur s) (stk s) rd2 (errs s))
          | CDet _ => failed (fs s)
          | CIgn => Running (RS (fs s) (cur s) (stk s) rd2 (errs s))
          end
        | Some d =>
          let '(d', flag, out) := write1 d n x in
          let fs' := fput (rev (cur s)) d' (fs s) in
          match out with
          | WErr => failed fs'
          | WOk push =>
            let stk1 := mark flag (stk s) in
            match push, x with
            | Some b, CIno xh _ => Running (RS fs' (n :: cur s) (SF n xh b :: stk1) rd2 (errs s))
            | _, _ => Running (RS fs' (cur s) stk1 rd2 (errs s))
            end
          end
        end
      else Running (RS (fs s) (cur s) (stk s) rd1 (errs s))
    end
  end.

Fixpoint rrun (fuel : nat) (s : rstate) : rout :=
  match fuel with O => Running s | S k => match rstep s with Running s' => rrun k s' | o => o end end.
(** number of entries and ends of directory *)
Fixpoint weight (x : cnode) : nat :=
  match x with
  | CIno _ ch => S (S ((fix go (l : list (name * cnode)) := match l with [] => O | (_, c) :: r => (weight c + go r)%nat end) ch))
  | _ => 1%nat
  end.
Definition weights := fix go (l : list (name * cnode)) := match l with [] => O | (_, c) :: r => (weight c + go r)%nat end.
(** filtre_restore of an archive over a filesystem *)
Definition restore (arc : list (name * cnode)) (t : node) : rout :=
  rrun (S (S (weights arc))) (RS t [] [] [RF [] arc] 0%nat).
End Restore.
