(** C41: hard links, from the filesystem to the archive and back.

    Sources: src/libdar/filesystem_hard_link_read.cpp (make_read_entree 369-424), src/libdar/filtre.cpp (filtre_sauvegarde 645-1010),
    src/libdar/catalogue.cpp (compare 519-626, update_destroyed_with 628-721), src/libdar/cat_mirage.cpp (inherited_dump 317-349),
    src/libdar/filesystem_restore.cpp (write 176-640, action_over_data 692-886, action_over_ea 888-1047),
    src/libdar/filesystem_hard_link_write.cpp (raw_set_ea 117-158, raw_clear_ea_set 160-202, write_hard_linked_target_if_not_set 205-214,
    make_file 221-482, clear_corres_if_pointing_to 485-493).

    The names here are whole paths of inodes other than directories: the directories are those of C40, and are taken as being there.
    The overwriting policy is the default one (overwrite data and EA), and all the archive is restored. Left out as in C40. The inodes
    are those of RestoreModel.v (head, chead, save_head, fresh, with_meta). The std::map of the sources are functions. *)
From Coq Require Import NArith List Bool Lia.
From Verif Require Import Base DatetimeModel CritModel RestoreModel.
Import ListNotations.
Open Scope N_scope.
Local Set Warnings "-notation-overridden".

Definition upd {A : Type} (m : N -> A) (k : N) (v : A) : N -> A := fun x => if x =? k then v else m x.
Definition updn {A : Type} (m : list N -> A) (k : list N) (v : A) : list N -> A := fun x => if name_eqb x k then v else m x.

(** the state of a filesystem to save: its names in the order they are read, each with its inode number; the inodes; st_nlink *)
Record disk := Disk { d_names : list (name * N); d_inode : N -> head; d_nlink : N -> N }.

(** cat_inode, cat_mirage on the cat_etoile of that etiquette, cat_detruit, cat_ignored *)
Inductive lent := LPlain (c : chead) | LMir (eti : N) | LDet (k : fkind) | LIgn.
(** a catalogue: its entries, and the inodes held by its cat_etoile *)
Record larc := Larc { a_ents : list (name * lent); a_star : N -> chead }.

Section Backup.
Variables (cap : time_unit) (hourshift : N).
Variable cov : name -> bool.

(** the inode of an entry of the reference: catalogue::compare follows cat_mirage *)
Definition ref_at (ref : larc) (p : name) : option chead :=
  match aget p (a_ents ref) with Some (LPlain c) => Some c | Some (LMir e) => Some (a_star ref e) | _ => None end.
Definition ref_for (ref : larc) (p : name) (h : head) : option chead :=
  match ref_at ref p with Some f => if kind_eqb (h_kind h) (c_kind f) then Some f else None | None => None end.

(** corres_read: inode number to etiquette and number of links still to be met; etiquette_counter; the inodes of the cat_etoile, with
    their "wrote" tag *)
Record bst := BSt { b_corres : N -> option (N * N); b_next : N; b_star : N -> chead; b_wrote : N -> bool; b_out : list (name * lent) }.
(** make_read_entree, filesystem_hard_link_read.cpp:369-424: the etiquette of a multiply linked inode *)
Definition see_link (d : disk) (i : N) (s : bst) : N * bst :=
  match b_corres s i with
  | None => (b_next s, BSt (upd (b_corres s) i (Some (b_next s, d_nlink d i - 1))) (b_next s + 1) (b_star s) (b_wrote s) (b_out s))
  | Some (e, k) => (e, BSt (upd (b_corres s) i (if k - 1 =? 0 then None else Some (e, k - 1))) (b_next s) (b_star s) (b_wrote s) (b_out s))
  end.
Definition put_out (x : name * lent) (s : bst) : bst := BSt (b_corres s) (b_next s) (b_star s) (b_wrote s) (b_out s ++ [x]).
(** one turn of the loop of filtre_sauvegarde, filtre.cpp:645-1010: the inode of a cat_mirage is compared and saved the first time that
    one of its links is selected, under the name of that link *)
Definition save_one (ref : larc) (d : disk) (s : bst) (x : name * N) : bst :=
  let '(p, i) := x in
  let h := d_inode d i in
  if 1 <? d_nlink d i then
    let '(e, s) := see_link d i s in
    if cov p then
      if b_wrote s e then put_out (p, LMir e) s
      else put_out (p, LMir e) (BSt (b_corres s) (b_next s) (upd (b_star s) e (save_head cap hourshift h (ref_for ref p h))) (upd (b_wrote s) e true) (b_out s))
    else put_out (p, LIgn) s
  else put_out (p, if cov p then LPlain (save_head cap hourshift h (ref_for ref p h)) else LIgn) s.
Definition dummy : chead := CHead KFile 0 0 0 (DT 0 tu_s) (DT 0 tu_s) 0 false [] EA_none.
Definition save_all (ref : larc) (d : disk) : bst :=
  fold_left (save_one ref d) (d_names d) (BSt (fun _ => None) 0 (fun _ => dummy) (fun _ => false) []).
(** update_destroyed_with, catalogue.cpp:628-721 *)
Definition gone (ref : larc) (cur : list (name * lent)) (x : name * lent) : list (name * lent) :=
  match snd x with
  | LPlain c => match aget (fst x) cur with None => cur ++ [(fst x, LDet (c_kind c))] | Some _ => cur end
  | LMir e => match aget (fst x) cur with None => cur ++ [(fst x, LDet (c_kind (a_star ref e)))] | Some _ => cur end
  | _ => cur
  end.
(** cat_mirage::inherited_dump, cat_mirage.cpp:317-349: a cat_etoile with a single reference is written as a plain inode; corres_read
    holds a reference while some links have not been met *)
Definition links_to (e : N) (l : list (name * lent)) : nat :=
  length (filter (fun x => match snd x with LMir e' => e =? e' | _ => false end) l).
Definition held (inodes : list N) (corres : N -> option (N * N)) (e : N) : bool :=
  existsb (fun i => match corres i with Some (e', _) => e =? e' | None => false end) inodes.
Definition dump_one (s : bst) (inodes : list N) (x : lent) : lent :=
  match x with
  | LMir e => if Nat.leb (links_to e (b_out s)) 1 && negb (held inodes (b_corres s) e) then LPlain (b_star s e) else LMir e
  | _ => x
  end.
Definition is_ign (x : lent) : bool := match x with LIgn => true | _ => false end.
Definition lbackup (ref : larc) (d : disk) : larc :=
  let s := save_all ref d in
  Larc (map (fun x => (fst x, dump_one s (map snd (d_names d)) (snd x))) (filter (fun x => negb (is_ign (snd x))) (fold_left (gone ref) (a_ents ref) (b_out s)))) (b_star s).
End Backup.

(** ---------- restoration ---------- *)
(** a filesystem being restored: the inode number of each name, the inodes, and the next inode number *)
Record lfs := LFS { nm : name -> option N; tb : N -> head; nxt : N }.
Section Restore.
Variables (me_uid me_gid : N) (now : datetime).
(** corres_write: the first name restored of an etiquette, and whether EA have been restored *)
Record lst := LSt { l_fs : lfs; l_cw : N -> option (name * bool); l_err : nat }.

Definition set_name (p : name) (i : option N) (f : lfs) : lfs := LFS (updn (nm f) p i) (tb f) (nxt f).
Definition new_inode (p : name) (h : head) (f : lfs) : lfs := LFS (updn (nm f) p (Some (nxt f))) (upd (tb f) (nxt f) h) (nxt f + 1).
(** a change of the inode of a name, if there is such a name *)
Definition on_name (p : name) (g : head -> head) (f : lfs) : lfs :=
  match nm f p with Some i => LFS (nm f) (upd (tb f) i (g (tb f i))) (nxt f) | None => f end.

(** make_file, filesystem_hard_link_write.cpp:221-482; the link() of a name that has disappeared fails with ENOENT (lines 266-284) *)
Definition make_file (p : name) (mir : option N) (x : chead) (f : lfs) (cw : N -> option (name * bool)) : lfs * (N -> option (name * bool)) :=
  match mir with
  | None => (new_inode p (fresh me_uid me_gid now x) f, cw)
  | Some e => match cw e with
    | None => (new_inode p (fresh me_uid me_gid now x) f, upd cw e (Some (p, false)))
    | Some (old, _) => match nm f old with
      | Some i => (set_name p (Some i) f, cw)
      | None => if c_saved x then (new_inode p (fresh me_uid me_gid now x) f, upd cw e (Some (p, false))) else (f, cw)
      end
    end
  end.
(** raw_set_ea and raw_clear_ea_set, filesystem_hard_link_write.cpp:117-202: the effect on corres_write, and whether EA are to be
    written (cleared) *)
Definition raw_set (p : name) (mir : option N) (cw : N -> option (name * bool)) : bool * (N -> option (name * bool)) :=
  match mir with
  | None => (true, cw)
  | Some e => match cw e with
    | None => (true, upd cw e (Some (p, true)))
    | Some (_, true) => (false, cw)
    | Some (o, false) => (true, upd cw e (Some (o, true)))
    end
  end.
Definition raw_clear (p : name) (mir : option N) (cw : N -> option (name * bool)) : bool * (N -> option (name * bool)) :=
  match mir with
  | None => (true, cw)
  | Some e => match cw e with
    | None => (true, upd cw e (Some (p, false)))
    | Some (_, true) => (false, cw)
    | Some (_, false) => (true, cw)
    end
  end.
Definition ea_held (e : eastat) : list (name * list N) := match e with EA_full l => l | _ => [] end.
Definition ea_is_saved (e : eastat) : bool := match e with EA_full _ | EA_removed => true | _ => false end.
(** raw_set_ea with the effect on the inode *)
Definition set_ea (p : name) (mir : option N) (l : list (name * list N)) (f : lfs) cw : bool * lfs * (N -> option (name * bool)) :=
  let '(b, cw) := raw_set p mir cw in (b, if b then on_name p (fun h => with_ea h (ea_write (h_ea h) l)) f else f, cw).
(** action_over_ea when overwriting, filesystem_restore.cpp:934-972 *)
Definition over_ea_l (p : name) (mir : option N) (l : list (name * list N)) (f : lfs) cw : bool * lfs * (N -> option (name * bool)) :=
  let '(b, cw) := raw_clear p mir cw in
  if b then set_ea p mir l (on_name p (fun h => with_ea h []) f) cw else (false, f, cw).

(** write(), filesystem_restore.cpp:247-621, for an inode (mir = its etiquette, if the entry is a cat_mirage) *)
Definition write_inode (p : name) (mir : option N) (x : chead) (s : lst) : lst :=
  let known := match mir with Some e => match l_cw s e with Some _ => true | None => false end | None => false end in
  let eas := ea_is_saved (c_ea x) in
  match nm (l_fs s) p with
  | None => (* lines 310-433 *)
    if c_saved x || known then
      let '(f, cw) := make_file p mir x (l_fs s) (l_cw s) in
      let '(_, f, cw) := if eas then set_ea p mir (ea_held (c_ea x)) f cw else (false, f, cw) in
      match nm f p with
      | None => LSt f cw (S (l_err s))   (* the date of a missing inode cannot be set: Erange *)
      | Some _ =>
        let f := on_name p (fun h => with_meta h x) f in
        let '(_, f, cw) := if eas then set_ea p mir (ea_held (c_ea x)) f cw else (false, f, cw) in
        LSt f cw (l_err s)
      end
    else s
  | Some i => (* lines 434-621 *)
    let eh := tb (l_fs s) i in
    let '(f, cw) :=
      if c_saved x then
        let '(f, cw) := make_file p mir x (set_name p None (l_fs s)) (l_cw s) in
        (on_name p (fun h => with_ea h (ea_write (h_ea h) (h_ea eh))) f, cw)
      else (l_fs s, match mir with Some e => (match l_cw s e with None => upd (l_cw s) e (Some (p, false)) | Some _ => l_cw s end) | None => l_cw s end) in
    let '(done, f, cw) := if eas then over_ea_l p mir (ea_held (c_ea x)) f cw else (false, f, cw) in
    let f := if eas || c_saved x then on_name p (fun h => if c_saved x then with_meta h x else with_mtime h (h_mtime eh)) f else f in
    let '(_, f, cw) := if done then over_ea_l p mir (ea_held (c_ea x)) f cw else (false, f, cw) in
    LSt f cw (l_err s)
  end.
(** one turn of the loop of filtre_restore *)
Definition write_entry (star : N -> chead) (s : lst) (x : name * lent) : lst :=
  match snd x with
  | LPlain c => write_inode (fst x) None c s
  | LMir e => write_inode (fst x) (Some e) (star e) s
  | LDet _ => match nm (l_fs s) (fst x) with
    | None => LSt (l_fs s) (l_cw s) (S (l_err s))
    | Some _ => LSt (set_name (fst x) None (l_fs s)) (l_cw s) (l_err s)
    end
  | LIgn => s
  end.
Definition lrestore (a : larc) (f : lfs) : lst := fold_left (write_entry (a_star a)) (a_ents a) (LSt f (fun _ => None) 0%nat).
End Restore.
