(** C42: the specification. Archives are looked at by paths; states of the filesystem and their restorations as in RestoreSpec.v. *)
From Coq Require Import NArith List Bool Lia.
From Verif Require Import Base DatetimeModel PropDatetime PropChange CritModel RestoreModel RestoreSpec MergeModel.
Import ListNotations.
Open Scope N_scope.
Local Set Warnings "-notation-overridden".

(** ---------- the entries of an archive ---------- *)
Definition is_directory (e : cnode) : bool := match e with CIno h _ => match c_kind h with KDir => true | _ => false end | _ => false end.
Definition entries (e : cnode) : list (list N * cnode) := match e with CIno _ c => c | _ => [] end.
(** an entry, without what is below it *)
Definition alone (e : cnode) : cnode := match e with CIno h _ => CIno h [] | _ => e end.
(** the entry found at a path (outermost name first), if the filters select it and the directories that lead to it *)
Fixpoint found (cov : list (list N) -> bool -> bool) (rp : list (list N)) (l : list (list N * cnode)) (p : list (list N)) : option cnode :=
  match p with
  | [] => None
  | n :: r => match entry_named n l with
    | None => None
    | Some e => if cov (n :: rp) (is_directory e) then match r with [] => Some (alone e) | _ => found cov (n :: rp) (entries e) r end else None
    end
  end.
Definition all_of_it : list (list N) -> bool -> bool := fun _ _ => true.
(** what would be the directory of that path, or of a parent of it, is in the archive something else than a directory *)
Definition blocked (f : list (list N) -> option cnode) (p : list (list N)) : Prop :=
  exists q r e, p = q ++ r /\ q <> [] /\ r <> [] /\ f q = Some e /\ is_directory e = false.
(** distinct names in a directory, and entries in directories only *)
Inductive tidy : list (list N * cnode) -> Prop :=
| tidy_i : forall l, NoDup (map fst l) -> (forall n e, In (n, e) l -> (is_directory e = false -> entries e = []) /\ tidy (entries e)) -> tidy l.

(** ---------- two inodes in conflict, as the manual says it (man dar, "-/" option) ---------- *)
(** P, O, S, T: owner, permissions, dates, size and data come from the inode in place or from the one to add; data are dropped for S, T *)
Definition data_rule (a : adata) (place add res : chead) : Prop :=
  let from := match a with D_overwrite | D_overwrite_mark => add | _ => place end in
  c_kind res = c_kind from /\ c_uid res = c_uid from /\ c_gid res = c_gid from /\ c_perm res = c_perm from /\ c_mtime res = c_mtime from /\ c_size res = c_size from /\
  match a with
  | D_preserve_mark | D_overwrite_mark => c_saved res = false
  | _ => c_saved res = c_saved from /\ c_data res = c_data from
  end.
Definition without_data (e : eastat) : eastat := match e with EA_full _ => EA_partial | x => x end.
(** "none" and "removed" both stand for no EA at all *)
Definition same_ea (a b : eastat) : Prop := a = b \/ (a = EA_none /\ b = EA_removed).
(** the attributes of both, those of [first] being kept when they share a name *)
Definition union_of (first second res : eastat) : Prop :=
  match first, second with
  | EA_full l1, EA_full l2 => exists l, res = EA_full l /\ forall k, entry_named k l = match entry_named k l1 with Some v => Some v | None => entry_named k l2 end
  | EA_full l, _ => res = EA_full l
  | _, EA_full l => res = EA_full l
  | _, _ => True
  end.
(** p, o, s, t, m, M, r; with the date of last change of the inode whose EA prevail *)
Definition ea_rule (a : aea) (place add res : chead) : Prop :=
  match a with
  | A_preserve | A_undefined => same_ea (c_ea res) (c_ea place) /\ c_ctime res = c_ctime place
  | A_overwrite => same_ea (c_ea res) (c_ea add) /\ c_ctime res = c_ctime add
  | A_preserve_mark => c_ea res = without_data (c_ea place) /\ c_ctime res = c_ctime place
  | A_overwrite_mark => c_ea res = without_data (c_ea add) /\ c_ctime res = c_ctime add
  | A_merge_preserve => union_of (c_ea place) (c_ea add) (c_ea res) /\ c_ctime res = c_ctime place
  | A_merge_overwrite => union_of (c_ea add) (c_ea place) (c_ea res) /\ c_ctime res = c_ctime add
  | A_clear => c_ea res = EA_none
  | A_ask => False
  end.
(** an archive without any record of a removed file *)
Inductive inodes_only : list (list N * cnode) -> Prop :=
| inodes_only_i : forall l, (forall n e, In (n, e) l -> (exists h c, e = CIno h c) /\ inodes_only (entries e)) -> inodes_only l.

(** an archive whose inodes are all marked as already saved, EA included: what the isolation of an archive gives *)
Fixpoint isolated (e : cnode) : cnode :=
  match e with
  | CIno h c => CIno (CHead (c_kind h) (c_uid h) (c_gid h) (c_perm h) (c_mtime h) (c_ctime h) (c_size h) false (if c_saved h then [] else c_data h)
                        (match c_ea h with EA_full _ => EA_partial | x => x end))
                     (map (fun ne => (fst ne, isolated (snd ne))) c)
  | e => e
  end.

(** ---------- decremental backups ---------- *)
Definition full_backup (cov : list (list N) -> bool) (t : list (list N * node)) : list (list N * cnode) := backup tu_ns 0 cov [] t.
(** from a state to the one before: inodes with same type, owner, permissions, date and size have the same data (a change of the
    target of a symbolic link is seen); those with the same ctime have the same EA *)
Definition honest_back (cap : time_unit) (newer older : list (list N * node)) : Prop :=
  forall p a b, look newer p = Some a -> look older p = Some b ->
    (h_kind a = h_kind b -> h_kind a <> KLink -> h_uid a = h_uid b -> h_gid a = h_gid b -> h_perm a = h_perm b -> h_mtime a = h_mtime b ->
       (h_kind a = KFile -> length (h_data a) = length (h_data b)) -> h_data a = h_data b) /\
    (instant (h_ctime a) / coarser cap (h_ctime a) (h_ctime b) = instant (h_ctime b) / coarser cap (h_ctime a) (h_ctime b) -> h_ea a = h_ea b).
(** nothing that has EA in the newer state had none in the older; no path goes from a directory, in the newer state, to another type *)
Definition ea_kept (newer older : list (list N * node)) : Prop :=
  forall p a b, look newer p = Some a -> look older p = Some b -> (h_ea a = [] \/ h_ea b <> []) /\ (h_kind a <> h_kind b -> h_kind a <> KDir).
(** plain files, directories, symbolic links, devices, named pipes, sockets *)
Definition known_types (t : list (list N * node)) : Prop :=
  forall p h, look t p = Some h -> match h_kind h with KOther c => In c [98; 99; 112; 115] | _ => True end.
(** each full backup but the newest is replaced by the decremental backup made from it and the full backup that follows *)
Fixpoint decrementals (cap : time_unit) (cov : list (list N) -> bool) (newer : list (list N * node)) (olders : list (list (list N * node)))
  : res (list (list (list N * cnode))) :=
  match olders with
  | [] => Ok []
  | t :: r => match merge_decremental cap all_of_it (full_backup cov t) (full_backup cov newer) with
    | Ok d => match decrementals cap cov t r with Ok l => Ok (d :: l) | Err x => Err x end
    | Err x => Err x end
  end.

(** ---------- a full backup and its differential backups merged into one ---------- *)
(** "{!~I}[Rr] {~S}[O*] P* ; {~s|!~e}[*o] *p": what has been deleted is removed; otherwise data are taken from the second archive if it
    has them, and EA if it has them, or if the inode has none *)
Definition flat_policy : policy :=
  P_chain
    [P_test (C_not (C_invert C_is_inode)) (P_const D_remove A_clear)
       (P_test (C_invert C_data_saved) (P_const D_overwrite A_undefined) (P_const D_preserve A_undefined));
     P_test (C_or [C_invert C_EA_saved; C_not (C_invert C_EA_present)]) (P_const D_undefined A_overwrite) (P_const D_undefined A_preserve)].
Fixpoint merge_all (cap : time_unit) (p : policy) (first : list (list N * cnode)) (others : list (list (list N * cnode))) : res (list (list N * cnode)) :=
  match others with
  | [] => Ok first
  | a :: r => match merge (policy_of cap p) all_of_it false first a with Ok m => merge_all cap p m r | Err x => Err x end
  end.
