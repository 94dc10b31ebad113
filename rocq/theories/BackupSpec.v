(** * Specification of what a backup takes from the filesystem (C49). Paths go from the root of the backup. *)
From Coq Require Import List Bool PeanoNat.
From Verif Require Import Base BackupModel.
Import ListNotations.
Open Scope N_scope.

Section Spec.
Variable c : cfg.
(** the entry is there, is of a known type, its inode can be read and the nodump flag does not hide it *)
Definition readable (x : fnode) : Prop := (nodump_check c = true -> f_nodump (ffacts x) = false) /\ f_unknown (ffacts x) = false /\ f_unread (ffacts x) = false /\ f_gone (ffacts x) = false.
(** filesystems: the one of the root, else those included (all when none is), minus those excluded *)
Definition fs_taken (dev : N) : Prop := dev = root_dev c \/ ((included c <> [] -> In dev (included c)) /\ ~ In dev (excluded c)).
(** the filters on paths, names (not for directories), filesystems and extended attributes *)
Definition wanted (p : list name) (x : fnode) : Prop :=
  subtree c p = true /\ (is_dir x = true \/ filt c (fname x) = true) /\ fs_taken (f_dev (ffacts x)) /\ (use_xea c = true -> f_xea (ffacts x) = false).
Definition cache_directory (l : list fnode) : Prop := cache_tagging c = true /\ exists f, In (Fil TAG f) l /\ f_tag f = true.
(** the entries of the filesystem the backup has to deal with: readable ones, in directories that are readable, wanted, saved without error, that can be opened and are not cache directories *)
Inductive offered : list name -> list fnode -> list name -> fnode -> Prop :=
| offered_here : forall here l x, In x l -> readable x -> offered here l (here ++ [fname x]) x
| offered_below : forall here l n f k p x, In (Dir n f true k) l -> readable (Dir n f true k) -> wanted (here ++ [n]) (Dir n f true k) -> f_fail f = No_failure -> ~ cache_directory k -> offered (here ++ [n]) k p x -> offered here l p x.
Definition found (root : list fnode) (p : list name) (x : fnode) : Prop := ~ cache_directory root /\ offered [] root p x.
(** what happens to it *)
Definition saved (root : list fnode) (p : list name) (x : fnode) : Prop := found root p x /\ wanted p x /\ f_fail (ffacts x) = No_failure.

(** one name once in a directory *)
Inductive distinct : list fnode -> Prop := distinct_intro : forall l, NoDup (map fname l) -> (forall n f o k, In (Dir n f o k) l -> distinct k) -> distinct l.
Inductive rdistinct : list rnode -> Prop := rdistinct_intro : forall l, NoDup (map rname l) -> (forall n i k, In (RDir n i k) l -> rdistinct k) -> rdistinct l.
Inductive cdistinct : list cent -> Prop := cdistinct_intro : forall l, NoDup (map cname l) -> (forall n i a k, In (CDir n i a k) l -> cdistinct k) -> cdistinct l.

(** the entry of a path in the reference *)
Inductive ref_at : list rnode -> list name -> rnode -> Prop :=
| ref_here : forall l r, In r l -> ref_at l [rname r] r
| ref_below : forall l n i k p r, In (RDir n i k) l -> ref_at k p r -> ref_at l (n :: p) r.
Definition same_type (x : fnode) (r : rnode) (id : N) : Prop :=
  match x, r with
  | Dir _ _ _ _, RDir _ i _ => i = id
  | Fil _ f, RFil _ k i => f_kind f = k /\ i = id
  | _, _ => False
  end.
(** the entry of the reference an entry has to be compared to: the one of the same path when it is of the same type *)
Definition compared (ref : list rnode) (p : list name) (x : fnode) (a : option N) : Prop :=
  match a with
  | Some id => by_date c = false /\ exists r, ref_at ref p r /\ same_type x r id
  | None => by_date c = true \/ forall r id, ref_at ref p r -> ~ same_type x r id
  end.

(** what an archive has for a path *)
Inductive item := File (id : N) (against : option N) | Directory (id : N) (against : option N) | Removed.
Definition item_of (x : cent) : option item := match x with CFil _ i a => Some (File i a) | CDir _ i a _ => Some (Directory i a) | CDet _ => Some Removed | CIgn _ | CIgd _ _ => None end.
Inductive arc_at : list cent -> list name -> cent -> Prop :=
| arc_here : forall l x, In x l -> arc_at l [cname x] x
| arc_below : forall l n i a k p x, In (CDir n i a k) l -> arc_at k p x -> arc_at l (n :: p) x.
Definition archived (arc : list cent) (p : list name) (i : item) : Prop := exists x, arc_at arc p x /\ item_of x = Some i.

(** what it has to have *)
Inductive due (ref : list rnode) (root : list fnode) : list name -> item -> Prop :=
| due_file : forall p n f a, saved root p (Fil n f) -> compared ref p (Fil n f) a -> due ref root p (File (f_id f) a)
| due_dir : forall p n f o k a, saved root p (Dir n f o k) -> compared ref p (Dir n f o k) a -> due ref root p (Directory (f_id f) a)
| due_empty : forall p n f o k, found root p (Dir n f o k) -> ~ wanted p (Dir n f o k) -> empty_dir c = true -> due ref root p (Directory (f_id f) None)
| due_removed : forall d n r, ref_at ref (d ++ [n]) r -> (forall m, r <> RDet m) -> d = [] \/ (exists m f o k, saved root d (Dir m f o k)) -> (forall x, ~ found root (d ++ [n]) x) -> due ref root (d ++ [n]) Removed.

(** errors met: inodes that cannot be read, entries that cannot be saved *)
Definition bad_inode (x : fnode) : Prop := (nodump_check c = true -> f_nodump (ffacts x) = false) /\ f_unknown (ffacts x) = false /\ f_unread (ffacts x) = true.
Definition in_error (p : list name) (x : fnode) : Prop := bad_inode x \/ (readable x /\ wanted p x /\ f_fail (ffacts x) <> No_failure).
(** entries left out: the nodump flag hides them or the filters do not want them *)
Definition left_out (p : list name) (x : fnode) : Prop := (nodump_check c = true /\ f_nodump (ffacts x) = true) \/ (readable x /\ ~ wanted p x).
(** the paths where P holds, among all the entries of the directories the backup goes through *)
Inductive happens (P : list name -> fnode -> Prop) : list name -> list fnode -> list name -> Prop :=
| happens_here : forall here l x, In x l -> P (here ++ [fname x]) x -> happens P here l (here ++ [fname x])
| happens_below : forall here l n f k p, In (Dir n f true k) l -> readable (Dir n f true k) -> wanted (here ++ [n]) (Dir n f true k) -> f_fail f = No_failure -> ~ cache_directory k -> happens P (here ++ [n]) k p -> happens P here l p.
Definition all_where (P : list name -> fnode -> Prop) (root : list fnode) (L : list (list name)) : Prop :=
  NoDup L /\ forall p, In p L <-> ~ cache_directory root /\ happens P [] root p.
End Spec.
