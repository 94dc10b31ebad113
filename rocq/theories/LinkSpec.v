(** C41: the specification. Nothing here refers to archives or to the way they are read. *)
From Coq Require Import NArith List Bool Lia.
From Verif Require Import Base DatetimeModel PropDatetime PropChange CritModel RestoreModel RestoreSpec LinkModel.
Import ListNotations.
Open Scope N_scope.
Local Set Warnings "-notation-overridden".

(** the inode number of a name, and the inode, in a filesystem to save *)
Definition ino_of (d : disk) (p : list N) : option N := entry_named p (d_names d).
Definition inode_of (d : disk) (p : list N) : option head := option_map (d_inode d) (ino_of d p).
(** the same restricted to what the filters of the backup select *)
Definition picked (cov : list N -> bool) (d : disk) (p : list N) : option N := if cov p then ino_of d p else None.
(** the inode of a name in a restored filesystem *)
Definition found (f : lfs) (p : list N) : option head := option_map (tb f) (nm f p).

(** a filesystem as it is: each name once, at least as many links counted as there are names, distinct EA names, and symbolic links with
    the permissions every symbolic link has *)
Definition disk_ok (d : disk) : Prop :=
  NoDup (map fst (d_names d)) /\
  (forall i, N.of_nat (length (filter (fun x => snd x =? i) (d_names d))) <= d_nlink d i) /\
  (forall p i, In (p, i) (d_names d) -> NoDup (map fst (h_ea (d_inode d i))) /\ (h_kind (d_inode d i) = KLink -> h_perm (d_inode d i) = 511)).
Definition lfs_ok (f : lfs) : Prop := forall p i, nm f p = Some i -> i < nxt f.

(** what is restored: at each selected name the inode saved there, and two names have the same inode exactly when they had *)
Definition good (cov : list N -> bool) (f : lfs) (d : disk) : Prop :=
  (forall p, both same_inode (found f p) (option_map (d_inode d) (picked cov d p))) /\
  (forall p q i j, picked cov d p = Some i -> picked cov d q = Some j -> (nm f p = nm f q <-> i = j)).

(** between two backups, for the selected names present in both: what changes is seen to have changed (C40) ... *)
Definition lhonest (cap : time_unit) (hourshift : N) (cov : list N -> bool) (before after : disk) : Prop :=
  forall p i j, picked cov before p = Some i -> picked cov after p = Some j ->
    let a := d_inode before i in let b := d_inode after j in
    h_kind a = h_kind b ->
    (~ seen_changed cap hourshift a b -> h_uid a = h_uid b /\ h_gid a = h_gid b /\ h_perm a = h_perm b /\ h_mtime a = h_mtime b /\ h_data a = h_data b) /\
    (~ ctime_moved a b -> h_ea a = h_ea b).
(** ... the links among them are the same ... *)
Definition links_kept (cov : list N -> bool) (before after : disk) : Prop :=
  forall p q i j i' j', picked cov before p = Some i -> picked cov before q = Some j -> picked cov after p = Some i' -> picked cov after q = Some j' ->
    (i = j <-> i' = j').
(** ... a change of type does not drop EA ... *)
Definition ea_type_kept (cov : list N -> bool) (before after : disk) : Prop :=
  forall p i j, picked cov before p = Some i -> picked cov after p = Some j -> h_kind (d_inode before i) <> h_kind (d_inode after j) ->
    h_ea (d_inode before i) = [] \/ h_ea (d_inode after j) <> [].
(** ... and the EA of an inode with several names are the same, or there were none, or nothing else changes in the inode and none of its
    names is new *)
Definition ea_links_kept (cap : time_unit) (hourshift : N) (cov : list N -> bool) (before after : disk) : Prop :=
  forall p q i j, picked cov before p = Some i -> picked cov after p = Some j -> picked cov after q = Some j -> q <> p ->
    h_ea (d_inode before i) = h_ea (d_inode after j) \/ h_ea (d_inode before i) = [] \/
    (h_kind (d_inode before i) = h_kind (d_inode after j) /\ ~ seen_changed cap hourshift (d_inode before i) (d_inode after j) /\
     forall r, picked cov after r = Some j -> picked cov before r <> None).

(** a history of backups, each made against the previous one, and their restoration in order *)
Fixpoint larchives (cap : time_unit) (hourshift : N) (cov : list N -> bool) (ref : larc) (l : list disk) : list larc :=
  match l with [] => [] | d :: r => let a := lbackup cap hourshift cov ref d in a :: larchives cap hourshift cov a r end.
Fixpoint lrestore_all (me_uid me_gid : N) (now : datetime) (arcs : list larc) (f : lfs) : option lfs :=
  match arcs with
  | [] => Some f
  | a :: r => let s := lrestore me_uid me_gid now a f in match l_err s with O => lrestore_all me_uid me_gid now r (l_fs s) | _ => None end
  end.
Fixpoint successive (r : disk -> disk -> Prop) (l : list disk) : Prop :=
  match l with a :: ((b :: _) as t) => r a b /\ successive r t | _ => True end.
Definition empty_archive : larc := Larc [] (fun _ => dummy).
