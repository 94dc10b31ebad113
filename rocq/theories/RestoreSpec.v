(** C40: the specification. A filesystem is what is found at its paths; nothing here refers to archives or to the way they are read. *)
From Coq Require Import NArith List Bool Lia.
From Verif Require Import Base DatetimeModel PropDatetime PropChange CritModel RestoreModel.
Import ListNotations.
Open Scope N_scope.
Local Set Warnings "-notation-overridden".

(** the first entry of that name *)
Fixpoint entry_named {A : Type} (n : list N) (l : list (list N * A)) : option A :=
  match l with [] => None | (m, a) :: r => if list_eq_dec N.eq_dec n m then Some a else entry_named n r end.
(** the inode found at a path (outermost name first) below a directory *)
Fixpoint look (l : list (list N * node)) (p : list (list N)) : option head :=
  match p with
  | [] => None
  | n :: r => match entry_named n l with
    | None => None
    | Some (Node h c) => match r with [] => Some h | _ => look c r end
    end
  end.
(** a path is selected by the filters of the backup when it, and all the directories that lead to it, are *)
Fixpoint selected (cov : list (list N) -> bool) (rp : list (list N)) (p : list (list N)) : bool :=
  match p with [] => true | n :: r => cov (n :: rp) && selected cov (n :: rp) r end.

(** same inode, apart from its ctime, that no restoration can set *)
Definition same_inode (a b : head) : Prop :=
  h_kind a = h_kind b /\ h_uid a = h_uid b /\ h_gid a = h_gid b /\ h_perm a = h_perm b /\ h_mtime a = h_mtime b /\ h_data a = h_data b /\ h_ea a = h_ea b.
Definition same_content (a b : head) : Prop := h_kind a = h_kind b /\ h_data a = h_data b.
Definition both {A : Type} (r : A -> A -> Prop) (x y : option A) : Prop :=
  match x, y with None, None => True | Some a, Some b => r a b | _, _ => False end.

(** a directory tree as a filesystem gives it: distinct names in a directory, entries in directories only and data elsewhere, distinct EA names, and
    symbolic links with the permissions every symbolic link has *)
Inductive regular : list (list N * node) -> Prop :=
| regular_i : forall l, NoDup (map fst l) ->
    (forall n h c, In (n, Node h c) l -> (h_kind h <> KDir -> c = []) /\ (h_kind h = KDir -> h_data h = []) /\ NoDup (map fst (h_ea h)) /\ (h_kind h = KLink -> h_perm h = 511) /\ regular c) ->
    regular l.

(** what a differential backup looks at to find out that an inode has changed: owner, permissions, date (C34), and the size of a file *)
Definition seen_changed (cap : time_unit) (hourshift : N) (before after : head) : Prop :=
  h_uid before <> h_uid after \/ h_gid before <> h_gid after \/ h_perm before <> h_perm after \/
  (h_kind after = KFile /\ length (h_data before) <> length (h_data after)) \/
  date_seen cap (ino_of_head after) (ino_of_head before) hourshift.
(** the change of ctime is seen: later, by more than the precision of the dates hides *)
Definition ctime_moved (before after : head) : Prop :=
  let g := unit_ns (unit_max (uni (h_ctime before)) (uni (h_ctime after))) in
  instant (h_ctime before) / g < instant (h_ctime after) / g.
(** between two backups: whatever changes in an inode (without changing its type) is seen to have changed, and a change of EA moves ctime *)
Definition honest (cap : time_unit) (hourshift : N) (before after : list (list N * node)) : Prop :=
  forall p a b, look before p = Some a -> look after p = Some b -> h_kind a = h_kind b ->
    (~ seen_changed cap hourshift a b -> h_uid a = h_uid b /\ h_gid a = h_gid b /\ h_perm a = h_perm b /\ h_mtime a = h_mtime b /\ h_data a = h_data b) /\
    (~ ctime_moved a b -> h_ea a = h_ea b).
(** no path goes from a directory to another type, nor from an inode with EA to an inode of another type without EA *)
Definition type_kept (before after : list (list N * node)) : Prop :=
  forall p a b, look before p = Some a -> look after p = Some b -> h_kind a <> h_kind b ->
    h_kind a <> KDir /\ (h_ea a = [] \/ h_ea b <> []).

(** a history of backups: the first is full, each next one is made against the previous *)
Fixpoint archives (cap : time_unit) (hourshift : N) (cov : list (list N) -> bool) (ref : list (list N * cnode)) (states : list (list (list N * node)))
  : list (list (list N * cnode)) :=
  match states with [] => [] | t :: r => let a := backup cap hourshift cov ref t in a :: archives cap hourshift cov a r end.
(** restoring archives one after the other; None if one restoration does not end normally or reports errors *)
Fixpoint restore_all (me_uid me_gid : N) (now : datetime) (pol : head -> cnode -> adata * aea) (cov : list (list N) -> bool -> bool)
    (arcs : list (list (list N * cnode))) (t : node) : option node :=
  match arcs with
  | [] => Some t
  | a :: r => match restore me_uid me_gid now pol cov a t with
    | Finished s => match errs s with O => restore_all me_uid me_gid now pol cov r (fs s) | _ => None end
    | _ => None end
  end.
(** consecutive states of a history *)
Fixpoint consecutive (r : list (list N * node) -> list (list N * node) -> Prop) (l : list (list (list N * node))) : Prop :=
  match l with a :: ((b :: _) as t) => r a b /\ consecutive r t | _ => True end.

(** on the way to a path, an archive has nothing but directories *)
Fixpoint spares (x : list (list N)) (l : list (list N * cnode)) : Prop :=
  match x with
  | [] => True
  | n :: r => match r with [] => True | _ => forall e, In (n, e) l -> exists h c, e = CIno h c /\ c_kind h = KDir /\ spares r c end
  end.
(** all its directories are saved: they are not recorded as unchanged since an archive of reference *)
Inductive dirs_saved : list (list N * cnode) -> Prop :=
| dirs_saved_i : forall l, (forall n h c, In (n, CIno h c) l -> c_kind h = KDir -> c_saved h = true /\ dirs_saved c) -> dirs_saved l.

