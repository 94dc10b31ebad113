(** * Specification of the comparison of an archive with a filesystem (C44). *)
From Coq Require Import List.
From Verif Require Import Base InfinintModel CrcModel PropCrc DatetimeModel PropDatetime PathModel CatModel SeqModel DiffModel.
From Verif Require Import PropChange.
Import ListNotations.
Open Scope N_scope.

(** two dates agree at an hour shift of [h]: rounded down to the coarsest of their precisions and of the one of the system, they differ by at most [h] hours, exactly *)
Definition dates_agree (cap : time_unit) (h : N) (a b : datetime) : Prop :=
  let g := coarser cap a b in exists k, k <= h /\ ndist (instant a / g) (instant b / g) * g = k * (3600 * G).
(** the first is not older, or the dates agree *)
Definition not_older (o : dopt) (a b : datetime) : Prop := instant b <= instant a \/ dates_agree (o_cap o) (o_shift o) a b.

(** [off] is where [a] and [b] part *)
Definition parts_at (off : nat) (a b : list N) : Prop :=
  firstn off a = firstn off b /\ (off <= length a)%nat /\ (off <= length b)%nat /\
  ((off < length a)%nat -> (off < length b)%nat -> nth off a 0 <> nth off b 0) /\ ~ (off = length a /\ off = length b).

(** a checksum that is the one of the data *)
Definition right_sum (k : crc) (data : list N) : Prop := cyclic k = checksum (crc_size k) data.
(** how the data of a file can be compared: with the data, a signature or the checksum of the archive *)
Definition data_agrees (o : dopt) (a : ainode) (data : list N) (check : option crc) (sig : option (N * N * list N)) (result : option crc) (you : list N) : Prop :=
  match a_saved a, o_isolated o with
  | Ssaved, false => data = you /\ forall k, check = Some k -> right_sum k you /\ (o_seq o = true -> crc_size k = crc_width (N.of_nat (length you)))
  | st, _ =>
    match sig, o_librsync o && negb (o_seq o && o_isolated o) with
    | Some (magic, len, s), true => s = o_rsig o magic len you
    | _, _ => match st with
              | Sdelta => check <> None /\ exists k, result = Some k /\ right_sum k you
              | _ => forall k, check = Some k -> right_sum k you
              end
    end
  end.
Definition kinds_agree (o : dopt) (a : ainode) (f : finode) : Prop :=
  match a_kind a, f_kind f with
  | Afile size data check sig result, Ffile you => size = N.of_nat (length you) /\ dates_agree (o_cap o) 0 (a_mtime a) (f_mtime f) /\ data_agrees o a data check sig result you
  | Alink t, Flink t' => a_saved a = Ssaved -> t = t'
  | Achar x y, Fchar x' y' | Ablock x y, Fblock x' y' => a_saved a = Ssaved -> x = x' /\ y = y'
  | Adir, Fdir | Atube, Ftube | Aprise, Fprise => True
  | _, _ => False
  end.
(** the value a list of EA gives to a name *)
Definition ea_value (l : eas) (k v : list N) : Prop := In (k, v) l.
Definition eas_agree (o : dopt) (a : ainode) (f : finode) : Prop :=
  match a_ea a with
  | EAfull => exists you, f_eas f = Some you /\ (o_isolated o = false -> forall k v, ea_value (a_eas a) k v -> o_ea o k = true -> ea_value you k v)
  | EApart | EAfake => f_eas f <> None /\ not_older o (a_ctime a) (f_ctime f)
  | EAnone | EAremo => True
  end.
Definition fsas_agree (o : dopt) (a : ainode) (f : finode) : Prop :=
  match a_fsa a with
  | FSAfull => match f_fsas f with
               | Some you => o_isolated o = false -> forall x, In x (a_fsas a) -> In (f_fam x) (o_scope o) -> In x you
               | None => o_scope o = []
               end
  | FSApart => match f_fsas f with Some _ => not_older o (a_ctime a) (f_ctime f) | None => o_scope o = [] end
  | FSAnone => True
  end.
Definition is_symlink (f : finode) : bool := match f_kind f with Flink _ => true | _ => false end.
(** the inode of the archive agrees with the one of the filesystem, within what the options ask to look at *)
Definition agrees (o : dopt) (a : ainode) (f : finode) : Prop :=
  a_name a = f_name f /\
  (o_what o = F_all -> a_uid a = f_uid f /\ a_gid a = f_gid f) /\
  (o_what o = F_all \/ o_what o = F_ignore_owner -> a_perm a = f_perm f) /\
  (o_what o <> F_inode_type -> is_symlink f = true -> o_linkdate o = true -> dates_agree (o_cap o) (o_shift o) (a_mtime a) (f_mtime f)) /\
  (o_what o <> F_inode_type -> is_symlink f = false -> dates_agree (o_cap o) (o_shift o) (a_mtime a) (f_mtime f)) /\
  kinds_agree o a f /\ eas_agree o a f /\ fsas_agree o a f.

(** ** what is assumed *)
(** FSA are sorted by family, then by nature, without repetition *)
Definition fsa_before (x y : fsa) : Prop := f_fam x < f_fam y \/ f_fam x = f_fam y /\ f_nat x < f_nat y.
Fixpoint fsas_sorted (l : list fsa) : Prop := match l with x :: ((y :: _) as r) => fsa_before x y /\ fsas_sorted r | _ => True end.
(** an entry as the program makes them: a checksum is not empty, a patch comes with the checksum of its result, the name of an EA is there once *)
Definition ainode_ok (a : ainode) : Prop :=
  NoDup (map fst (a_eas a)) /\ fsas_sorted (a_fsas a) /\
  match a_kind a with
  | Afile _ _ check sig result => (forall k, check = Some k -> crc_size k <> O) /\ (forall k, result = Some k -> crc_size k <> O) /\
                                  (a_saved a = Sdelta -> check <> None -> result <> None) /\ (forall m len s, sig = Some (m, len, s) -> m <> 0)
  | _ => True
  end.
Definition finode_ok (f : finode) : Prop :=
  (forall l, f_eas f = Some l -> NoDup (map fst l)) /\ (forall l, f_fsas f = Some l -> fsas_sorted l /\ l <> []).
(** the list of the filesystem has an FSA that is not before those looked for *)
Definition fsa_reached (o : dopt) (a : ainode) (f : finode) : Prop :=
  forall you x, f_fsas f = Some you -> In x (a_fsas a) -> In (f_fam x) (o_scope o) -> exists y, In y you /\ ~ fsa_before y x.

(** ** the walk *)
(** each entry of the archive that is selected, and whose directories are selected and are directories in the filesystem, is compared with what has the same path there *)
Definition judge (o : dopt) (i : ainode) (l : lookup) (v : verdict) : Prop :=
  match l with
  | Absent => v = Vmissing
  | Fails e => v = Verr e
  | Found f => (v = Vok /\ agrees o i f) \/ (v = Vdiff /\ ~ agrees o i f)
  end.
Definition left_out (o : dopt) (i : ainode) (links : N) : bool := o_seq o && negb (links =? 1) && match a_kind i with Afile _ _ _ _ _ => true | _ => false end.
Definition is_dir (l : lookup) : bool := match l with Found f => is_dirkind (f_kind f) | _ => false end.
Section Walk.
  Variables (o : dopt) (subtree : fpath -> bool) (names : list N -> bool) (fs : fpath -> lookup).
  Inductive reports : fpath -> atree -> list dline -> Prop :=
  | rp_skip_dir : forall here i ch, subtree (a_name i :: here) = false -> reports here (Tdir i ch) [(a_name i :: here, Vskipped)]
  | rp_dir : forall here i ch v more, subtree (a_name i :: here) = true -> judge o i (fs (a_name i :: here)) v -> is_dir (fs (a_name i :: here)) = true ->
      reports_all (a_name i :: here) ch more -> reports here (Tdir i ch) ((a_name i :: here, v) :: more)
  | rp_nodir : forall here i ch v, subtree (a_name i :: here) = true -> judge o i (fs (a_name i :: here)) v -> is_dir (fs (a_name i :: here)) = false ->
      reports here (Tdir i ch) [(a_name i :: here, v)]
  | rp_skip : forall here i, subtree (a_name i :: here) && names (a_name i) = false -> reports here (Tino i) [(a_name i :: here, Vskipped)]
  | rp_ino : forall here i v, subtree (a_name i :: here) = true -> names (a_name i) = true -> judge o i (fs (a_name i :: here)) v -> reports here (Tino i) [(a_name i :: here, v)]
  | rp_skip_mir : forall here i n, subtree (a_name i :: here) && names (a_name i) = false ->
      reports here (Tmir i n) ((if left_out o i n then [(a_name i :: here, Vlinkskipped)] else []) ++ [(a_name i :: here, Vskipped)])
  | rp_mir : forall here i n v, subtree (a_name i :: here) = true -> names (a_name i) = true -> left_out o i n = false -> judge o i (fs (a_name i :: here)) v ->
      reports here (Tmir i n) [(a_name i :: here, v)]
  | rp_left : forall here i n, subtree (a_name i :: here) = true -> names (a_name i) = true -> left_out o i n = true ->
      reports here (Tmir i n) [(a_name i :: here, Vlinkskipped); (a_name i :: here, Vnothing)]
  | rp_skip_gone : forall here n, subtree (n :: here) && names n = false -> reports here (Tgone n) [(n :: here, Vskipped)]
  | rp_gone : forall here n, subtree (n :: here) = true -> names n = true -> reports here (Tgone n) [(n :: here, Vnothing)]
  with reports_all : fpath -> list atree -> list dline -> Prop :=
  | ra_nil : forall here, reports_all here [] []
  | ra_cons : forall here t ts l m, reports here t l -> reports_all here ts m -> reports_all here (t :: ts) (l ++ m).
End Walk.

(** assumptions on the archive and on the filesystem: the system gives an answer for directories; what it finds under a name has this name *)
Fixpoint tree_ok (o : dopt) (fs : fpath -> lookup) (here : fpath) (t : atree) {struct t} : Prop :=
  let met i := ainode_ok i /\ (forall e, fs (a_name i :: here) = Fails e -> fatal e = false) /\
    (forall f, fs (a_name i :: here) = Found f -> finode_ok f /\ f_name f = a_name i /\ fsa_reached o i f) in
  match t with
  | Tino i | Tmir i _ => met i /\ a_kind i <> Adir
  | Tgone _ => True
  | Tdir i ch => met i /\ (forall e, fs (a_name i :: here) <> Fails e) /\ a_kind i = Adir /\
                 (fix all l := match l with [] => True | t :: l => tree_ok o fs (a_name i :: here) t /\ all l end) ch
  end.

(** ** entries reached *)
Definition inode_met (o : dopt) (t : atree) : option ainode :=
  match t with Tino i => Some i | Tmir i n => if left_out o i n then None else Some i | Tdir i _ => Some i | Tgone _ => None end.
Definition is_directory (t : atree) : bool := match t with Tdir _ _ => true | _ => false end.
(** [i] is in the archive at path [p], below directories that are selected and are directories in the filesystem, and it is selected *)
Inductive visible (o : dopt) (subtree : fpath -> bool) (names : list N -> bool) (fs : fpath -> lookup) : fpath -> list atree -> fpath -> ainode -> Prop :=
| vis_here : forall here ts t i, In t ts -> inode_met o t = Some i -> subtree (a_name i :: here) = true -> is_directory t = true \/ names (a_name i) = true ->
    visible o subtree names fs here ts (a_name i :: here) i
| vis_below : forall here ts i ch p j, In (Tdir i ch) ts -> subtree (a_name i :: here) = true -> is_dir (fs (a_name i :: here)) = true ->
    visible o subtree names fs (a_name i :: here) ch p j -> visible o subtree names fs here ts p j.

(** ** a backup of a filesystem *)
Inductive ftree := FT (f : finode) (children : list ftree).
Definition froot (t : ftree) : finode := match t with FT f _ => f end.
Definition fchildren (t : ftree) : list ftree := match t with FT _ ch => ch end.
Fixpoint child (n : list N) (l : list ftree) : option ftree := match l with [] => None | t :: l => if str_eqb (f_name (froot t)) n then Some t else child n l end.
Definition enter (x : option (list ftree)) (n : list N) : option (list ftree) :=
  match x with Some l => match child n l with Some t => if is_dirkind (f_kind (froot t)) then Some (fchildren t) else None | None => None end | None => None end.
(** what the system finds at a path (last component first) of the filesystem [root] *)
Definition fs_of (root : list ftree) (p : fpath) : lookup :=
  match p with
  | [] => Absent
  | n :: here => match fold_left enter (rev here) (Some root) with
                 | Some l => match child n l with Some t => Found (froot t) | None => Absent end
                 | None => Absent
                 end
  end.
(** what a full backup records: the same inode, the data and their checksum; for an inode with several links, their number *)
Definition stored_crc (d : list N) : crc := mk_crc (checksum (crc_width (N.of_nat (length d))) d) 0.
Definition backup_kind (k : fkind) : akind :=
  match k with
  | Ffile d => Afile (N.of_nat (length d)) d (Some (stored_crc d)) None None
  | Flink t => Alink t | Fdir => Adir | Fchar a b => Achar a b | Fblock a b => Ablock a b | Ftube => Atube | Fprise => Aprise
  end.
Definition backup_inode (f : finode) : ainode :=
  Ain (f_name f) (f_uid f) (f_gid f) (f_perm f) (f_mtime f) (f_ctime f) Ssaved (backup_kind (f_kind f))
    (match f_eas f with Some _ => EAfull | None => EAnone end) (match f_eas f with Some l => l | None => [] end)
    (match f_fsas f with Some _ => FSAfull | None => FSAnone end) (match f_fsas f with Some l => l | None => [] end).
Fixpoint backup (links : finode -> option N) (t : ftree) : atree :=
  match t with
  | FT f ch => if is_dirkind (f_kind f) then Tdir (backup_inode f) (map (backup links) ch)
               else match links f with Some n => Tmir (backup_inode f) n | None => Tino (backup_inode f) end
  end.
Fixpoint ftree_ok (t : ftree) : Prop :=
  match t with FT f ch => finode_ok f /\ NoDup (map (fun t => f_name (froot t)) ch) /\ (fix all l := match l with [] => True | t :: l => ftree_ok t /\ all l end) ch end.
