(** * C44: comparing an archive with a filesystem (dar -d) reports exactly what differs. *)
From Coq Require Import List.
From Verif Require Import Base InfinintModel CrcModel PropCrc DatetimeModel PropDatetime PathModel CatModel SeqModel PropChange DiffModel DiffSpec DiffProof DiffProof2 DiffProof3 DiffProof4.
Import ListNotations.
Open Scope N_scope.

(** Comparing two files of data, whatever the size of the buffer: no difference is found when they are equal and only then; the offset given is that of the first byte that differs; the checksum is the one of the data. *)
Theorem C44_data : forall sz me you w, (0 < sz)%nat -> w <> O -> exists d v x, gf_diff sz me you w = Ok (d, v, N.of_nat x) /\
  (d = false -> me = you /\ x = length me /\ cyclic v = checksum w me) /\ (d = true -> me <> you /\ (length me = length you -> parts_at x me you)).
Proof.
  intros sz me you w H1 H2. destruct (gf_diff_spec sz me you w H1 H2) as (d & v & x & E & R). exists d, v, x. split; [exact E|]. destruct d; split; try discriminate; intros _; [exact R|]. tauto.
Qed.
Print Assumptions C44_data.
(** Comparing an inode of the archive with one of the filesystem: no exception when they agree, Erange (a difference) otherwise, and nothing else. *)
Theorem C44_compare : forall o a f, ainode_ok a -> finode_ok f -> fsa_reached o a f -> (0 < o_size o)%nat ->
  (compare o a f = Ok tt /\ agrees o a f) \/ (compare o a f = Err Erange /\ ~ agrees o a f).
Proof. exact compare_spec. Qed.
Print Assumptions C44_compare.
(** The whole comparison ends, and reports, in the order of the archive, each entry that is selected against what has the same path in the filesystem, going down in directories that are so on both sides. *)
Theorem C44_report : forall o subtree names fs root, (0 < o_size o)%nat -> Forall (tree_ok o fs []) root ->
  exists lines, reports_all o subtree names fs [] root lines /\ difference o subtree names fs root = (lines, Ok tt).
Proof. intros o subtree names fs root H1 H2. exact (difference_spec o subtree names fs H1 root H2). Qed.
Print Assumptions C44_report.
(** No entry within reach is forgotten, and each verdict is about the entry of that path. *)
Theorem C44_every_entry : forall o subtree names fs root lines, (0 < o_size o)%nat -> Forall (tree_ok o fs []) root -> difference o subtree names fs root = (lines, Ok tt) ->
  (forall p i, visible o subtree names fs [] root p i -> exists v, In (p, v) lines /\ judge o i (fs p) v) /\
  (forall p v, In (p, v) lines -> match v with Vok | Vdiff | Vmissing | Verr _ => True | _ => False end -> exists i, visible o subtree names fs [] root p i /\ judge o i (fs p) v).
Proof.
  intros o subtree names fs root lines H1 H2 E. destruct (difference_spec o subtree names fs H1 root H2) as (l & R & E2). assert (l = lines) by congruence. subst l. split.
  - intros p i V. exact (visible_reported o subtree names fs _ _ _ _ V _ R).
  - intros p v I T. apply (reported_visible o subtree names fs _ _ _ R p v I). destruct v; try contradiction; reflexivity.
Qed.
Print Assumptions C44_every_entry.
(** In particular a file reported without difference, of an archive that holds its data, has this very data, and the checksum recorded in the archive is the one of this data. *)
Theorem C44_ok_same_data : forall o subtree names fs root lines p, (0 < o_size o)%nat -> Forall (tree_ok o fs []) root -> difference o subtree names fs root = (lines, Ok tt) ->
  In (p, Vok) lines -> exists i f, visible o subtree names fs [] root p i /\ fs p = Found f /\ agrees o i f /\
    forall size data check sig result, a_kind i = Afile size data check sig result -> a_saved i = Ssaved -> o_isolated o = false ->
      f_kind f = Ffile data /\ forall k, check = Some k -> cyclic k = checksum (crc_size k) data.
Proof.
  intros o subtree names fs root lines p H1 H2 E I. destruct (C44_every_entry o subtree names fs root lines H1 H2 E) as [_ B]. destruct (B p Vok I Logic.I) as (i & V & J).
  destruct (fs p) as [|f|e] eqn:EF; cbn [judge] in J; try discriminate. destruct J as [[_ A]|[D _]]; [|discriminate]. exists i, f. split; [exact V|]. split; [reflexivity|]. split; [exact A|].
  intros size data check sig result K S IS. destruct A as (_ & _ & _ & _ & _ & KA & _). unfold kinds_agree in KA. rewrite K in KA. destruct (f_kind f) as [you| | | | | |]; try contradiction.
  destruct KA as (_ & _ & D). unfold data_agrees in D. rewrite S, IS in D. destruct D as [-> D]. split; [reflexivity|]. intros k Ek. exact (proj1 (D k Ek)).
Qed.
Print Assumptions C44_ok_same_data.
(** The number of errors, which decides of the exit status of dar, is zero when all the entries within reach agree with the filesystem, and only then. *)
Theorem C44_no_error_iff : forall o subtree names fs root lines, (0 < o_size o)%nat -> Forall (tree_ok o fs []) root -> difference o subtree names fs root = (lines, Ok tt) ->
  (errored lines = O <-> forall p i, visible o subtree names fs [] root p i -> exists f, fs p = Found f /\ agrees o i f).
Proof.
  intros o subtree names fs root lines H1 H2 E. destruct (C44_every_entry o subtree names fs root lines H1 H2 E) as [A B]. unfold errored. rewrite length_zero_iff_nil. split.
  - intros Z p i V. destruct (A p i V) as (v & I & J).
    assert (NE : match v with Vdiff | Vmissing | Verr _ => true | _ => false end = false).
    { match goal with |- ?b = false => destruct b eqn:X end; [|reflexivity]. exfalso.
      assert (I2 : In (p, v) (filter (fun x : dline => match snd x with Vdiff | Vmissing | Verr _ => true | _ => false end) lines)) by (apply filter_In; split; [exact I|exact X]).
      exact (eq_ind _ (fun l => In (p, v) l) I2 _ Z). }
    destruct (fs p) as [|f|e]; cbn [judge] in J; [subst v; discriminate| |subst v; discriminate]. destruct J as [[_ J]|[-> _]]; [|discriminate]. exists f. split; [reflexivity|exact J].
  - intros P. match goal with |- ?l = [] => destruct l as [|[p v] r] eqn:F end; [reflexivity|]. exfalso.
    assert (I : In (p, v) (filter (fun x : dline => match snd x with Vdiff | Vmissing | Verr _ => true | _ => false end) lines)) by (exact (eq_ind_r (fun l => In (p, v) l) (in_eq (p, v) r) F)).
    apply filter_In in I as [I X]. cbn [snd] in X. destruct (B p v I) as (i & V & J); [destruct v; try discriminate; exact Logic.I|].
    destruct (P p i V) as (f & EF & AG). rewrite EF in J. destruct J as [[-> _]|[_ NA]]; [discriminate|exact (NA AG)].
Qed.
Print Assumptions C44_no_error_iff.
(** Comparing a full backup with the filesystem it was made of, nothing having changed: no difference, whatever the options and the filters. *)
Theorem C44_unchanged : forall o subtree names links root, (0 < o_size o)%nat -> Forall ftree_ok root -> NoDup (map (fun t => f_name (froot t)) root) ->
  exists lines, difference o subtree names (fs_of root) (map (backup links) root) = (lines, Ok tt) /\ errored lines = O /\
    forall p i, visible o subtree names (fs_of root) [] (map (backup links) root) p i -> In (p, Vok) lines.
Proof.
  intros o subtree names links root H1 H2 H3.
  assert (FI : found_in root [] root) by (exists root; auto).
  pose proof (backup_trees o links root (fsizes root) root [] (le_n _) FI) as T. destruct (difference_spec o subtree names (fs_of root) H1 _ T) as (lines & R & E).
  assert (OK : forall i p v, visible o subtree names (fs_of root) [] (map (backup links) root) p i -> judge o i (fs_of root p) v -> v = Vok).
  { intros i p v V J. destruct (backup_visible o links root (fsizes root) root [] p i subtree names (le_n _) FI V) as (f & EF & FO & ->). rewrite EF in J. destruct J as [[-> _]|[_ NA]]; [reflexivity|].
    exfalso. apply NA. apply backup_agrees. exact FO. }
  exists lines. split; [exact E|]. split.
  - unfold errored. apply length_zero_iff_nil. destruct (filter (fun x : dline => match snd x with Vdiff | Vmissing | Verr _ => true | _ => false end) lines) as [|[p v] r] eqn:F; [exact F|]. exfalso.
    assert (I : In (p, v) (filter (fun x : dline => match snd x with Vdiff | Vmissing | Verr _ => true | _ => false end) lines)) by (rewrite F; left; reflexivity).
    apply filter_In in I as [I B]. cbn [snd] in B. destruct (reported_visible o subtree names (fs_of root) _ _ _ R p v I) as (i & V & J); [destruct v; try discriminate; reflexivity|].
    rewrite (OK i p v V J) in B. discriminate.
  - intros p i V. destruct (visible_reported o subtree names (fs_of root) _ _ _ _ V _ R) as (v & I & J). rewrite (OK i p v V J) in I. exact I.
Qed.
Print Assumptions C44_unchanged.

(** ** a concrete filesystem: a directory with a file and a link, then a file with EA and FSA, which is a hard link *)
Definition fi (n : list N) (k : fkind) : finode := Fin n 0 0 420 (dt_seconds 5) (dt_seconds 9) k None None.
Definition fx (n : list N) (k : fkind) : finode := Fin n 7 8 384 (dt_seconds 6) (dt_seconds 9) k (Some [([117], [1; 2])]) (Some [Fsa 0 1 (Vbool true); Fsa 1 3 (Vtime (dt_seconds 4))]).
Definition ex_root : list ftree := [FT (fi [100] Fdir) [FT (fi [102] (Ffile [1; 2; 3])) []; FT (fi [108] (Flink [120])) []]; FT (fx [103] (Ffile [4; 5])) []].
Definition ex_links (f : finode) : option N := match f_eas f with Some _ => Some 2 | None => None end.
Definition ex_opt (what : fields) (shift : N) (isolated : bool) : dopt := Dopt tu_ns what shift true (fun _ => true) [0; 1] isolated false true (fun _ _ _ => []) BUFFER_SIZE.
Definition all_paths : fpath -> bool := fun _ => true.
Definition all_names : list N -> bool := fun _ => true.
(** f was changed, l removed *)
Definition ex_changed : list ftree := [FT (fi [100] Fdir) [FT (fi [102] (Ffile [1; 9; 3])) []]; FT (fx [103] (Ffile [4; 5])) []].
Example C44_instance : Forall ftree_ok ex_root /\ NoDup (map (fun t => f_name (froot t)) ex_root) /\
  difference (ex_opt F_all 0 false) all_paths all_names (fs_of ex_root) (map (backup ex_links) ex_root) =
    ([([[100]], Vok); ([[102]; [100]], Vok); ([[108]; [100]], Vok); ([[103]], Vok)], Ok tt) /\
  Forall (tree_ok (ex_opt F_all 0 false) (fs_of ex_root) []) (map (backup ex_links) ex_root) /\
  difference (ex_opt F_all 0 false) all_paths all_names (fs_of ex_changed) (map (backup ex_links) ex_root) =
    ([([[100]], Vok); ([[102]; [100]], Vdiff); ([[108]; [100]], Vmissing); ([[103]], Vok)], Ok tt).
Proof.
  assert (FO : forall n k, finode_ok (fi n k)) by (split; intros; discriminate).
  assert (FX : forall n k, finode_ok (fx n k)) by (intros n k; split; intros l E; injection E as <-; [constructor; [intros []|constructor]|split; [split; [left; reflexivity|exact I]|discriminate]]).
  assert (A : Forall ftree_ok ex_root).
  { assert (L : forall f, finode_ok f -> ftree_ok (FT f [])) by (intros f H; split; [exact H|split; [constructor|exact I]]).
    apply Forall_cons; [|apply Forall_cons; [apply L; apply FX|apply Forall_nil]]. split; [apply FO|]. split.
    - constructor; [intros [X|[]]; discriminate|]. constructor; [intros []|constructor].
    - split; [apply L; apply FO|]. split; [apply L; apply FO|exact I]. }
  assert (B : NoDup (map (fun t => f_name (froot t)) ex_root)) by (constructor; [intros [X|[]]; discriminate|]; constructor; [intros []|constructor]).
  split; [exact A|]. split; [exact B|]. split; [vm_compute; reflexivity|]. split; [|vm_compute; reflexivity].
  exact (backup_trees (ex_opt F_all 0 false) ex_links ex_root (fsizes ex_root) ex_root [] (le_n _) (ex_intro _ ex_root (conj eq_refl (conj B (conj A (fun t H => H)))))).
Qed.

(** ** what is not guaranteed *)
(** The hour shift asked for, or the request not to look at dates, is not followed for plain files, while it is for directories. *)
Definition dated (n : list N) (d : N) (k : fkind) : finode := Fin n 0 0 420 (dt_seconds d) (dt_seconds 9) k None None.
Theorem C44_hourshift_refuted : compare (ex_opt F_all 1 false) (backup_inode (dated [102] 3600 (Ffile [1]))) (dated [102] 7200 (Ffile [1])) = Err Erange /\
  dates_agree tu_ns 1 (dt_seconds 3600) (dt_seconds 7200) /\ compare (ex_opt F_all 1 false) (backup_inode (dated [102] 3600 Fdir)) (dated [102] 7200 Fdir) = Ok tt.
Proof. split; [vm_compute; reflexivity|]. split; [exists 1; split; [lia|vm_compute; reflexivity]|vm_compute; reflexivity]. Qed.
Theorem C44_ignored_date_refuted : compare (ex_opt F_inode_type 0 false) (backup_inode (dated [102] 3600 (Ffile [1]))) (dated [102] 5 (Ffile [1])) = Err Erange /\
  compare (ex_opt F_inode_type 0 false) (backup_inode (dated [102] 3600 (Flink [1]))) (dated [102] 5 (Flink [1])) = Ok tt.
Proof. split; vm_compute; reflexivity. Qed.
(** An FSA that is missing in the filesystem, all those left coming before it: the list is read past its end. *)
Definition fsad (l : list fsa) : finode := Fin [102] 0 0 420 (dt_seconds 5) (dt_seconds 9) Fdir None (Some l).
Theorem C44_fsa_refuted : compare (ex_opt F_all 0 false) (backup_inode (fsad [Fsa 0 1 (Vbool true); Fsa 0 5 (Vbool true)])) (fsad [Fsa 0 1 (Vbool true)]) = Err UB.
Proof. vm_compute. reflexivity. Qed.
(** A directory the system refuses to tell about (its path being too long for instance): what it holds in the archive is compared with what is in the directory above, and the operation ends with an internal error. *)
Definition ex_refused (p : fpath) : lookup := match p with [[100]] => Fails Erange | [[102]] => Found (fi [102] (Ffile [1; 2; 3])) | [[103]] => Found (fx [103] (Ffile [4; 5])) | _ => Absent end.
Theorem C44_refused_directory_refuted : difference (ex_opt F_all 0 false) all_paths all_names ex_refused (map (backup ex_links) ex_root) =
  ([([[100]], Verr Erange); ([[102]; [100]], Vok); ([[108]; [100]], Vmissing); ([[103]], Vok)], Err Ebug).
Proof. vm_compute. reflexivity. Qed.
(** With an isolated catalogue the checksum only is compared. *)
Theorem C44_isolated_refuted : compare (ex_opt F_all 0 true) (backup_inode (fi [102] (Ffile [1; 0; 0; 0; 1; 0; 0; 0]))) (fi [102] (Ffile [2; 0; 0; 0; 2; 0; 0; 0])) = Ok tt.
Proof. vm_compute. reflexivity. Qed.
(** Of files of different lengths the offset given may be after the first difference. *)
Theorem C44_offset_refuted : exists v, gf_diff BUFFER_SIZE [1; 2; 3] [9; 2] 4 = Ok (true, v, 2).
Proof. eexists. vm_compute. reflexivity. Qed.
