(** * Property C40: restoring a full backup and then the differential backups that follow, in order, gives the files as they were at
    the time of the last backup. *)
From Coq Require Import NArith List Bool Lia.
From Verif Require Import Base DatetimeModel PropDatetime PropChange CritModel RestoreModel RestoreSpec RestoreProof RestoreProof2 RestoreProof3 RestoreProof4 RestoreProof5.
Import ListNotations.
Open Scope N_scope.
Local Set Warnings "-notation-overridden".

(** the default overwriting policy: overwrite data and EA; all entries of the archive are asked for *)
Definition overwriting : head -> cnode -> adata * aea := fun _ _ => (D_overwrite, A_overwrite).
Definition everything : list (list N) -> bool -> bool := fun _ _ => true.

Lemma trel_spec : forall cov s R T, trel cov s [] R T -> forall p,
  both same_content (look R p) (if selected cov [] p then look T p else None) /\
  (s = true -> both same_inode (look R p) (if selected cov [] p then look T p else None)).
Proof.
  intros cov s R T H p. assert (E := H p). unfold lookc in E. destruct (look R p) as [a|], (if selected cov [] p then look T p else None) as [b|]; cbn [both] in *; try contradiction; auto.
  destruct E as (E1 & E2 & E3). split; [split; auto|]. intro S. destruct (E3 S) as (? & ? & ? & ? & ?). unfold same_inode. auto 10.
Qed.

(** The types and data restored are, at every path the filters of the backups select, those of the last state -- and nothing else
    is there; no restoration aborts or reports an error. *)
Theorem C40_content : forall me_uid me_gid now cap hourshift cov root first others,
  h_kind root = KDir -> (forall t, In t (first :: others) -> regular t) -> consecutive (honest cap hourshift) (first :: others) ->
  exists r, restore_all me_uid me_gid now overwriting everything (archives cap hourshift cov [] (first :: others)) (Node root []) = Some r /\
    forall p, both same_content (look (ch_of r) p) (if selected cov [] p then look (last others first) p else None).
Proof.
  intros me_uid me_gid now cap hourshift cov root first others K Rg Cs.
  destruct (chain me_uid me_gid now cov false cap hourshift (first :: others) [] [] (Node root [])) as (r & R & Tr); auto.
  - apply cmatch_nil. - constructor; [constructor|cbn; discriminate]. - apply trel_nil. - apply regular_nil.
  - split; [split; [intros p a b H; rewrite look_nil in H; discriminate|discriminate]|].
    clear - Cs. revert first Cs. induction others as [|t l IH]; intros first Cs; [exact I|]. destruct Cs as [H Cs]. split; [split; [exact H|discriminate]|]. apply IH. exact Cs.
  - exists r. split; [exact R|]. intro p. replace (last others first) with (last (first :: others) []); [exact (proj1 (trel_spec cov false _ _ Tr p))|].
    destruct others as [|t l]; [reflexivity|]. change (last (first :: t :: l) []) with (last (t :: l) []). apply last_any.
Qed.
Print Assumptions C40_content.

(** The owners, permissions, dates and EA are restored too, provided that no path goes from a directory to another type, nor from an
    inode with EA to an inode of another type without EA. *)
Theorem C40_exact : forall me_uid me_gid now cap hourshift cov root first others,
  h_kind root = KDir -> (forall t, In t (first :: others) -> regular t) -> consecutive (honest cap hourshift) (first :: others) ->
  consecutive type_kept (first :: others) ->
  exists r, restore_all me_uid me_gid now overwriting everything (archives cap hourshift cov [] (first :: others)) (Node root []) = Some r /\
    forall p, both same_inode (look (ch_of r) p) (if selected cov [] p then look (last others first) p else None).
Proof.
  intros me_uid me_gid now cap hourshift cov root first others K Rg Cs Ct.
  destruct (chain me_uid me_gid now cov true cap hourshift (first :: others) [] [] (Node root [])) as (r & R & Tr); auto.
  - apply cmatch_nil. - constructor; [constructor|cbn; discriminate]. - apply trel_nil. - apply regular_nil.
  - split; [split; [intros p a b H; rewrite look_nil in H; discriminate|intros _ p a b H; rewrite look_nil in H; discriminate]|].
    clear - Cs Ct. revert first Cs Ct. induction others as [|t l IH]; intros first Cs Ct; [exact I|]. destruct Cs as [H Cs]. destruct Ct as [H' Ct]. split; [split; auto|]. apply IH; assumption.
  - exists r. split; [exact R|]. intro p. replace (last others first) with (last (first :: others) []); [exact (proj2 (trel_spec cov true _ _ Tr p) eq_refl)|].
    destruct others as [|t l]; [reflexivity|]. change (last (first :: t :: l) []) with (last (t :: l) []). apply last_any.
Qed.
Print Assumptions C40_exact.

(** A full backup restored in an empty directory: no hypothesis on dates is needed. *)
Theorem C40_full : forall me_uid me_gid now cap hourshift cov root tree, h_kind root = KDir -> regular tree ->
  exists r, restore_all me_uid me_gid now overwriting everything [backup cap hourshift cov [] tree] (Node root []) = Some r /\
    forall p, both same_inode (look (ch_of r) p) (if selected cov [] p then look tree p else None).
Proof.
  intros. apply (C40_exact me_uid me_gid now cap hourshift cov root tree []); auto; try exact I. intros t [<-|[]]; assumption.
Qed.
Print Assumptions C40_full.

(** Whatever the archive, the filters, the policy and the filesystem, a restoration ends. *)
Theorem C40_ends : forall me_uid me_gid now pol cov arc t,
  (exists s, restore me_uid me_gid now pol cov arc t = Finished s) \/ (exists s, restore me_uid me_gid now pol cov arc t = Aborted s).
Proof. intros. apply restore_ends. Qed.
Print Assumptions C40_ends.

(** Under a policy that preserves existing data and EA, whatever the archive, the filters and the filesystem, every inode is still there
    after the restoration (even if it aborts), with its type, data and EA, and exactly as it was if it is not a directory. *)
Theorem C40_preserve : forall me_uid me_gid now pol cov arc t s,
  (forall h x, (fst (pol h x) = D_preserve \/ fst (pol h x) = D_preserve_mark) /\ (snd (pol h x) = A_preserve \/ snd (pol h x) = A_preserve_mark)) ->
  restore me_uid me_gid now pol cov arc t = Finished s \/ restore me_uid me_gid now pol cov arc t = Aborted s ->
  forall p h, look (ch_of t) p = Some h -> exists h', look (ch_of (fs s)) p = Some h' /\
    h_kind h' = h_kind h /\ h_data h' = h_data h /\ h_ea h' = h_ea h /\ (h_kind h <> KDir -> h' = h).
Proof.
  intros me_uid me_gid now pol cov arc t s Hp Hr p h Hl. assert (P := restore_preserve me_uid me_gid now pol cov Hp arc t).
  assert (K : keep t (fs s)) by (destruct Hr as [E|E]; rewrite E in P; exact P).
  destruct p as [|n q]; [discriminate|]. rewrite look_fget in Hl by discriminate. destruct (fget (n :: q) t) as [x|] eqn:E; [|discriminate]. injection Hl as <-.
  destruct (K _ _ E) as (x' & E' & A). exists (hd_of x'). rewrite look_fget by discriminate. rewrite E'. split; [reflexivity|]. exact A.
Qed.
Print Assumptions C40_preserve.

(** What the filters of a restoration exclude is left as it was, or absent as it was, with all that is below it, even if the restoration
    aborts: provided that no policy asks for a removal, that the archive has nothing but directories on the way to it, and that it has no
    directory recorded as unchanged since its archive of reference. *)
Theorem C40_filter : forall me_uid me_gid now pol cov arc root tree s x, h_kind root = KDir -> regular tree ->
  (forall h e, fst (pol h e) <> D_remove) -> x <> [] -> (forall isdir, cov (rev x) isdir = false) -> dirs_saved arc -> spares x arc ->
  restore me_uid me_gid now pol cov arc (Node root tree) = Finished s \/ restore me_uid me_gid now pol cov arc (Node root tree) = Aborted s ->
  forall q, look (ch_of (fs s)) (x ++ q) = look tree (x ++ q).
Proof.
  intros me_uid me_gid now pol cov arc root tree s x K R Hp Nx Ex Ds Sp Hr q.
  assert (P := restore_excluded me_uid me_gid now pol cov Hp x Ex Nx arc (Node root tree) Sp Ds (regular_along x root tree R K)).
  assert (F : fget x (fs s) = fget x (Node root tree)) by (destruct Hr as [E|E]; rewrite E in P; apply P).
  change tree with (ch_of (Node root tree)) at 1. rewrite !look_fget by (intro Z; apply app_eq_nil in Z; tauto).
  assert (G : forall a b t, fget (a ++ b) t = match fget a t with Some d => fget b d | None => None end).
  { clear. induction a as [|n a IH]; intros b t; [reflexivity|]. cbn [fget app]. destruct (aget n (ch_of t)); [apply IH|reflexivity]. }
  rewrite !G, F. reflexivity.
Qed.
Print Assumptions C40_filter.
(** In particular when restoring a full backup of a tree that has nothing but directories on the way to that path. *)
Theorem C40_filter_full : forall me_uid me_gid now pol cov cap hourshift bcov saved root tree s x, h_kind root = KDir -> regular tree -> regular saved ->
  (forall h e, fst (pol h e) <> D_remove) -> x <> [] -> (forall isdir, cov (rev x) isdir = false) ->
  (forall y r h, x = y ++ r -> y <> [] -> r <> [] -> look saved y = Some h -> h_kind h = KDir) ->
  restore me_uid me_gid now pol cov (backup cap hourshift bcov [] saved) (Node root tree) = Finished s \/
  restore me_uid me_gid now pol cov (backup cap hourshift bcov [] saved) (Node root tree) = Aborted s ->
  forall q, look (ch_of (fs s)) (x ++ q) = look tree (x ++ q).
Proof.
  intros me_uid me_gid now pol cov cap hourshift bcov saved root tree s x K R R' Hp Nx Ex Ds. apply C40_filter; auto; unfold backup; rewrite destroyed_ref_nil; [apply full_saved|apply full_spares; assumption].
Qed.
Print Assumptions C40_filter_full.

(** ** a concrete history: three states with a modified file, a removed one, EA added and removed, a new directory *)
Definition at_s (n : N) : datetime := DT n tu_s.
Definition file (perm mtime ctime : N) (data : list N) ea : node := Node (Head KFile 1000 100 perm (at_s mtime) (at_s ctime) data ea) [].
Definition dir (perm mtime : N) ch : node := Node (Head KDir 1000 100 perm (at_s mtime) (at_s mtime) [] []) ch.
Definition na : list N := [97]. Definition nb : list N := [98]. Definition nc : list N := [99]. Definition nd : list N := [100].
Definition t0 : list (list N * node) := [(na, file 420 10 10 [1; 2] []); (nd, dir 493 11 [(nb, file 384 12 12 [3] [(na, [7])])])].
Definition t1 : list (list N * node) := [(nd, dir 493 20 [(nc, file 420 20 20 [5; 5] [(nb, [8])]); (nb, file 384 12 21 [3] [])]); (na, file 420 22 22 [1; 3] [])].
Definition t2 : list (list N * node) := [(nd, dir 493 30 [(nc, file 420 20 20 [5; 5] [(nb, [8])]); (nb, dir 448 30 [])])].
Definition root0 : head := Head KDir 0 0 493 (at_s 0) (at_s 0) [] [].
Ltac nodup := repeat (constructor; [cbn; intuition discriminate|]); constructor.
Ltac reg := constructor; [cbn [map fst]; nodup|let n := fresh in let h := fresh in let c := fresh in let I := fresh in intros n h c I; cbn [In] in I;
  repeat (destruct I as [I|I]; [injection I as <- <- <-; cbn [h_kind h_data h_ea h_perm];
    split; [intro; congruence|split; [intro; congruence|split; [cbn [map fst]; nodup|split; [intro; discriminate|reg]]]]|]); destruct I].
(** all the paths of a tree, to look at them one by one *)
Fixpoint flat (rp : list (list N)) (t : node) : list (list (list N) * head) :=
  match t with Node h c => (fix go l := match l with [] => [] | (n, x) :: r => (rp ++ [n], hd_of x) :: flat (rp ++ [n]) x ++ go r end) c end.
Lemma look_flat : forall p rp h c a, look c p = Some a -> In (rp ++ p, a) (flat rp (Node h c)).
Proof.
  induction p as [|n q IH]; intros rp h c a H; [discriminate|]. cbn [flat]. induction c as [|[m x] r IHr]; [cbn in H; discriminate|].
  cbn [look entry_named] in H. destruct (list_eq_dec N.eq_dec n m) as [->|NE].
  - destruct x as [xh xc]. destruct q as [|n' q'].
    + injection H as <-. left. reflexivity.
    + right. apply in_or_app. left. replace (rp ++ m :: n' :: q') with ((rp ++ [m]) ++ n' :: q') by (rewrite <- app_assoc; reflexivity). apply IH. exact H.
  - right. apply in_or_app. right. apply IHr. cbn [look]. exact H.
Qed.
Lemma date_seen0 : forall cap a b, instant (i_mod b) / unit_ns (unit_max (uni (i_mod b)) (uni (i_mod a))) <> instant (i_mod a) / unit_ns (unit_max (uni (i_mod b)) (uni (i_mod a))) -> date_seen cap a b 0.
Proof. intros. exact H. Qed.
Ltac same := split; [intros _; split; [reflexivity|split; [reflexivity|split; [reflexivity|split; [reflexivity|reflexivity]]]]|intros _; reflexivity].
Ltac newdate := match goal with |- ~ ?P -> _ => let Q := fresh in intro Q; exfalso; apply Q; right; right; right; right; apply date_seen0; vm_compute; discriminate end.
Lemma honest01 : honest tu_ns 0 t0 t1.
Proof.
  intros p a b Ha Hb K. apply (look_flat p [] root0) in Ha. apply (look_flat p [] root0) in Hb.
  unfold t0, t1, dir, file in Ha, Hb. cbn [flat app hd_of In] in Ha, Hb.
  destruct Ha as [Ha|[Ha|[Ha|[]]]]; injection Ha as <- <-; (destruct Hb as [Hb|[Hb|[Hb|[Hb|[]]]]]; [..|]; try discriminate Hb; injection Hb as <-).
  - split; [newdate|intros _; reflexivity].
  - split; [newdate|intros _; reflexivity].
  - split; [intros _; split; [reflexivity|split; [reflexivity|split; [reflexivity|split; [reflexivity|reflexivity]]]]|].
    intro Q. exfalso. apply Q. vm_compute. reflexivity.
Qed.
Lemma honest12 : honest tu_ns 0 t1 t2.
Proof.
  intros p a b Ha Hb K. apply (look_flat p [] root0) in Ha. apply (look_flat p [] root0) in Hb.
  unfold t1, t2, dir, file in Ha, Hb. cbn [flat app hd_of In] in Ha, Hb.
  destruct Ha as [Ha|[Ha|[Ha|[Ha|[]]]]]; injection Ha as <- <-; (destruct Hb as [Hb|[Hb|[Hb|[]]]]; [..|]; try discriminate Hb; injection Hb as <-; try discriminate K).
  - split; [newdate|intros _; reflexivity].
  - same.
Qed.
Example C40_instance :
  (forall t, In t [t0; t1; t2] -> regular t) /\ consecutive (honest tu_ns 0) [t0; t1; t2] /\
  (exists r, restore_all 0 0 (at_s 99) overwriting everything (archives tu_ns 0 (fun _ => true) [] [t0; t1]) (Node root0 []) = Some r /\
     look (ch_of r) [na] = Some (Head KFile 1000 100 420 (at_s 22) (at_s 99) [1; 3] []) /\
     option_map h_mtime (look (ch_of r) [nd]) = Some (at_s 20) /\ option_map h_ea (look (ch_of r) [nd; nb]) = Some []) /\
  (exists r, restore_all 0 0 (at_s 99) overwriting everything (archives tu_ns 0 (fun _ => true) [] [t0; t1; t2]) (Node root0 []) = Some r /\
     look (ch_of r) [na] = None /\ option_map h_kind (look (ch_of r) [nd; nb]) = Some KDir).
Proof.
  split; [|split; [|split]].
  - intros t [<-|[<-|[<-|[]]]]; reg.
  - cbn [consecutive]. split; [|split; [|exact I]].
    + exact honest01.
    + exact honest12.
  - eexists. split; [vm_compute; reflexivity|]. vm_compute. auto.
  - eexists. split; [vm_compute; reflexivity|]. vm_compute. auto.
Qed.

(** ** what the hypotheses are for: histories where the code does not do what its user relies on *)
Definition arcs := archives tu_ns 0 (fun _ => true) [].
Definition restored ts := restore_all 0 0 (at_s 99) overwriting everything (arcs ts) (Node root0 []).
Definition here (t : option node) p := match t with Some r => look (ch_of r) p | None => None end.

(** a directory becomes a file: its data are restored, but not its owner, permissions and date (filesystem_restore.cpp:540-544) *)
Definition u0 := [(nd, dir 493 11 [(nb, file 384 12 12 [3] [])])].
Definition u1 := [(nd, file 384 20 20 [9] [])].
Theorem C40_dir_to_file_refuted : 
  here (restored [u0; u1]) [nd] = Some (Head KFile 0 0 448 (at_s 99) (at_s 99) [9] []) /\
  look u1 [nd] = Some (Head KFile 1000 100 384 (at_s 20) (at_s 20) [9] []).
Proof. split; vm_compute; reflexivity. Qed.

(** a file with EA becomes a named pipe without EA: the pipe restored has the EA of the file *)
Definition pipe mtime := Node (Head (KOther 112) 1000 100 384 (at_s mtime) (at_s mtime) [] []) [].
Theorem C40_ea_leak_refuted : exists h, here (restored [[(na, file 384 12 12 [3] [(nb, [7])])]; [(na, pipe 20)]]) [na] = Some h /\
  h_kind h = KOther 112 /\ h_ea h = [(nb, [7])] /\ h_mtime h = at_s 20.
Proof. eexists. split; [vm_compute; reflexivity|]. repeat split. Qed.

(** a policy that removes: the entry is removed as asked for, but an error is counted, and the date of the parent directory is not set back *)
Definition removing : head -> cnode -> adata * aea := fun h x => match h_kind h with KDir => (D_preserve, A_preserve) | _ => (D_remove, A_preserve) end.
Theorem C40_remove_refuted : exists s, restore 0 0 (at_s 99) removing everything (backup tu_ns 0 (fun _ => true) [] u0) (Node root0 u0) = Finished s /\
  errs s = 1%nat /\ look (ch_of (fs s)) [nd; nb] = None /\ look u0 [nd; nb] <> None /\
  option_map h_mtime (look (ch_of (fs s)) [nd]) = Some (at_s 99) /\ option_map h_mtime (look u0 [nd]) = Some (at_s 11).
Proof. eexists. split; [vm_compute; reflexivity|]. repeat split; vm_compute; discriminate. Qed.

(** a directory not saved (unchanged) in a differential archive, where the filesystem has a file of that name: what the archive has below
    the directory is restored beside it, in its parent directory, and the restoration stops *)
Definition v0 := [(nd, dir 493 11 [(nb, file 384 12 12 [3] [])])].
Definition v1 := [(nd, dir 493 11 [(nb, file 384 20 20 [4] [])]); (nc, file 384 20 20 [5] [])].
Definition v_diff := backup tu_ns 0 (fun _ => true) (backup tu_ns 0 (fun _ => true) [] v0) v1.
Theorem C40_astray_refuted : exists s, restore 0 0 (at_s 99) overwriting everything v_diff (Node root0 [(nd, file 384 1 1 [1] [])]) = Aborted s /\
  option_map h_data (look (ch_of (fs s)) [nb]) = Some [4] /\ look v1 [nb] = None /\ look (ch_of (fs s)) [nc] = None /\ look v1 [nc] <> None.
Proof. eexists. split; [vm_compute; reflexivity|]. repeat split; vm_compute; discriminate. Qed.

(** a policy that preserves: the owner, permissions and date of an existing directory are nevertheless changed when an entry is added to it *)
Definition preserving : head -> cnode -> adata * aea := fun _ _ => (D_preserve, A_preserve).
Theorem C40_preserve_dir_refuted : exists s,
  restore 0 0 (at_s 99) preserving everything (backup tu_ns 0 (fun _ => true) [] u0) (Node root0 [(nd, dir 511 50 [])]) = Finished s /\ errs s = 0%nat /\
  option_map h_perm (look (ch_of (fs s)) [nd]) = Some 493 /\ option_map h_mtime (look (ch_of (fs s)) [nd]) = Some (at_s 11).
Proof. eexists. split; [vm_compute; reflexivity|]. repeat split. Qed.
Print Assumptions C40_astray_refuted.

(** a concrete case for C40_preserve: a filesystem that differs from the archive everywhere, and a restoration that ends without error *)
Example C40_preserve_instance : exists s,
  restore 0 0 (at_s 99) preserving everything (backup tu_ns 0 (fun _ => true) [] t1) (Node root0 t0) = Finished s /\ errs s = 0%nat /\
  option_map h_data (look (ch_of (fs s)) [na]) = Some [1; 2] /\ option_map h_data (look (ch_of (fs s)) [nd; nc]) = Some [5; 5] /\
  option_map h_ea (look (ch_of (fs s)) [nd; nb]) = Some [(na, [7])].
Proof. eexists. split; [vm_compute; reflexivity|]. repeat split. Qed.
(** without the hypothesis on dates: a change of data with the same size, date, owner and permissions is not seen, nor restored *)
Theorem C40_unseen_refuted : exists h, here (restored [[(na, file 420 10 10 [1] [])]; [(na, file 420 10 20 [2] [])]]) [na] = Some h /\ h_data h = [1].
Proof. eexists. split; [vm_compute; reflexivity|]. reflexivity. Qed.

(** an unchanged directory in a differential archive: a file the filters exclude is overwritten by one of the same name below the directory *)
Definition only_d : list (list N) -> bool -> bool := fun rp _ => match rev rp with n :: _ => name_eqb n nd | [] => true end.
Theorem C40_filter_refuted : exists s, restore 0 0 (at_s 99) overwriting only_d v_diff (Node root0 [(nd, file 384 1 1 [1] []); (nb, file 384 1 1 [77] [])]) = Aborted s /\
  (forall b, only_d [nb] b = false) /\ option_map h_data (look (ch_of (fs s)) [nb]) = Some [4].
Proof. eexists. split; [vm_compute; reflexivity|]. repeat split. Qed.
(** the same filters with a full backup: the file is left as it was *)
Example C40_filter_instance : exists s, restore 0 0 (at_s 99) overwriting only_d (backup tu_ns 0 (fun _ => true) [] v1) (Node root0 [(nd, file 384 1 1 [1] []); (nb, file 384 1 1 [77] [])]) = Finished s /\
  regular v1 /\ regular [(nd, file 384 1 1 [1] []); (nb, file 384 1 1 [77] [])] /\
  option_map h_data (look (ch_of (fs s)) [nb]) = Some [77] /\ option_map h_data (look (ch_of (fs s)) [nd; nb]) = Some [4] /\ look (ch_of (fs s)) [nc] = None.
Proof. eexists. split; [vm_compute; reflexivity|]. split; [reg|]. split; [reg|]. vm_compute. auto. Qed.
