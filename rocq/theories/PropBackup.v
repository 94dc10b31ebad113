(** * C49: what a backup takes from the filesystem *)
From Coq Require Import List Bool PeanoNat Lia.
From Verif Require Import Base BackupModel BackupSpec BackupProof BackupPaths BackupCount.
Import ListNotations.
Open Scope N_scope.

(** the backup ends with this archive and these counts *)
Definition outcome (c : cfg) (ref : option (list rnode)) (root : list fnode) (arc : list cent) (s : st) : Prop := exists fuel0, forall fuel, (fuel0 <= fuel)%nat -> backup fuel c ref root = Ok (arc, s).

Section Top.
Variable c : cfg.
Lemma outcome_unique : forall ref root a s a' s', outcome c ref root a s -> outcome c ref root a' s' -> a = a' /\ s = s'.
Proof. intros ref root a s a' s' [k H] [k' H']. specialize (H (k + k')%nat ltac:(lia)). specialize (H' (k + k')%nat ltac:(lia)). rewrite H in H'. injection H' as -> ->. auto. Qed.
Lemma outcome_none : forall root a s, outcome c None root a s <-> outcome c (Some []) root a s.
Proof. intros. unfold outcome, backup. reflexivity. Qed.
Lemma backup_ends : forall ref root, distinct root -> exists s, outcome c (Some ref) root (arc c [] (Some ref) (etage c root)) s /\ sm s = fold_left (hooks c [] (bl c (Some ref))) (etage c root) (Sem 0 [] []) /\
  errored s + pending_err s = err_all c [] (etage c root) 0 /\ ignored s + pending_skip s = ign_all c [] (etage c root) 0 /\ (forall l x, etage c root = l ++ [x] -> hidden c x = false -> pending_err s = 0 /\ pending_skip s = 0).
Proof.
  intros ref root H. destruct (loop_run c root ref H) as (k & s & R & Hc & Hs & He & Hi & _ & _ & _ & Z). exists s. split; [|auto]. exists k. intros fuel Hf. unfold backup. rewrite (R fuel Hf). cbn [bind]. rewrite Hc. reflexivity.
Qed.
Lemma found_met : forall root p x, found c root p x <-> met c [] (etage c root) p x.
Proof.
  intros root p x. unfold found, met. cbn [rev app]. rewrite etage_eq. destruct (cached c root) eqn:E.
  - apply cached_spec in E. split; [intros [K _]; contradiction|intro K; inversion K; contradiction].
  - split; [intros [_ K]; exact K|intro K; split; [intro Q; apply cached_spec in Q; congruence|exact K]].
Qed.
Lemma ref_rel_some : forall ref p r, ref_rel (Some ref) p r <-> ref_at ref p r.
Proof. intros. split; [intros (l & E & H); injection E as <-; exact H|intro H; exists ref; auto]. Qed.
Lemma compared_rel_some : forall ref p x a, compared_rel c (Some ref) p x a <-> compared c ref p x a.
Proof. intros ref p x [id|]; cbn; [split; intros [H (r & H1 & H2)]; (split; [exact H|]); exists r; (split; [apply (ref_rel_some ref p r); exact H1|exact H2])|split; (intros [H|H]; [left; exact H|right; intros r id K; apply H, (ref_rel_some ref p r), K])]. Qed.
Lemma kept_saved : forall root p x, saved c root p x <-> kept c [] (etage c root) p x.
Proof. intros. unfold saved, kept. rewrite found_met. reflexivity. Qed.
Lemma due_due : forall ref root p it, due c ref root p it <-> due_rel c [] (Some ref) (etage c root) p it.
Proof.
  intros ref root p it. split; intro H.
  - destruct H as [p n f a H1 H2|p n f o k a H1 H2|p n f o k H1 H2 H3|d n r H1 H2 H3 H4].
    + econstructor; [apply kept_saved; exact H1|apply compared_rel_some; exact H2].
    + eapply rel_dir; [apply kept_saved; exact H1|apply compared_rel_some; exact H2].
    + apply found_met in H1. eapply rel_empty; [exact H1|exact H2|exact H3].
    + eapply rel_removed; [apply ref_rel_some; exact H1|exact H2| |intros x K; apply (proj2 (found_met _ _ _)) in K; exact (H4 x K)]. destruct H3 as [H3|(m & f & o & k & H3)]; [left; exact H3|right; exists m, f, o, k; apply kept_saved; exact H3].
  - destruct H as [p n f a H1 H2|p n f o k a H1 H2|p n f o k H1 H2 H3|d n r H1 H2 H3 H4].
    + econstructor; [apply kept_saved; exact H1|apply compared_rel_some; exact H2].
    + eapply due_dir; [apply kept_saved; exact H1|apply compared_rel_some; exact H2].
    + apply found_met in H1. eapply due_empty; [exact H1|exact H2|exact H3].
    + eapply due_removed; [apply ref_rel_some; exact H1|exact H2| |intros x K; apply (proj1 (found_met _ _ _)) in K; exact (H4 x K)]. destruct H3 as [H3|(m & f & o & k & H3)]; [left; exact H3|right; exists m, f, o, k; apply kept_saved; exact H3].
Qed.
Lemma due_nil : forall ref root it, ~ due c ref root [] it.
Proof.
  intros ref root it H. inversion H as [p n f a H1 H2 E|p n f o k a H1 H2 E|p n f o k H1 H2 H3 E|d n r H1 H2 H3 H4 E].
  - destruct H1 as [H1 _]. apply found_met in H1. exact (met_nil _ _ _ _ H1).
  - destruct H1 as [H1 _]. apply found_met in H1. exact (met_nil _ _ _ _ H1).
  - apply found_met in H1. exact (met_nil _ _ _ _ H1).
  - destruct d; discriminate E.
Qed.
Lemma dumped_names : forall l, incl (map cname (flat_map dumped l)) (map cname l).
Proof. intros l m H. apply in_map_iff in H as (z & <- & H). apply in_flat_map in H as (y & Hy & Hz). apply in_map_iff. exists y. split; [|exact Hy]. destruct y; cbn [dumped In] in Hz; (destruct Hz as [<-|[]] || destruct Hz); reflexivity. Qed.
Lemma dumped_nodup : forall l, NoDup (map cname l) -> NoDup (map cname (flat_map dumped l)).
Proof.
  intro l. induction l as [|x l IH]; intro H; [constructor|]. cbn in H. inversion H as [|z zs Nz Nd E]. subst. specialize (IH Nd). assert (N1 : ~ In (cname x) (map cname (flat_map dumped l))) by (intro K; apply Nz, (dumped_names l), K). destruct x; cbn [flat_map dumped app map cname] in *; try (constructor; assumption). exact IH.
Qed.
Lemma upd_nodup : forall r cur, NoDup (map cname cur) -> NoDup (map cname (update_destroyed r cur)).
Proof. intro r. induction r as [|y r IH]; intros cur H; [exact H|]. cbn. apply IH, destroyed_nodup, H. Qed.
Lemma arc_nodup : forall here rb l, NoDup (map fname l) -> NoDup (map cname (arc c here rb l)).
Proof. intros here rb l H. unfold arc. apply dumped_nodup. pose proof (want_nodup c here (bl c rb) l H) as W. destruct rb as [r|]; [apply upd_nodup|]; exact W. Qed.
Lemma nil_distinct : distinct [].
Proof. constructor; [constructor|intros ? ? ? ? []]. Qed.
Lemma arc_distinct_nil : forall here rb, rb_ok rb -> cdistinct (arc c here rb []).
Proof.
  intros here rb Hr. constructor; [apply arc_nodup; constructor|]. intros n i a k H. apply (arc_level c here rb [] nil_distinct Hr) in H as [(m & f & [] & _)|[(m & f & o & k' & [] & _)|[(m & f & o & k' & [] & _)|(r & y & _ & _ & _ & _ & E)]]]. discriminate E.
Qed.
Lemma arc_distinct : forall l, distinct l -> forall here rb, rb_ok rb -> cdistinct (arc c here rb l).
Proof.
  intros l H. induction H as [l Nd Hs IH]. intros here rb Hr. assert (Hd : distinct l) by (constructor; assumption). constructor; [apply arc_nodup; exact Nd|]. intros n i a k H.
  apply (arc_level c here rb l Hd Hr) in H as [(m & f & H1 & H2 & H3 & H4 & E)|[(m & f & o & k' & H1 & H2 & H3 & H4 & E)|[(m & f & o & k' & H1 & H2 & H3 & H4 & E)|(r & y & _ & _ & _ & _ & E)]]]; try discriminate E.
  - injection E as -> -> -> ->. unfold entered. destruct (goes_in c o k'); [eapply IH; [exact H1|apply rb_below; exact Hr]|apply arc_distinct_nil, rb_below, Hr].
  - injection E as -> -> -> ->. constructor; [constructor|intros ? ? ? ? []].
Qed.

(** ** the theorems *)
(** a backup always ends, whatever the tree, the options, the errors met and the archive of reference *)
Theorem C49_backup_ends : forall ref root, distinct root -> exists a s, outcome c ref root a s.
Proof. intros [ref|] root H; [destruct (backup_ends ref root H) as (s & O & _); eauto|destruct (backup_ends [] root H) as (s & O & _); apply outcome_none in O; eauto]. Qed.

(** the archive has exactly what it has to have, and has it once *)
Theorem C49_backup : forall ref root a s, distinct root -> rdistinct ref -> outcome c (Some ref) root a s -> (forall p it, archived a p it <-> due c ref root p it) /\ cdistinct a.
Proof.
  intros ref root a s Hd Hr H. destruct (backup_ends ref root Hd) as (s' & O & _). destruct (outcome_unique _ _ _ _ _ _ H O) as [-> ->]. split; [|apply arc_distinct; [apply distinct_etage; exact Hd|exact Hr]].
  intros [|n q] it.
  - split; [intros (x & K & _); inversion K|intro K; destruct (due_nil _ _ _ K)].
  - rewrite due_due. apply arc_due; [apply distinct_etage; exact Hd|exact Hr].
Qed.
(** a full backup: what is found, wanted and readable *)
Theorem C49_full_backup : forall root a s, distinct root -> outcome c None root a s -> (forall p it, archived a p it <-> due c [] root p it) /\ cdistinct a /\ forall p, ~ archived a p Removed.
Proof.
  intros root a s Hd H. apply outcome_none in H. destruct (C49_backup [] root a s Hd) as [A B]; [constructor; [constructor|intros ? ? ? []]|exact H|]. split; [exact A|]. split; [exact B|]. intros p K. apply A in K. inversion K as [| | |d n r H1 H2 H3 H4 E]. subst. inversion H1; contradiction.
Qed.
(** an entry the backup has seen is never recorded as removed, be it left out by the filters, be it in error *)
Theorem C49_found_not_removed : forall ref root a s p x, distinct root -> rdistinct ref -> outcome c (Some ref) root a s -> found c root p x -> ~ archived a p Removed.
Proof. intros ref root a s p x Hd Hr H Hf K. apply (proj1 (C49_backup ref root a s Hd Hr H)) in K. inversion K as [| | |d n r H1 H2 H3 H4 E]. subst. exact (H4 x Hf). Qed.
(** and an entry of the reference that is nowhere on disk, in a directory that has been saved, is recorded as removed *)
Theorem C49_gone_is_removed : forall ref root a s d n r m f o k, distinct root -> rdistinct ref -> outcome c (Some ref) root a s -> ref_at ref (d ++ [n]) r -> (forall m, r <> RDet m) -> saved c root d (Dir m f o k) -> (forall x, ~ found c root (d ++ [n]) x) -> archived a (d ++ [n]) Removed.
Proof. intros ref root a s d n r m f o k Hd Hr H H1 H2 H3 H4. apply (proj1 (C49_backup ref root a s Hd Hr H)). eapply due_removed; eauto 10. Qed.

(** the counts: all that [read] counts, minus what its last call counts and loses *)
Theorem C49_counts : forall ref root a s, distinct root -> outcome c ref root a s -> exists E I, all_where c (in_error c) root E /\ all_where c (left_out c) root I /\
  errored s + pending_err s = N.of_nat (length E) /\ ignored s + pending_skip s = N.of_nat (length I) /\
  (forall l x, root = l ++ [x] -> readable c x -> errored s = N.of_nat (length E) /\ ignored s = N.of_nat (length I)).
Proof.
  intros ref root a s Hd H. assert (G : exists r, outcome c (Some r) root a s) by (destruct ref as [r|]; [exists r; exact H|exists []; apply outcome_none; exact H]). destruct G as [r G].
  destruct (backup_ends r root Hd) as (s' & O & _ & He & Hi & Z). destruct (outcome_unique _ _ _ _ _ _ G O) as [-> ->].
  exists (flat_map (counts c (berr c) []) (etage c root)), (flat_map (counts c (bign c) []) (etage c root)).
  assert (L1 : errored s' + pending_err s' = N.of_nat (length (flat_map (counts c (berr c) []) (etage c root)))) by (rewrite He; symmetry; apply sum_length; intros x _; apply errs_length).
  assert (L2 : ignored s' + pending_skip s' = N.of_nat (length (flat_map (counts c (bign c) []) (etage c root)))) by (rewrite Hi; symmetry; apply sum_length; intros x _; apply igns_length).
  split; [apply counted; [apply berr_spec|exact Hd]|]. split; [apply counted; [apply bign_spec|exact Hd]|]. split; [exact L1|]. split; [exact L2|].
  intros l x E Hx. assert (Q : pending_err s' = 0 /\ pending_skip s' = 0).
  { destruct (cached c root) eqn:Ec; [|apply (Z l x); [rewrite etage_eq, Ec; exact E|apply hidden_spec; exact Hx]]. rewrite etage_eq, Ec in He, Hi. cbn in He, Hi. lia. }
  destruct Q as [Q1 Q2]. rewrite Q1, N.add_0_r in L1. rewrite Q2, N.add_0_r in L2. auto.
Qed.
End Top.

(** ** an instance: filters, a cache directory, an excluded filesystem, errors, an unreadable directory *)
Definition nm (k : N) : name := [k].
Definition ok (i : N) : facts := Facts i 0 1 false false false false false false No_failure.
Definition demo_cfg : cfg := Cfg true true (fun p => match p with [[3]] => false | _ => true end) (fun n => match n with [9] => false | _ => true end) 1 [] [2] true true false (fun i a => match a with Some j => negb (i =? j) | None => true end) (fun _ => false).
Definition demo_root : list fnode := [
  Fil (nm 1) (ok 10);
  Dir (nm 2) (ok 11) true [Fil (nm 1) (ok 12); Fil (nm 9) (ok 13); Fil (nm 4) (Facts 14 0 1 true false false false false false No_failure); Fil (nm 5) (Facts 15 0 1 false false true false false false No_failure); Fil (nm 6) (Facts 16 0 1 false false false false false false Late)];
  Dir (nm 3) (ok 17) true [Fil (nm 1) (ok 18)];
  Dir (nm 4) (ok 19) true [Fil TAG (Facts 20 0 1 false false false false false true No_failure); Fil (nm 1) (ok 21)];
  Dir (nm 5) (Facts 22 0 2 false false false false false false No_failure) true [Fil (nm 1) (ok 23)];
  Dir (nm 6) (ok 24) false [Fil (nm 1) (ok 25)];
  Fil (nm 7) (ok 26)].
Definition demo_ref : list rnode := [RFil (nm 1) 0 10; RDir (nm 2) 5 [RFil (nm 1) 3 12; RFil (nm 9) 0 13; RFil (nm 6) 0 16; RFil (nm 8) 0 1]; RDir (nm 3) 17 [RFil (nm 1) 0 18]; RDet (nm 8); RFil (nm 10) 0 1].
Definition nodupb (l : list name) : bool := (fix go (l : list name) := match l with [] => true | x :: r => negb (existsb (fun y => if list_eq_dec N.eq_dec x y then true else false) r) && go r end) l.
Lemma nodupb_ok : forall l, nodupb l = true -> NoDup l.
Proof.
  intro l. induction l as [|x l IH]; intro H; [constructor|]. cbn in H. apply andb_true_iff in H as [H1 H2]. constructor; [|apply IH; exact H2]. intro K. apply negb_true_iff in H1. assert (existsb (fun y => if list_eq_dec N.eq_dec x y then true else false) l = true) by (apply existsb_exists; exists x; split; [exact K|destruct (list_eq_dec N.eq_dec x x); congruence]). congruence.
Qed.
Lemma demo_distinct : distinct demo_root.
Proof. repeat (constructor; [apply nodupb_ok; vm_compute; reflexivity|intros ? ? ? ? H; cbn in H; repeat (destruct H as [H|H]; [try discriminate H; injection H as <- <- <- <-|]); try destruct H]). Qed.
Lemma demo_rdistinct : rdistinct demo_ref.
Proof. repeat (constructor; [apply nodupb_ok; vm_compute; reflexivity|intros ? ? ? H; cbn in H; repeat (destruct H as [H|H]; [try discriminate H; injection H as <- <- <-|]); try destruct H]). Qed.
Example C49_instance : match backup 40 demo_cfg (Some demo_ref) demo_root with
  | Ok (a, s) => a = [CFil (nm 1) 10 (Some 10); CDir (nm 2) 11 (Some 5) [CFil (nm 1) 12 None; CDet (nm 8)]; CDir (nm 3) 17 None []; CDir (nm 4) 19 None []; CDir (nm 5) 22 None []; CDir (nm 6) 24 None []; CFil (nm 7) 26 None; CDet (nm 10)]
     /\ errored s = 2 /\ ignored s = 4 /\ pending_err s = 0
  | Err _ => False
  end.
Proof. vm_compute. repeat split. Qed.
Lemma loop_mono : forall c k n s s', loop n c s = Ok s' -> loop (n + k) c s = Ok s'.
Proof. intros c k n. induction n as [|n IH]; intros s s' H; [discriminate H|]. cbn [loop Nat.add] in *. destruct (step c s) as [[x|x]|]; cbn [bind] in *; auto. Qed.
Lemma outcome_run : forall c ref root a s fuel, backup fuel c ref root = Ok (a, s) -> outcome c ref root a s.
Proof.
  intros c ref root a s fuel H. exists fuel. intros f Hf. unfold backup in *. destruct (loop fuel c _) as [x|] eqn:E; [|discriminate H]. replace f with (fuel + (f - fuel))%nat by lia. rewrite (loop_mono c _ _ _ _ E). exact H.
Qed.
Theorem C49_instance_meets : exists a s, distinct demo_root /\ rdistinct demo_ref /\ outcome demo_cfg (Some demo_ref) demo_root a s /\ archived a [nm 2; nm 8] Removed /\ archived a [nm 2; nm 1] (File 12 None) /\ archived a [nm 1] (File 10 (Some 10)).
Proof.
  destruct (backup 40 demo_cfg (Some demo_ref) demo_root) as [[a s]|] eqn:E; [|vm_compute in E; discriminate E]. exists a, s. split; [apply demo_distinct|]. split; [apply demo_rdistinct|]. split; [eapply outcome_run; exact E|]. vm_compute in E. injection E as <- <-. repeat split.
  - exists (CDet (nm 8)). split; [|reflexivity]. eapply arc_below; [right; left; reflexivity|]. apply (arc_here _ (CDet (nm 8))). right. left. reflexivity.
  - exists (CFil (nm 1) 12 None). split; [|reflexivity]. eapply arc_below; [right; left; reflexivity|]. apply (arc_here _ (CFil (nm 1) 12 None)). left. reflexivity.
  - exists (CFil (nm 1) 10 (Some 10)). split; [|reflexivity]. apply (arc_here _ (CFil (nm 1) 10 (Some 10))). left. reflexivity.
Qed.

(** ** what does not hold *)
Definition plain_cfg (nodump tags : bool) : cfg := Cfg nodump tags (fun _ => true) (fun _ => true) 1 [] [] false false false (fun i a => match a with Some j => negb (i =? j) | None => true end) (fun _ => false).
(** an entry still on disk is recorded as removed when the nodump flag hides it, when its inode cannot be read, when it is in a cache directory or in a directory that cannot be opened: restoring this differential backup deletes it *)
Theorem C49_still_there_removed_refuted :
  (exists a s, outcome (plain_cfg true false) (Some [RFil (nm 1) 0 10]) [Fil (nm 1) (Facts 10 0 1 true false false false false false No_failure); Fil (nm 2) (ok 2)] a s /\ archived a [nm 1] Removed /\ errored s = 0) /\
  (exists a s, outcome (plain_cfg false false) (Some [RFil (nm 1) 0 10]) [Fil (nm 1) (Facts 10 0 1 false false true false false false No_failure); Fil (nm 2) (ok 2)] a s /\ archived a [nm 1] Removed) /\
  (exists a s, outcome (plain_cfg false true) (Some [RDir (nm 1) 3 [RFil (nm 4) 0 10]]) [Dir (nm 1) (ok 3) true [Fil (nm 4) (ok 10); Fil TAG (Facts 20 0 1 false false false false false true No_failure)]] a s /\ archived a [nm 1; nm 4] Removed /\ errored s = 0) /\
  (exists a s, outcome (plain_cfg false false) (Some [RDir (nm 1) 3 [RFil (nm 4) 0 10]]) [Dir (nm 1) (ok 3) false [Fil (nm 4) (ok 10)]] a s /\ archived a [nm 1; nm 4] Removed /\ errored s = 0).
Proof.
  split; [|split; [|split]].
  - destruct (backup 9 (plain_cfg true false) (Some [RFil (nm 1) 0 10]) [Fil (nm 1) (Facts 10 0 1 true false false false false false No_failure); Fil (nm 2) (ok 2)]) as [[a s]|] eqn:E; [|vm_compute in E; discriminate E]. exists a, s. split; [eapply outcome_run; exact E|]. vm_compute in E. injection E as <- <-. split; [|reflexivity]. exists (CDet (nm 1)). split; [|reflexivity]. apply (arc_here _ (CDet (nm 1))). right. left. reflexivity.
  - destruct (backup 9 (plain_cfg false false) (Some [RFil (nm 1) 0 10]) [Fil (nm 1) (Facts 10 0 1 false false true false false false No_failure); Fil (nm 2) (ok 2)]) as [[a s]|] eqn:E; [|vm_compute in E; discriminate E]. exists a, s. split; [eapply outcome_run; exact E|]. vm_compute in E. injection E as <- <-. exists (CDet (nm 1)). split; [|reflexivity]. apply (arc_here _ (CDet (nm 1))). right. left. reflexivity.
  - destruct (backup 9 (plain_cfg false true) (Some [RDir (nm 1) 3 [RFil (nm 4) 0 10]]) [Dir (nm 1) (ok 3) true [Fil (nm 4) (ok 10); Fil TAG (Facts 20 0 1 false false false false false true No_failure)]]) as [[a s]|] eqn:E; [|vm_compute in E; discriminate E]. exists a, s. split; [eapply outcome_run; exact E|]. vm_compute in E. injection E as <- <-. split; [|reflexivity]. exists (CDet (nm 4)). split; [|reflexivity]. eapply arc_below; [left; reflexivity|]. apply (arc_here _ (CDet (nm 4))). left. reflexivity.
  - destruct (backup 9 (plain_cfg false false) (Some [RDir (nm 1) 3 [RFil (nm 4) 0 10]]) [Dir (nm 1) (ok 3) false [Fil (nm 4) (ok 10)]]) as [[a s]|] eqn:E; [|vm_compute in E; discriminate E]. exists a, s. split; [eapply outcome_run; exact E|]. vm_compute in E. injection E as <- <-. split; [|reflexivity]. exists (CDet (nm 4)). split; [|reflexivity]. eapply arc_below; [left; reflexivity|]. apply (arc_here _ (CDet (nm 4))). left. reflexivity.
Qed.
(** an inode that cannot be read goes uncounted when nothing readable follows it: the backup reports no error at all *)
Theorem C49_lost_error_refuted : exists a s, outcome (plain_cfg false false) None [Fil (nm 2) (ok 2); Fil (nm 1) (Facts 10 0 1 false false true false false false No_failure)] a s /\
  (exists E, all_where (plain_cfg false false) (in_error (plain_cfg false false)) [Fil (nm 2) (ok 2); Fil (nm 1) (Facts 10 0 1 false false true false false false No_failure)] E /\ length E = 1%nat) /\ errored s = 0.
Proof.
  destruct (backup 9 (plain_cfg false false) None [Fil (nm 2) (ok 2); Fil (nm 1) (Facts 10 0 1 false false true false false false No_failure)]) as [[a s]|] eqn:E; [|vm_compute in E; discriminate E]. exists a, s. split; [eapply outcome_run; exact E|]. vm_compute in E. injection E as <- <-. split; [|reflexivity].
  eexists. split; [apply (counted _ (berr (plain_cfg false false))); [apply berr_spec|]|reflexivity]. constructor; [apply nodupb_ok; vm_compute; reflexivity|intros ? ? ? ? H; cbn in H; repeat (destruct H as [H|H]; [try discriminate H|]); try destruct H].
Qed.
Print Assumptions C49_backup_ends.
Print Assumptions C49_backup.
Print Assumptions C49_full_backup.
Print Assumptions C49_found_not_removed.
Print Assumptions C49_gone_is_removed.
Print Assumptions C49_counts.
Print Assumptions C49_instance_meets.
Print Assumptions C49_still_there_removed_refuted.
Print Assumptions C49_lost_error_refuted.
