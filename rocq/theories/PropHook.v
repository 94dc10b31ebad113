(** * C50: the hooks of a backup *)
From Coq Require Import List Bool PeanoNat Lia.
From Verif Require Import Base BackupModel BackupSpec BackupProof BackupPaths BackupCount PropBackup HookSpec HookProof HookPaths.
Import ListNotations.
Open Scope N_scope.

Section Top.
Variable c : cfg.
Lemma to_save_sv : forall ref root p x, to_save c ref root p x <-> sv c [] (Some ref) (etage c root) p x.
Proof.
  intros ref root p x. unfold to_save, sv. cbn [rev app]. rewrite <- found_met. split; intros (A & B & C & a & D & E); repeat (split; [assumption|]); exists a; (split; [apply (compared_rel_some c ref p x a); exact D|exact E]).
Qed.
Lemma copied_cp : forall ref root p, copied_file c ref root p <-> cp c [] (Some ref) (etage c root) p.
Proof. intros. unfold copied_file, cp. split; intros (n & f & A & B); exists n, f; (split; [exact A|]); apply to_save_sv; exact B. Qed.
Lemma selected_sel : forall ref root p, selected c ref root p <-> sel c [] (Some ref) (etage c root) p.
Proof. intros. unfold selected, sel. cbn [rev app]. split; intros [A (x & B)]; (split; [exact A|]); exists x; apply to_save_sv; exact B. Qed.
Lemma hooked_hkd : forall ref root p, hooked c ref root p <-> hkd c [] (Some ref) (etage c root) p.
Proof. intros. unfold hooked, hkd. rewrite selected_sel. split; intros [A B]; (split; [exact A|]); intros d e E He K; apply (B d e E He), selected_sel, K. Qed.
Lemma blk_well : forall ref root L, blk c [] (Some ref) (etage c root) L -> well_hooked c ref root L.
Proof.
  intros ref root L H. induction H as [|q L H1 H2 HL IH|q g L H1 H2 H3 HL IH]; [constructor| |].
  - cbn [rev app]. constructor; [apply copied_cp; exact H1| |exact IH]. intros d e E K. apply (H2 d e E), selected_sel, K.
  - cbn [rev app]. constructor; [apply hooked_hkd; exact H1|exact H2| |exact IH]. intro f. rewrite H3, copied_cp. reflexivity.
Qed.
Lemma calm_calm : forall root, calm c root -> calm_rel c [] (etage c root).
Proof. intros root H q n f o k M. cbn [rev app]. apply (H q n f o k). apply found_met. exact M. Qed.

(** every file is read once; each entry selected by the hooks and under no other selected directory has its start command run before, and its end command run after, the files it stands for are read, and no other file is read nor any other command run in between *)
Theorem C50_hooks : forall ref root a s, distinct root -> rdistinct ref -> calm c root -> outcome c (Some ref) root a s ->
  well_hooked c ref root (map seen (log (sm s))) /\ NoDup (map seen (log (sm s))) /\
  (forall p, In (Reads p) (map seen (log (sm s))) <-> copied_file c ref root p) /\ (forall p, In (Start p) (map seen (log (sm s))) <-> hooked c ref root p).
Proof.
  intros ref root a s Hd Hr Hc H. destruct (backup_ends c ref root Hd) as (s' & O & Hs & _). destruct (outcome_unique c _ _ _ _ _ _ H O) as [_ ->]. rewrite Hs.
  assert (De : distinct (etage c root)) by (apply distinct_etage; exact Hd). assert (Ok_ : rb_ok (Some ref)) by exact Hr.
  destruct (whole c (bl c (Some ref)) (etage c root)) as [ch E]. { apply forallb_forall. intros x Hx. apply (good_of c x [] _ (etage c root) Hx), calm_calm, Hc. }
  rewrite E. cbn [log]. clear E.
  assert (Inj : forall e e', seen e = seen e' -> e = e'). { intros [p|p|p] [q|q|q] K; cbn in K; try discriminate K; injection K as K; rewrite <- (rev_involutive p), <- (rev_involutive q), K; reflexivity. }
  split; [|split; [|split]].
  - apply blk_well, blk_list. intros x Hx. apply logs_blk; auto.
  - assert (Nd : NoDup (flat_map (logs c [] (bl c (Some ref))) (etage c root))). { apply (flat_nodup2 _ path_of _ []); [intros x e K; apply (logs_prefix c _ _ _ _ K)|apply distinct_nodup; exact De|]. intros x Hx. apply logs_nodup. apply (sub_distinct (etage c root)); assumption. }
    induction Nd as [|e L He Nd IH]; [constructor|]. cbn. constructor; [|exact IH]. intro K. apply in_map_iff in K as (e' & E & K). apply Inj in E. subst e'. contradiction.
  - intro p. rewrite copied_cp, in_map_iff. destruct p as [|n q].
    + split; [intros (e & E & K)|intro K; destruct (cp_nil c _ _ _ K)]. apply in_flat_map in K as (x & _ & K). apply logs_prefix in K as (q & E2). destruct e as [p|p|p]; try discriminate E. cbn in E. injection E as E. cbn [path_of] in E2. rewrite E in E2. destruct (rev []); discriminate E2.
    + rewrite <- (datas_iff c q n [] (Some ref) (etage c root) De Ok_). cbn [rev app]. rewrite in_flat_map. split.
      * intros (e & E & K). apply in_flat_map in K as (x & Hx & K). destruct e as [p|p|p]; try discriminate E. cbn in E. injection E as E. exists x. split; [exact Hx|]. apply datas_logs in K. change (rev q ++ [n]) with (rev (n :: q)). rewrite <- E, rev_involutive. exact K.
      * intros (x & Hx & K). exists (Data (rev (n :: q))). split; [cbn [seen]; rewrite rev_involutive; reflexivity|]. apply in_flat_map. exists x. split; [exact Hx|]. apply datas_logs. exact K.
  - intro p. rewrite hooked_hkd, in_map_iff. destruct p as [|n q].
    + split; [intros (e & E & K)|intros [K _]; destruct (sel_nil c _ _ _ K)]. apply in_flat_map in K as (x & _ & K). apply logs_prefix in K as (q & E2). destruct e as [p|p|p]; try discriminate E. cbn in E. injection E as E. cbn [path_of] in E2. rewrite E in E2. destruct (rev []); discriminate E2.
    + rewrite <- (starts_iff c q n [] (Some ref) (etage c root) De Ok_). cbn [rev app]. split.
      * intros (e & E & K). destruct e as [p|p|p]; try discriminate E. cbn in E. injection E as E. change (rev q ++ [n]) with (rev (n :: q)). rewrite <- E, rev_involutive. exact K.
      * intro K. exists (Hook_start (rev (n :: q))). split; [cbn [seen]; rewrite rev_involutive; reflexivity|]. exact K.
Qed.
(** the hooks never make the backup fail (SRC_BUG in raise), calm or not: see C49_backup_ends *)

(** every start has its end, in a calm backup *)
Theorem C50_all_ended : forall ref root a s p, distinct root -> rdistinct ref -> calm c root -> outcome c (Some ref) root a s -> In (Start p) (map seen (log (sm s))) -> In (Finish p) (map seen (log (sm s))).
Proof.
  intros ref root a s p Hd Hr Hc H. destruct (C50_hooks ref root a s Hd Hr Hc H) as [W _]. induction W as [|q L H1 H2 HL IH|q g L H1 H2 H3 HL IH]; intro K.
  - destruct K.
  - destruct K as [K|K]; [discriminate K|]. right. apply IH, K.
  - destruct K as [K|K]; [injection K as ->; right; apply in_or_app; right; left; reflexivity|]. apply in_app_or in K as [K|[K|K]]; [apply in_map_iff in K as (f & E & _); discriminate E|discriminate K|]. right. apply in_or_app. right. right. apply IH, K.
Qed.
(** a full backup *)
Theorem C50_full_backup : forall root a s, distinct root -> calm c root -> outcome c None root a s -> well_hooked c [] root (map seen (log (sm s))) /\ NoDup (map seen (log (sm s))) /\ (forall p, In (Reads p) (map seen (log (sm s))) <-> copied_file c [] root p) /\ (forall p, In (Start p) (map seen (log (sm s))) <-> hooked c [] root p).
Proof. intros root a s Hd Hc H. apply outcome_none in H. eapply C50_hooks; eauto. constructor; [constructor|intros ? ? ? []]. Qed.
End Top.

(** ** an instance: a directory and a file selected, an excluded directory elsewhere, a file that fails *)
Definition hook_cfg : cfg := Cfg false false (fun p => match p with [[5]] => false | [[1]; [6]] => false | _ => true end) (fun _ => true) 1 [] [] false false false (fun i a => match a with Some j => negb (i =? j) | None => true end)
  (fun p => match p with [[2]] => true | [[2]; [1]] => true | [[3]; [1]] => true | _ => false end).
Definition hook_root : list fnode := [
  Fil (nm 1) (ok 10);
  Dir (nm 2) (ok 11) true [Fil (nm 1) (ok 12); Dir (nm 2) (ok 13) true [Fil (nm 1) (ok 14); Fil (nm 2) (Facts 15 0 1 false false false false false false Late)]; Fil (nm 3) (ok 16)];
  Dir (nm 3) (ok 17) true [Fil (nm 1) (ok 18); Fil (nm 2) (ok 19)];
  Dir (nm 5) (ok 20) true [Fil (nm 1) (ok 21)]].
Definition hook_ref : list rnode := [RFil (nm 1) 0 10; RDir (nm 2) 4 [RFil (nm 3) 0 16]; RDir (nm 3) 17 [RFil (nm 1) 0 18]].
Lemma hook_distinct : distinct hook_root.
Proof. repeat (constructor; [apply nodupb_ok; vm_compute; reflexivity|intros ? ? ? ? H; cbn in H; repeat (destruct H as [H|H]; [try discriminate H; injection H as <- <- <- <-|]); try destruct H]). Qed.
Lemma hook_rdistinct : rdistinct hook_ref.
Proof. repeat (constructor; [apply nodupb_ok; vm_compute; reflexivity|intros ? ? ? H; cbn in H; repeat (destruct H as [H|H]; [try discriminate H; injection H as <- <- <-|]); try destruct H]). Qed.
Lemma calm_top : forall c root, (forall n f o k, In (Dir n f o k) root -> readable c (Dir n f o k) -> f_fail f = Late -> hook c [n] = false) ->
  (forall n f k, In (Dir n f true k) root -> readable c (Dir n f true k) -> wanted c [n] (Dir n f true k) -> forall p m g o2 k2, offered c [n] k p (Dir m g o2 k2) -> wanted c p (Dir m g o2 k2) /\ f_fail g <> Late) -> calm c root.
Proof.
  intros c root H1 H2 p n f o k [_ H]. inversion H as [h l x Hi Hr E1 E2 E3|h l m g k' p0 x Hi Hr Hw Hf Hc Ho E1 E2 E3]; subst.
  - cbn. split; [intros _ d e E Hd He|intros K d e E Hd]; destruct d as [|m d]; try congruence; cbn in E; injection E as <- E; destruct d; try discriminate E; [cbn in E; congruence|apply (H1 n f o k Hi Hr K)].
  - cbn in Ho. destruct (H2 m g k' Hi Hr Hw p n f o k Ho) as [W F]. split; [intro K; contradiction|intro K; congruence].
Qed.
Theorem C50_instance_meets : exists a s, distinct hook_root /\ rdistinct hook_ref /\ calm hook_cfg hook_root /\ outcome hook_cfg (Some hook_ref) hook_root a s /\
  map seen (log (sm s)) = [Start [nm 2]; Reads [nm 2; nm 1]; Reads [nm 2; nm 2; nm 1]; Reads [nm 2; nm 2; nm 2]; Finish [nm 2]; Reads [nm 3; nm 2]].
Proof.
  destruct (backup 40 hook_cfg (Some hook_ref) hook_root) as [[a s]|] eqn:E; [|vm_compute in E; discriminate E]. exists a, s. split; [apply hook_distinct|]. split; [apply hook_rdistinct|]. split; [|split; [eapply outcome_run; exact E|vm_compute in E; injection E as <- <-; reflexivity]].
  apply calm_top.
  - intros n f o k H _ K. cbn in H. repeat (destruct H as [H|H]; [try discriminate H; injection H as <- <- <- <-; try discriminate K; reflexivity|]). destruct H.
  - intros n f k H _ Hw p m g o2 k2 Ho. cbn in H. destruct H as [H|[H|[H|[H|[]]]]]; try discriminate H; injection H as <- <- <-.
    + assert (G : p = [nm 2; nm 2] /\ f_fail g = No_failure /\ f_dev g = 1). { inversion Ho as [h l x Hi Hr E1 E2 E3|h l m' g' k' p0 x Hi Hr Hw' Hf Hc Ho' E1 E2 E3]; subst; clear Ho; cbn in Hi; destruct Hi as [Hi|[Hi|[Hi|[]]]]; try discriminate Hi; [injection Hi as <- <- <- <-; auto|]. injection Hi as <- <- <-. exfalso. inversion Ho' as [h l x Hi Hr2 E1 E2 E3|h l m' g' k' p0 x Hi Hr2 Hw2 Hf2 Hc2 Ho2 E1 E2 E3]; subst; cbn in Hi; destruct Hi as [Hi|[Hi|[]]]; discriminate Hi. }
      destruct G as (-> & Hf & Hg). split; [|congruence]. split; [reflexivity|]. split; [left; reflexivity|]. split; [left; exact Hg|discriminate].
    + exfalso. inversion Ho as [h l x Hi Hr E1 E2 E3|h l m' g' k' p0 x Hi Hr Hw' Hf Hc Ho' E1 E2 E3]; subst; cbn in Hi; destruct Hi as [Hi|[Hi|[]]]; discriminate Hi.
    + destruct Hw as [Hw _]. discriminate Hw.
Qed.

(** ** what does not hold *)
(** a directory left out by the filters, or that fails, below a directory selected by the hooks: the end command is never run, and the commands of all that follows are not either *)
Definition bad_cfg : cfg := Cfg false false (fun p => match p with [[2]; [6]] => false | _ => true end) (fun _ => true) 1 [] [] false false false (fun _ _ => true) (fun p => match p with [_] => true | _ => false end).
Definition bad_root (f : facts) (n : N) : list fnode := [Dir (nm 2) (ok 11) true [Dir (nm n) f true []; Fil (nm 1) (ok 12)]; Fil (nm 3) (ok 13)].
Theorem C50_end_lost_refuted :
  (exists a s, outcome bad_cfg None (bad_root (ok 14) 6) a s /\ hooked bad_cfg [] (bad_root (ok 14) 6) [nm 3] /\ map seen (log (sm s)) = [Start [nm 2]; Reads [nm 2; nm 1]; Reads [nm 3]]) /\
  (exists a s, outcome bad_cfg None (bad_root (Facts 14 0 1 false false false false false false Late) 7) a s /\ map seen (log (sm s)) = [Start [nm 2]; Reads [nm 2; nm 1]; Reads [nm 3]]).
Proof.
  split.
  - destruct (backup 20 bad_cfg None (bad_root (ok 14) 6)) as [[a s]|] eqn:E; [|vm_compute in E; discriminate E]. exists a, s. split; [eapply outcome_run; exact E|]. split; [|vm_compute in E; injection E as <- <-; reflexivity].
    split.
    + split; [reflexivity|]. exists (Fil (nm 3) (ok 13)). split; [split; [intros [K _]; discriminate K|apply (offered_here bad_cfg [] _ (Fil (nm 3) (ok 13))); [right; left; reflexivity|repeat split; discriminate]]|]. split; [split; [reflexivity|]; split; [right; reflexivity|]; split; [left; reflexivity|discriminate]|]. split; [discriminate|]. exists None. split; [right; intros r id K; inversion K; contradiction|reflexivity].
    + intros d e E2 He (_ & x & K & _). destruct d as [|m d]; [apply found_met in K; exact (met_nil _ _ _ _ K)|]. cbn in E2. injection E2 as <- E2. destruct d; [cbn in E2; congruence|discriminate E2].
  - destruct (backup 20 bad_cfg None (bad_root (Facts 14 0 1 false false false false false false Late) 7)) as [[a s]|] eqn:E; [|vm_compute in E; discriminate E]. exists a, s. split; [eapply outcome_run; exact E|]. vm_compute in E. injection E as <- <-. reflexivity.
Qed.
(** in a differential backup, the files saved of a directory that matches the mask of the hooks but whose own inode has not changed are read with no command run, contrary to the manual *)
Theorem C50_unchanged_directory_refuted : exists a s, let c := Cfg false false (fun _ => true) (fun _ => true) 1 [] [] false false false (fun i a => match a with Some j => negb (i =? j) | None => true end) (fun p => match p with [_] => true | _ => false end) in
  outcome c (Some [RDir (nm 2) 11 [RFil (nm 1) 0 4]]) [Dir (nm 2) (ok 11) true [Fil (nm 1) (ok 12)]] a s /\ hook c [nm 2] = true /\ map seen (log (sm s)) = [Reads [nm 2; nm 1]].
Proof.
  cbv zeta. set (c := Cfg _ _ _ _ _ _ _ _ _ _ _ _). destruct (backup 20 c (Some [RDir (nm 2) 11 [RFil (nm 1) 0 4]]) [Dir (nm 2) (ok 11) true [Fil (nm 1) (ok 12)]]) as [[a s]|] eqn:E; [|vm_compute in E; discriminate E]. exists a, s. split; [eapply outcome_run; exact E|]. split; [reflexivity|]. vm_compute in E. injection E as <- <-. reflexivity.
Qed.
Print Assumptions C50_hooks.
Print Assumptions C50_all_ended.
Print Assumptions C50_full_backup.
Print Assumptions C50_instance_meets.
Print Assumptions C50_end_lost_refuted.
Print Assumptions C50_unchanged_directory_refuted.
