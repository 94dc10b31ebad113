(** * Property C42: merging two archives, decremental backups, and a full backup merged with its differential backups. *)
From Coq Require Import NArith List Bool Lia.
From Verif Require Import Base DatetimeModel PropDatetime PropChange DbModel CritModel RestoreModel RestoreSpec RestoreProof RestoreProof2 RestoreProof3 PropRestore.
From Verif Require Import MergeModel MergeSpec MergeProof MergeProof2 MergeProof3 MergeProof4 MergeProof5.
Import ListNotations.
Open Scope N_scope.
Local Set Warnings "-notation-overridden".

(** Policy "Pp": the result holds all that the filters select in the first archive, as it is there, and the entries of the second
    archive at the paths where the first has nothing, unless the first has there, instead of a directory, something else. *)
Theorem C42_preserve : forall cap cov first second, tidy first -> tidy second ->
  exists m, merge (policy_of cap (P_const D_preserve A_preserve)) cov false first second = Ok m /\ tidy m /\ forall p,
    (forall e, found cov [] first p = Some e -> found all_of_it [] m p = Some e) /\
    (found cov [] first p = None -> blocked (found cov [] first) p -> found all_of_it [] m p = None) /\
    (found cov [] first p = None -> ~ blocked (found cov [] first) p -> found all_of_it [] m p = found cov [] second p).
Proof.
  intros cap cov A B TA TB. change (policy_of cap (P_const D_preserve A_preserve)) with pol_p. destruct (first_pass cov pol_p A TA []) as (C & EC & TC & HC). unfold merge. rewrite EC. cbn [bind].
  destruct (preserve_list cov B TB [] C TC) as (M & EM & TM & Cm). exists M. split; [exact EM|]. split; [exact TM|]. intro p. destruct (Cm p) as (C1 & C2 & C3). rewrite HC in *.
  split; [exact C1|]. split; intros F Q; [apply C2; [exact F|]|apply C3; [exact F|intro Z; apply Q]]; (eapply blocked_ext; [|eassumption]); intro q; [symmetry|]; apply HC.
Qed.
Print Assumptions C42_preserve.
(** Policy "Oo": the same, the second archive being the one that prevails. *)
Theorem C42_overwrite : forall cap cov first second, tidy first -> tidy second ->
  exists m, merge (policy_of cap (P_const D_overwrite A_overwrite)) cov false first second = Ok m /\ tidy m /\ forall p,
    (forall e, found cov [] second p = Some e -> found all_of_it [] m p = Some e) /\
    (found cov [] second p = None -> blocked (found cov [] second) p -> found all_of_it [] m p = None) /\
    (found cov [] second p = None -> ~ blocked (found cov [] second) p -> found all_of_it [] m p = found cov [] first p).
Proof.
  intros cap cov A B TA TB. change (policy_of cap (P_const D_overwrite A_overwrite)) with pol_o. destruct (first_pass cov pol_o A TA []) as (C & EC & TC & HC). unfold merge. rewrite EC. cbn [bind].
  destruct (overwrite_list cov B TB [] C TC) as (M & EM & TM & Cm). exists M. split; [exact EM|]. split; [exact TM|]. intro p. destruct (Cm p) as (C1 & C2 & C3). rewrite HC in *. auto.
Qed.
Print Assumptions C42_overwrite.
(** An archive merged with itself under the policy "Ss": the same entries, all marked as already saved. *)
Theorem C42_isolation : forall cap arc, tidy arc ->
  merge (policy_of cap (P_const D_preserve_mark A_preserve_mark)) all_of_it false arc arc = Ok (map (fun ne => (fst ne, isolated (snd ne))) arc).
Proof.
  intros cap A TA. change (policy_of cap (P_const D_preserve_mark A_preserve_mark)) with pol_s. unfold merge. rewrite first_all by exact TA. apply self_merge. exact TA.
Qed.
Print Assumptions C42_isolation.

(** Whatever the policy and the filters, two inodes found at a path in archives that record no removed file give what the manual says
    for the actions the policy has for them; provided that it neither asks, nor removes, and that it drops EA only with the data of
    the inode in place. *)
Theorem C42_actions : forall cap pol cov first second,
  (forall a b, exists da ea, get_action cap pol (EInode a) (EInode b) = Ok (da, ea) /\
     In da [D_preserve; D_overwrite; D_preserve_mark; D_overwrite_mark; D_undefined] /\ ea <> A_ask /\ (ea = A_clear -> da <> D_overwrite /\ da <> D_overwrite_mark)) ->
  tidy first -> tidy second -> inodes_only first -> inodes_only second ->
  exists m, merge (policy_of cap pol) cov false first second = Ok m /\
    forall p place add, found cov [] first p = Some (CIno place []) -> found cov [] second p = Some (CIno add []) ->
      exists da ea res, get_action cap pol (EInode (ino_of place)) (EInode (ino_of add)) = Ok (da, ea) /\
        found all_of_it [] m p = Some (CIno res []) /\ data_rule da place add res /\ ea_rule ea place add res.
Proof.
  intros cap P cov A B H TA TB OA OB. apply (conflict_merge cap P cov); auto. intros a b. destruct (H a b) as (da & ea & E & I & Na & Hc). exists da, ea. split; [exact E|]. unfold keeps, replaces.
  cbn [In] in I. split; [intuition|]. split; [exact Na|]. intro Q. destruct (Hc Q). intuition congruence.
Qed.
Print Assumptions C42_actions.

(** ** decremental backups *)
Lemma nth_last_step : forall (A : Type) (t : A) l k d, nth (S k) (t :: l) d = nth k l d. Proof. reflexivity. Qed.
Section Decrementals.
Variables (me_uid me_gid : N) (now : datetime) (cap : time_unit).
Variable cov : list (list N) -> bool.
Variable s : bool.
Lemma decr_chain : forall olders T d, h_kind (hd_of d) = KDir -> trel cov s [] (ch_of d) T -> regular T -> known_types T -> (forall t, In t olders -> regular t /\ known_types t) ->
  consecutive (honest_back cap) (T :: olders) -> (s = true -> consecutive ea_kept (T :: olders)) ->
  exists ds, decrementals cap cov T olders = Ok ds /\ length ds = length olders /\ forall k, (k <= length olders)%nat ->
    exists r, restore_all me_uid me_gid now overwriting everything (firstn k ds) d = Some r /\ trel cov s [] (ch_of r) (nth k (T :: olders) []).
Proof.
  induction olders as [|t l IH]; intros T d K Tr R Kt Rs Hh He.
  - exists []. split; [reflexivity|]. split; [reflexivity|]. intros k Hk. assert (k = 0%nat) by (cbn in Hk; lia). subst k. exists d. auto.
  - cbn [consecutive] in Hh. destruct Hh as [Hb Hh]. destruct (Rs t (or_introl eq_refl)) as [Rt Kt'].
    destruct (decr_g cap cov s T t) with (rp := @nil (list N)) as (D & ED & GD).
    { split; [exact R|]. split; [exact Rt|]. split; [exact Hb|]. split; [exact Kt|]. split; [exact Kt'|]. intro S. exact (proj1 (He S)). }
    destruct (restore_g me_uid me_gid now cov s D T t d K R Rt GD Tr) as (st & Er & Es & K' & Tr').
    destruct (IH t (fs st) K' Tr' Rt Kt') as (ds & Ed & Ln & H).
    { intros; apply Rs; right; assumption. } { exact Hh. } { intro S. exact (proj2 (He S)). }
    exists (D :: ds). split.
    + cbn [decrementals]. unfold merge_decremental, merge. rewrite first_all by (apply full_tidy; exact Rt). cbn [bind].
      change (full_backup cov t) with (fb cov [] t). change (full_backup cov T) with (fb cov [] T). rewrite ED, Ed. reflexivity.
    + split; [cbn; congruence|]. intros k Hk. destruct k as [|k]; [exists d; auto|]. cbn [firstn restore_all].
      change (restore me_uid me_gid now overwriting everything D d) with (restore me_uid me_gid now pol0 rall D d). rewrite Er, Es.
      destruct (H k) as (r & E & F); [cbn in Hk; lia|]. exists r. split; [exact E|]. rewrite nth_last_step. exact F.
Qed.
Lemma full_decr : forall root newest olders, h_kind root = KDir -> (forall t, In t (newest :: olders) -> regular t /\ known_types t) ->
  consecutive (honest_back cap) (newest :: olders) -> (s = true -> consecutive ea_kept (newest :: olders)) ->
  exists ds, decrementals cap cov newest olders = Ok ds /\ length ds = length olders /\ forall k, (k <= length olders)%nat ->
    exists r, restore_all me_uid me_gid now overwriting everything (full_backup cov newest :: firstn k ds) (Node root []) = Some r /\
      trel cov s [] (ch_of r) (nth k (newest :: olders) []).
Proof.
  intros root T olders K Rs Hh He. destruct (Rs T (or_introl eq_refl)) as [R Kt].
  destruct (restore_g me_uid me_gid now cov s (full_backup cov T) [] T (Node root []) K regular_nil R (full_gspec cov s T R []) (trel_nil cov s [])) as (st & Er & Es & K' & Tr).
  destruct (decr_chain olders T (fs st) K' Tr R Kt) as (ds & Ed & Ln & H); auto. { intros; apply Rs; right; assumption. }
  exists ds. split; [exact Ed|]. split; [exact Ln|]. intros k Hk. cbn [restore_all].
  change (restore me_uid me_gid now overwriting everything (full_backup cov T) (Node root [])) with (restore me_uid me_gid now pol0 rall (full_backup cov T) (Node root [])). rewrite Er, Es. apply H. exact Hk.
Qed.
End Decrementals.
(** The newest full backup restored, then the decremental backups one after the other: after k of them, all paths have the types and
    data they had in the k-th state before the newest, and nothing else is there; no restoration reports an error. *)
Theorem C42_decremental_content : forall me_uid me_gid now cap cov root newest olders, h_kind root = KDir ->
  (forall t, In t (newest :: olders) -> regular t /\ known_types t) -> consecutive (honest_back cap) (newest :: olders) ->
  exists ds, decrementals cap cov newest olders = Ok ds /\ length ds = length olders /\ forall k, (k <= length olders)%nat ->
    exists r, restore_all me_uid me_gid now overwriting everything (full_backup cov newest :: firstn k ds) (Node root []) = Some r /\
      forall p, both same_content (look (ch_of r) p) (if selected cov [] p then look (nth k (newest :: olders) []) p else None).
Proof.
  intros me_uid me_gid now cap cov root newest olders K Rs Hh.
  destruct (full_decr me_uid me_gid now cap cov false root newest olders K Rs Hh) as (ds & E & Ln & H); [discriminate|].
  exists ds. split; [exact E|]. split; [exact Ln|]. intros k Hk. destruct (H k Hk) as (r & Er & Tr). exists r. split; [exact Er|]. intro p. exact (proj1 (trel_spec cov false _ _ Tr p)).
Qed.
Print Assumptions C42_decremental_content.
(** Owners, permissions, dates and EA too, if no inode with EA had none in the state before, and no directory was something else. *)
Theorem C42_decremental : forall me_uid me_gid now cap cov root newest olders, h_kind root = KDir ->
  (forall t, In t (newest :: olders) -> regular t /\ known_types t) -> consecutive (honest_back cap) (newest :: olders) -> consecutive ea_kept (newest :: olders) ->
  exists ds, decrementals cap cov newest olders = Ok ds /\ length ds = length olders /\ forall k, (k <= length olders)%nat ->
    exists r, restore_all me_uid me_gid now overwriting everything (full_backup cov newest :: firstn k ds) (Node root []) = Some r /\
      forall p, both same_inode (look (ch_of r) p) (if selected cov [] p then look (nth k (newest :: olders) []) p else None).
Proof.
  intros me_uid me_gid now cap cov root newest olders K Rs Hh He.
  destruct (full_decr me_uid me_gid now cap cov true root newest olders K Rs Hh (fun _ => He)) as (ds & E & Ln & H).
  exists ds. split; [exact E|]. split; [exact Ln|]. intros k Hk. destruct (H k Hk) as (r & Er & Tr). exists r. split; [exact Er|]. intro p. exact (proj2 (trel_spec cov true _ _ Tr p) eq_refl).
Qed.
Print Assumptions C42_decremental.

(** ** a full backup merged with the differential backups that follow *)
Lemma save_any : forall cap hs cov t rp, save_node cap hs cov rp None t = save_node tu_ns 0 cov rp None t.
Proof.
  intros cap hs cov t. induction t as [h ch IH] using node_rect'. intro rp. rewrite !back_below. cbn [ref_inode ref_below]. f_equal.
  induction ch as [|[n c] r IHr]; [reflexivity|]. cbn [save_list ref_child]. f_equal; [|apply IHr; intros; eapply IH; right; eauto].
  f_equal. destruct (cov (n :: rp)); [|reflexivity]. apply (IH n c). left. reflexivity.
Qed.
Lemma back_any : forall cap hs cov t, backup cap hs cov [] t = full_backup cov t.
Proof.
  intros cap hs cov t. unfold full_backup, backup. rewrite !destroyed_ref_nil. f_equal. induction t as [|[n c] r IHr]; [reflexivity|]. cbn [save_list ref_child aget]. f_equal; [|exact IHr].
  f_equal. destruct (cov [n]); [|reflexivity]. apply save_any.
Qed.
(** With the policy "{!~I}[Rr] {~S}[O*] P* ; {~s|!~e}[*o] *p", the archives merged one after the other give one archive, whose
    restoration alone gives the files as they were at the time of the last backup. *)
Theorem C42_flatten : forall me_uid me_gid now cap hcap hourshift cov root first others, h_kind root = KDir ->
  (forall t, In t (first :: others) -> regular t) -> consecutive (honest cap hourshift) (first :: others) ->
  exists m, merge_all hcap flat_policy (full_backup cov first) (archives cap hourshift cov (full_backup cov first) others) = Ok m /\
    exists r, restore_all me_uid me_gid now overwriting everything [m] (Node root []) = Some r /\
      forall p, both same_inode (look (ch_of r) p) (if selected cov [] p then look (last others first) p else None).
Proof.
  intros me_uid me_gid now cap hcap hs cov root first others K Rs Hh. assert (R : regular first) by (apply Rs; left; reflexivity).
  destruct (back_aspec cap hs cov first R [] []) as [As Cn]. { constructor; [constructor|cbn; discriminate]. }
  change (back cap hs cov [] [] first) with (backup cap hs cov [] first) in As, Cn. rewrite back_any in As, Cn.
  destruct (flat_chain cap hcap hs cov others (full_backup cov first) first (full_backup cov first) R) as (m & Em & Gm).
  - eapply aspec_cmatch. exact As. - exact Cn. - apply full_gspec. exact R. - intros; apply Rs; right; assumption. - exact Hh.
  - exists m. split; [exact Em|]. assert (Rl : regular (last others first)).
    { clear - Rs. revert first Rs. induction others as [|t l IH]; intros first Rs; [apply Rs; left; reflexivity|]. destruct l as [|t2 l]; [apply Rs; right; left; reflexivity|].
      change (last (t :: t2 :: l) first) with (last (t2 :: l) first). apply IH. intros u [<-|I]; apply Rs; [left; reflexivity|right; right; exact I]. }
    destruct (restore_g me_uid me_gid now cov true m [] (last others first) (Node root []) K regular_nil Rl Gm (trel_nil cov true [])) as (st & Er & Es & _ & Tr).
    exists (fs st). cbn [restore_all]. change (restore me_uid me_gid now overwriting everything m (Node root [])) with (restore me_uid me_gid now pol0 rall m (Node root [])). rewrite Er, Es. split; [reflexivity|].
    intro p. exact (proj2 (trel_spec cov true _ _ Tr p) eq_refl).
Qed.
Print Assumptions C42_flatten.

(** ** concrete cases: the three states of C40 *)
Definition allp : list (list N) -> bool := fun _ => true.
Definition restored_all arcs := restore_all 0 0 (at_s 99) overwriting everything arcs (Node root0 []).
Example C42_flatten_instance : exists m r, merge_all tu_ns flat_policy (full_backup allp t0) (archives tu_ns 0 allp (full_backup allp t0) [t1; t2]) = Ok m /\ restored_all [m] = Some r /\
  (forall t, In t [t0; t1; t2] -> regular t) /\ consecutive (honest tu_ns 0) [t0; t1; t2] /\
  look (ch_of r) [na] = None /\ option_map h_ea (look (ch_of r) [nd; nc]) = Some [(nb, [8])] /\ option_map h_kind (look (ch_of r) [nd; nb]) = Some KDir.
Proof.
  eexists _, _. split; [vm_compute; reflexivity|]. split; [vm_compute; reflexivity|]. split; [intros t [<-|[<-|[<-|[]]]]; reg|]. split; [cbn [consecutive]; split; [exact honest01|split; [exact honest12|exact I]]|]. vm_compute. auto.
Qed.
(** newer first: a file modified, one removed, one added, EA unchanged or removed since *)
Definition w2 : list (list N * node) := [(na, file 420 30 30 [1; 9] []); (nd, dir 493 31 [(nb, file 384 12 12 [3] [(na, [7])])])].
Definition w1 : list (list N * node) := [(nd, dir 493 20 [(nb, file 384 12 12 [3] [(na, [7])]); (nc, file 420 20 20 [5; 5] [(nb, [8])])]); (na, file 420 22 22 [1; 3] [(nc, [6])])].
Definition w0 : list (list N * node) := [(na, file 420 10 10 [1; 2] [(nc, [6])])].
Ltac lk H := apply (look_flat _ [] root0) in H; unfold w0, w1, w2, dir, file in H; cbn [flat app hd_of In] in H.
Lemma back21 : honest_back tu_ns w2 w1.
Proof.
  intros p a b Ha Hb. lk Ha. lk Hb. destruct Ha as [Ha|[Ha|[Ha|[]]]]; injection Ha as <- <-; (destruct Hb as [Hb|[Hb|[Hb|[Hb|[]]]]]; [..|]; try discriminate Hb; injection Hb as <-);
  (split; [cbn; intros; try reflexivity; discriminate|vm_compute; intro; try reflexivity; discriminate]).
Qed.
Lemma back10 : honest_back tu_ns w1 w0.
Proof.
  intros p a b Ha Hb. lk Ha. lk Hb. destruct Ha as [Ha|[Ha|[Ha|[Ha|[]]]]]; injection Ha as <- <-; (destruct Hb as [Hb|[]]; [..|]; try discriminate Hb; injection Hb as <-);
  (split; [cbn; intros; try reflexivity; discriminate|vm_compute; intro; try reflexivity; discriminate]).
Qed.
Example C42_decremental_instance : exists d1 d0,
  (forall t, In t [w2; w1; w0] -> regular t /\ known_types t) /\ consecutive (honest_back tu_ns) [w2; w1; w0] /\ consecutive ea_kept [w2; w1; w0] /\
  decrementals tu_ns allp w2 [w1; w0] = Ok [d1; d0] /\
  (* what is unchanged is not in the decremental backup, what is new is recorded as removed *)
  found all_of_it [] d1 [nd; nb] = Some (CIno (CHead KFile 1000 100 384 (at_s 12) (at_s 12) 1 false [] EA_partial) []) /\
  found all_of_it [] d0 [nd] = Some (CDet KDir) /\
  exists r, restored_all [full_backup allp w2; d1] = Some r /\ option_map h_data (look (ch_of r) [nd; nc]) = Some [5; 5] /\ option_map h_ea (look (ch_of r) [na]) = Some [(nc, [6])].
Proof.
  eexists _, _. split; [|split; [|split; [|split; [vm_compute; reflexivity|split; [vm_compute; reflexivity|split; [vm_compute; reflexivity|]]]]]].
  - intros t [<-|[<-|[<-|[]]]]; (split; [reg|]); intros p h H; lk H; repeat (destruct H as [H|H]; [injection H as <- <-; exact I|]); destruct H.
  - cbn [consecutive]. split; [exact back21|split; [exact back10|exact I]].
  - cbn [consecutive]. split; [|split; [|exact I]].
    + intros p a b Ha Hb. lk Ha. lk Hb. destruct Ha as [Ha|[Ha|[Ha|[]]]]; injection Ha as <- <-; (destruct Hb as [Hb|[Hb|[Hb|[Hb|[]]]]]; [..|]; try discriminate Hb; injection Hb as <-); cbn; (split; [auto|intro Q; exfalso; apply Q; reflexivity]); right; discriminate.
    + intros p a b Ha Hb. lk Ha. lk Hb. destruct Ha as [Ha|[Ha|[Ha|[Ha|[]]]]]; injection Ha as <- <-; (destruct Hb as [Hb|[]]; [..|]; try discriminate Hb; injection Hb as <-); cbn; (split; [auto|intro Q; exfalso; apply Q; reflexivity]); right; discriminate.
  - eexists. split; [vm_compute; reflexivity|]. vm_compute. auto.
Qed.
(** two archives with a directory in common, a name that is a file in one and a directory in the other, and a filter *)
Definition chd k data ea : chead := CHead k 0 0 420 (at_s 1) (at_s 1) (N.of_nat (length data)) true data ea.
Definition m1 : list (list N * cnode) := [(nd, CIno (chd KDir [] EA_none) [(na, CIno (chd KFile [1] (EA_full [(na, [1]); (nb, [2])])) [])]); (nc, CIno (chd KFile [3] EA_none) [])].
Definition m2 : list (list N * cnode) := [(nc, CIno (chd KDir [] EA_none) [(na, CIno (chd KFile [4] EA_none) [])]);
  (nd, CIno (chd KDir [] EA_none) [(na, CIno (chd KFile [5] (EA_full [(nb, [9]); (nc, [3])])) []); (nb, CDet KFile)])].
Ltac tdy := constructor; [cbn [map fst]; nodup|let n := fresh in let e := fresh in let I := fresh in intros n e I; cbn [In] in I;
  repeat (destruct I as [I|I]; [injection I as <- <-; split; [cbn; intro; try reflexivity; discriminate|cbn [entries]; tdy]|]); destruct I].
Example C42_merge_instance : tidy m1 /\ tidy m2 /\
  (exists m, merge (policy_of tu_s (P_const D_preserve A_preserve)) all_of_it false m1 m2 = Ok m /\ blocked (found all_of_it [] m1) [nc; na] /\ found all_of_it [] m [nc; na] = None /\
     found all_of_it [] m [nd; nb] = Some (CDet KFile) /\ found all_of_it [] m [nd; na] = found all_of_it [] m1 [nd; na]) /\
  (exists m, merge (policy_of tu_s (P_const D_overwrite A_overwrite)) all_of_it false m1 m2 = Ok m /\ found all_of_it [] m [nc; na] = found all_of_it [] m2 [nc; na] /\ found all_of_it [] m [nc; na] <> None) /\
  inodes_only m1 /\
  (exists m h, merge (policy_of tu_s (P_const D_overwrite A_merge_preserve)) all_of_it false m1 m2 = Ok m /\ found all_of_it [] m [nd; na] = Some (CIno h []) /\
     c_data h = [5] /\ c_ea h = EA_full [(na, [1]); (nb, [2]); (nc, [3])]).
Proof.
  split; [tdy|]. split; [tdy|]. split.
  { eexists. split; [vm_compute; reflexivity|]. split; [exists [nc], [na]; eexists; repeat split; try discriminate; vm_compute; reflexivity|]. repeat split; vm_compute; reflexivity. }
  split. { eexists. split; [vm_compute; reflexivity|]. split; [reflexivity|vm_compute; discriminate]. }
  split. { constructor. intros n e [I|[I|[]]]; injection I as <- <-; (split; [eauto|]); cbn [entries]; constructor; [intros n e [I|[]]; injection I as <- <-; split; [eauto|constructor; intros ? ? []]|intros ? ? []]. }
  eexists _, _. split; [vm_compute; reflexivity|]. repeat split.
Qed.

(** ** what the hypotheses are for *)
(** an inode that has EA now, and had none before: the decremental backup does not tell that its EA are to be removed *)
Definition e1 := [(na, file 420 10 20 [1] [(nb, [8])])].
Definition e0 := [(na, file 420 10 10 [1] [])].
Theorem C42_decr_ea_refuted : exists d r, decrementals tu_ns allp e1 [e0] = Ok [d] /\ restored_all [full_backup allp e1; d] = Some r /\
  option_map h_ea (look (ch_of r) [na]) = Some [(nb, [8])] /\ option_map h_ea (look e0 [na]) = Some [].
Proof. eexists _, _. split; [vm_compute; reflexivity|]. split; [vm_compute; reflexivity|]. split; reflexivity. Qed.
(** "Or": the manual says that the result has no EA at all; it has those of the inode to add if the one in place has none (filtre.cpp:2346) *)
Theorem C42_clear_refuted : exists m h, merge (policy_of tu_s (P_const D_overwrite A_clear)) all_of_it false
    [(na, CIno (chd KFile [1] EA_none) [])] [(na, CIno (chd KFile [2] (EA_full [(nb, [8])])) [])] = Ok m /\
  found all_of_it [] m [na] = Some (CIno h []) /\ c_ea h = EA_full [(nb, [8])].
Proof. eexists _, _. split; [vm_compute; reflexivity|]. split; reflexivity. Qed.
(** "Or" with a removed file recorded in one of the archives: a null pointer is dereferenced *)
Theorem C42_clear_crash : merge (policy_of tu_s (P_const D_overwrite A_clear)) all_of_it false [(na, CDet KFile)] [(na, CIno (chd KFile [2] EA_none) [])] = Err Ebug.
Proof. reflexivity. Qed.
(** the policy without "|!~e" brings back EA that have been removed *)
Definition naive_policy : policy :=
  P_chain [P_test (C_not (C_invert C_is_inode)) (P_const D_remove A_clear) (P_test (C_invert C_data_saved) (P_const D_overwrite A_undefined) (P_const D_preserve A_undefined));
           P_test (C_invert C_EA_saved) (P_const D_undefined A_overwrite) (P_const D_undefined A_preserve)].
Theorem C42_naive_refuted : exists m r, merge_all tu_s naive_policy (full_backup allp e1) (archives tu_ns 0 allp (full_backup allp e1) [[(na, file 420 10 30 [1] [])]]) = Ok m /\
  restored_all [m] = Some r /\ option_map h_ea (look (ch_of r) [na]) = Some [(nb, [8])].
Proof. eexists _, _. split; [vm_compute; reflexivity|]. split; [vm_compute; reflexivity|]. reflexivity. Qed.
(** a file replaced by a directory: the owner, permissions and date of the file are not set back by the decremental backup *)
Theorem C42_decr_type_refuted : exists d r, decrementals tu_ns allp [(na, dir 493 20 [])] [e0] = Ok [d] /\ restored_all [full_backup allp [(na, dir 493 20 [])]; d] = Some r /\
  look (ch_of r) [na] = Some (Head KFile 0 0 448 (at_s 99) (at_s 99) [1] []) /\ look e0 [na] = Some (Head KFile 1000 100 420 (at_s 10) (at_s 10) [1] []).
Proof. eexists _, _. split; [vm_compute; reflexivity|]. split; [vm_compute; reflexivity|]. split; reflexivity. Qed.
Print Assumptions C42_decr_ea_refuted.
