(** * C43: an archive read sequentially gives what was saved, and an archive interrupted anywhere gives what was saved before. *)
From Coq Require Import List.
From Verif Require Import Base InfinintModel CrcModel DatetimeModel PropDatetime HeaderModel PathModel EscapeModel EscapeSpec EscapeProof EscapeProof2 FileModel PropEscape.
From Verif Require Import CatModel CatSpec CatProof CatProof2 CatProof3 PropCatalogue SeqModel SeqSpec SeqProof SeqProof2 SeqProof3 SeqProof4 SeqProof5 SeqProof6 SeqProof7 SeqProof8 SeqProof9 SeqProof10 SeqProof11.
Import ListNotations.
Open Scope N_scope.

Lemma events_dumped : forall st evs done, distinct_sets st -> events_ok st done evs -> (exists co, Inv true st done co) -> exists a, events_items st done evs = Ok a.
Proof.
  intros st. induction evs as [|[r|] evs IH]; intros done HD HO [co HI]; cbn [events_items events_ok] in *; [eauto| |].
  - destruct HO as [H1 H2]. destruct (header_read st Cnone done co r HD HI H1) as (h & e' & co' & Dh & _ & I' & _). destruct (tail_dumped st done r H1) as (t & Et).
    destruct (IH _ HD H2 ltac:(eauto)) as (a & Ea). unfold rec_items. rewrite Dh, Et. cbn [bind]. rewrite Ea. cbn [bind]. eauto.
  - destruct (IH _ HD HO ltac:(eauto)) as (a & Ea). destruct eod_dumped as (z & Ez). rewrite Ez, Ea. cbn [bind]. eauto.
Qed.
(** An archive read sequentially to its end: for each entry the report tells the path, the metadata, and what is restored - the last copy of the data of a file, its EA, or the link to
    the inode met before; the entries recorded as removed are those of the final catalogue. *)
Theorem C43_complete : forall st evs c algo cov lax, distinct_sets st -> events_ok st [] evs -> nested 0 evs -> depth_after 0 evs = O -> catalogue_ok c ->
  exists full c', archive_items st evs c = Ok full /\
    k_label c' = k_label c /\ k_place c' = k_place c /\ shown false (k_stars c') (root_entry c') = expected false (k_stars c) (root_entry c) /\
    forall junk, seq_read lax algo cov (full ++ map D junk) =
      let lines := fst (report st cov top evs) in (lines, match lines with [] => Fwhole c' | _ => Fend (removals c) end).
Proof.
  intros st evs c algo cov lax HD HO HN H0 HC. destruct (events_dumped st evs [] HD HO ltac:(exists []; apply Inv_nil)) as (a & Ea).
  destruct (C37_roundtrip c algo HC) as (b & done & c0 & Db & _). destruct (archive_items st evs c) as [full|] eqn:EF.
  - destruct (whole_run st evs c algo cov lax full HD HO HN H0 HC EF) as (c' & P1 & P2 & P3 & R). exists full, c'. auto 10.
  - unfold archive_items in EF. rewrite Ea in EF. cbn [bind] in EF. rewrite Db in EF. discriminate.
Qed.
Print Assumptions C43_complete.

(** An archive that stops anywhere: unless all of it is there, the end is reported as an error (or, reading in lax mode, without catalogue), and what was saved before the interruption is
    reported exactly as in the complete archive. Only the entry being saved at that time may be reported otherwise: as an error, or with a former copy of its data ([partly]). *)
Theorem C43_cut : forall st evs c algo cov lax full its, distinct_sets st -> events_ok st [] evs -> nested 0 evs -> catalogue_ok c ->
  archive_items st evs c = Ok full -> cut full its ->
  (exists junk, its = full ++ map D junk) \/
  (stopped st cov c evs its (fst (seq_read lax algo cov its)) /\ unfinished lax (snd (seq_read lax algo cov its))).
Proof. exact cut_run. Qed.
Print Assumptions C43_cut.

(** The same for the bytes of the file the escape layer writes to (C11): only the first [k] of them are left. *)
Theorem C43_bytes : forall s0 ops f k st evs c algo cov lax, s0_ok s0 -> no_X ops -> sync_ok ops -> at_eof f ->
  distinct_sets st -> events_ok st [] evs -> nested 0 evs -> catalogue_ok c -> archive_items st evs c = Ok (items_of ops) ->
  exists body, w_session s0 ops f = Ok (mk_file (fdata f ++ body) (length (fdata f ++ body))) /\
  let its := parse s0 (firstn k body) in
  (exists junk, its = items_of ops ++ map D junk) \/
  (stopped st cov c evs its (fst (seq_read lax algo cov its)) /\ unfinished lax (snd (seq_read lax algo cov its))).
Proof.
  intros s0 ops f k st evs c algo cov lax Hs Hx Hy He HD HO HN HC HA. destruct (session_spec s0 ops f Hs Hy Hx He) as (f' & body & E & D0 & E0 & P).
  exists body. split.
  - rewrite E. f_equal. destruct f' as [d p]. unfold at_eof in E0. cbn [fdata fpos] in *. subst. reflexivity.
  - apply (cut_run st evs c algo cov lax (items_of ops) _ HD HO HN HC HA). rewrite <- P. eapply parse_cut; eauto.
Qed.
Print Assumptions C43_bytes.

(** An interruption between two entries, even within the mark that starts the next one: nothing of the entries before is lost. When the interruption takes place in a directory that is not covered, the error raised is the one reserved
    to internal errors, even in lax mode. *)
Theorem C43_between : forall st e1 e2 c algo cov lax a junk, distinct_sets st -> events_ok st [] (e1 ++ e2) -> nested 0 (e1 ++ e2) -> catalogue_ok c ->
  events_items st [] e1 = Ok a ->
  seq_read lax algo cov (head_items c ++ a ++ map D junk) =
    (fst (report st cov top e1), match snd (snd (report st cov top e1)) with S _ => Fexn Ebug | O => if lax then Fnormal else Fexn Erange end).
Proof.
  intros st e1 e2 c algo cov lax a junk HD HO HN HC HA. destruct (events_ok_app _ _ _ _ HO) as [O1 _]. unfold seq_read. rewrite (open_head lax c _ HC).
  pose proof (events_length _ _ _ _ HA) as LE. set (rest := map D junk).
  destruct (run_events st algo cov lax HD e1 top (Rst [] O O false []) a (S (S (length (a ++ rest) - length e1))) rest (rel_top st) O1 (nested_app _ _ _ HN) HA (b_end junk)) as (s' & R' & _ & _ & Q').
  replace (length e1 + S (S (length (a ++ rest) - length e1)))%nat with (S (S (length (a ++ rest)))) in Q' by (rewrite app_length; lia). rewrite Q'.
  assert (RS : forall m, run (S m) lax algo cov s' rest = ([], finish lax algo s' [])) by (intro m; cbn [run]; fold (next_file rest); unfold rest at 1; rewrite nf_none; reflexivity).
  rewrite RS. unfold add_lines. cbn [fst snd]. rewrite app_nil_r. f_equal. unfold finish.
  destruct (snd (report st cov top e1)) as [[done at_] skip]. destruct R' as (_ & Hd & _ & Hs & _). rewrite Hd, Hs. cbn [snd].
  destruct skip as [|skip].
  - destruct (Nat.ltb_spec (length at_) (length at_ + 0)); [lia|]. reflexivity.
  - destruct (Nat.ltb_spec (length at_) (length at_ + S skip)); [reflexivity|lia].
Qed.
Print Assumptions C43_between.

(** Whatever the damage - the stream [its] may be anything the escape layer can deliver - data restored are a run of bytes of the stream directly followed by the mark of a checksum, and this checksum is theirs;
    the same for EA. *)
Theorem C43_checked : forall lax algo cov its, ~ In Bad its -> forall l d dy x, In l (fst (seq_read lax algo cov its)) -> l_out l = Odone d dy x ->
  (forall b, d = Some b -> vouched_data its b) /\ (forall m, x = Some m -> m = [] \/ vouched_ea its m).
Proof.
  intros lax algo cov its NB l d dy x HI HO. unfold seq_read in HI. destruct (seq_open lax its) as [its'|] eqn:EO; [|destruct HI].
  pose proof (to_open _ _ _ EO) as T. pose proof (run_sound (S (S (length its'))) lax algo cov (Rst [] O O false []) its' (to_bad _ _ T NB)) as R.
  rewrite Forall_forall in R. specialize (R _ HI). cbn beta in R. rewrite HO in R. apply (vouched_to _ _ _ T) in R. exact R.
Qed.
Print Assumptions C43_checked.

(** ** a concrete backup: a directory d with f (EA, changed while it was read), then h1 and h2, two names of one inode (h1 changed until the end: dirty); then x, that could not be opened *)
Definition xi (n : list N) : cinode := ex_ino n Ssaved.
Definition xe (n : list N) : cinode := CI n Ssaved 0 0 420 (dt_seconds 5) (dt_seconds 7) (dt_seconds 300) EAfull (Some 30) None None FSAnone None None None None.
Definition xf (size : N) : cfile := CF size 0 0 false 0 0 Cnone Cnone None None None.
Definition xs : stars := fun a => if a =? 0 then Some (Star (xi []) (Kfile (xf 2)) 9 2 true) else None.
Definition r_d : rec := Rec (Edir (xi [100]) []) Bnone None [].
Definition r_f : rec := Rec (Eino (xe [102]) (Kfile (xf 3))) (Bdata [(3, [1; 2; 3])] (3, [1; 2; 4]) false) None [([117], [5; 6])].
Definition r_h1 : rec := Rec (Emir [104; 49] 0) (Bdata [] (2, [7; 8]) true) None [].
Definition r_h2 : rec := Rec (Emir [104; 50] 0) Bnone None [].
Definition r_x : rec := Rec (Eino (xi [120]) (Kfile (xf 1))) (Bfailed []) None [].
Definition ex_evs : list event := [Eput r_d; Eput r_f; Eput r_h1; Eput r_h2; Eend; Eput r_x].
Definition everything : dirpath -> bool -> bool := fun _ _ => true.
Definition arch (evs : list event) : list item := match archive_items xs evs ex_cat with Ok l => l | Err _ => [] end.
Lemma xs_distinct : distinct_sets xs.
Proof. intros a b sa sb. unfold xs. destruct (N.eqb_spec a 0), (N.eqb_spec b 0); congruence. Qed.
Lemma xi_ok : forall n, no_nul n -> inode_ok true (xi n).
Proof.
  intros n H. unfold inode_ok, xi, ex_ino. cbn [i_name i_perm i_atime i_mtime i_ctime i_ea i_fsa]. split; [exact H|]. split; [reflexivity|]. split; [apply d_seconds|]. split; [apply d_seconds|]. split; [apply d_seconds|].
  split; [discriminate|]. split; [intro; contradiction|discriminate].
Qed.
Lemma xe_ok : forall n, no_nul n -> inode_ok true (xe n).
Proof.
  intros n H. unfold inode_ok, xe. cbn [i_name i_perm i_atime i_mtime i_ctime i_ea i_ea_size i_fsa]. split; [exact H|]. split; [reflexivity|]. split; [apply d_seconds|]. split; [apply d_seconds|]. split; [apply d_seconds|].
  split; [intros _; split; discriminate|]. split; [intro; contradiction|discriminate].
Qed.
Lemma xf_ok : forall z, kind_ok true Ssaved (Kfile (xf z)).
Proof. intro z. cbn [kind_ok]. unfold file_ok, xf. cbn [c_fds_write c_check c_base c_sig]. split; [reflexivity|]. split; [discriminate|]. split; discriminate. Qed.
Lemma noz1 : forall c, c <> 0 -> no_nul [c].
Proof. intros. repeat constructor. assumption. Qed.
Lemma noz2 : forall c d, c <> 0 -> d <> 0 -> no_nul [c; d].
Proof. intros. repeat constructor; assumption. Qed.
Lemma rd_ok : forall done, rec_ok xs done r_d.
Proof.
  intro done. split; [cbn [r_entry r_d entry_ok]; split; [apply xi_ok, noz1; discriminate|discriminate]|]. exists (xi [100]), None. split; [reflexivity|]. split; [discriminate|]. split; [discriminate|].
  split; [intros _; split; discriminate|]. split; [cbn; auto|discriminate].
Qed.
Lemma rf_ok : forall done, rec_ok xs done r_f.
Proof.
  intro done. split; [cbn [r_entry r_f entry_ok]; split; [apply xe_ok, noz1; discriminate|apply xf_ok]|]. exists (xe [102]), (Some 3). split; [reflexivity|]. split; [discriminate|]. split; [discriminate|].
  split; [discriminate|]. split.
  - cbn [r_body r_f]. split; [reflexivity|]. split; [reflexivity|]. split; [exists 3; split; [reflexivity|repeat constructor]|discriminate].
  - intros _. split; [split; [repeat constructor; intros []|repeat constructor; discriminate]|]. exists 30. split; [reflexivity|discriminate].
Qed.
Lemma rh1_ok : rec_ok xs [] r_h1.
Proof.
  split; [cbn [r_entry r_h1 entry_ok]; split; [apply noz2; discriminate|eexists; split; [reflexivity|]; cbn [st_ino st_kind]; split; [apply xi_ok; constructor|apply xf_ok]]|].
  exists (xi []), (Some 2). split; [reflexivity|]. split; [discriminate|]. split; [intros n a s E; injection E as <- <-; intro E2; injection E2 as <-; reflexivity|]. split; [discriminate|]. split; [|discriminate].
  cbn [r_body r_h1]. split; [reflexivity|]. split; [reflexivity|]. split; [exists 2; split; [reflexivity|repeat constructor]|discriminate].
Qed.
Lemma rh2_ok : rec_ok xs [0] r_h2.
Proof.
  split; [cbn [r_entry r_h2 entry_ok]; split; [apply noz2; discriminate|eexists; split; [reflexivity|]; cbn [st_ino st_kind]; split; [apply xi_ok; constructor|apply xf_ok]]|].
  exists (xi []), (Some 2). split; [reflexivity|]. split; [discriminate|]. split; [intros n a s E; injection E as <- <-; intro E2; injection E2 as <-; reflexivity|]. split; [discriminate|]. split; [|discriminate].
  left. reflexivity.
Qed.
Lemma rx_ok : forall done, rec_ok xs done r_x.
Proof.
  intro done. split; [cbn [r_entry r_x entry_ok]; split; [apply xi_ok, noz1; discriminate|apply xf_ok]|]. exists (xi [120]), (Some 1). split; [reflexivity|]. split; [discriminate|]. split; [discriminate|].
  split; [discriminate|]. split; [|discriminate]. cbn [r_body r_x]. exists (Kfile (xf 1)), 1. repeat split. constructor.
Qed.
Example C43_instance : distinct_sets xs /\ events_ok xs [] ex_evs /\ nested 0 ex_evs /\ depth_after 0 ex_evs = O /\ catalogue_ok ex_cat /\
  (exists full, archive_items xs ex_evs ex_cat = Ok full) /\
  map (fun l => (l_path l, l_out l)) (fst (seq_read false Cnone everything (arch ex_evs))) =
    [ ([[100]], Odone None false None);
      ([[102]; [100]], Odone (Some [1; 2; 4]) false (Some [([117], [5; 6])]));
      ([[104; 49]; [100]], Odone (Some [7; 8]) true None);
      ([[104; 50]; [100]], Olink 9) ] /\
  snd (seq_read false Cnone everything (arch ex_evs)) = Fend [([[120]], 102, dt_seconds 88)].
Proof.
  split; [exact xs_distinct|]. split; [|split; [cbn; exact I|split; [reflexivity|split; [exact ex_cat_ok|split; [eexists; vm_compute; reflexivity|split; vm_compute; reflexivity]]]]].
  split; [apply rd_ok|]. split; [apply rf_ok|]. split; [apply rh1_ok|]. split; [exact rh2_ok|]. split; [apply rx_ok|exact I].
Qed.

(** ** what is not guaranteed *)
(** the items before the [n]th mark of type [t] *)
Fixpoint before (t : seqt) (n : nat) (its : list item) : list item :=
  match its with
  | [] => []
  | M t' :: r => if seqt_eqb t' t then match n with O => [] | S n => M t' :: before t n r end else M t' :: before t n r
  | x :: r => x :: before t n r
  end.
Definition outs (x : list line * fin) : list outcome * fin := (map l_out (fst x), snd x).
(** Stopped just before the mark telling the file is dirty, or just before the one telling that another copy follows: the file is restored as if it were good. *)
Theorem C43_dirty_refuted : outs (seq_read true Cnone everything (before seqt_dirty 0 (arch ex_evs))) =
  ([Odone None false None; Odone (Some [1; 2; 4]) false (Some [([117], [5; 6])]); Odone (Some [7; 8]) false None], Fnormal).
Proof. vm_compute. reflexivity. Qed.
Definition r_c : rec := Rec (Eino (xi [102]) (Kfile (xf 3))) (Bdata [(3, [1; 2; 3])] (3, [1; 2; 4]) false) None [].
Theorem C43_stale_refuted : outs (seq_read true Cnone everything (before seqt_changed 0 (arch [Eput r_c]))) = ([Odone (Some [1; 2; 3]) false None], Fnormal).
Proof. vm_compute. reflexivity. Qed.
(** Stopped within the value of an EA: reading never ends. *)
Theorem C43_hang_refuted : outs (seq_read true Cnone everything (removelast (before seqt_ea_crc 0 (arch ex_evs)))) = ([Odone None false None; Ohang], Fexn Fuel).
Proof. vm_compute. reflexivity. Qed.
(** Stopped right after the mark that starts an entry: the lax mode does not help. *)
Theorem C43_lax_refuted : outs (seq_read true Cnone everything (before seqt_file 1 (arch ex_evs) ++ [M seqt_file])) = ([Odone None false None], Fexn Erange).
Proof. vm_compute. reflexivity. Qed.
(** Stopped in a directory that is filtered out: the error is the one reserved to internal errors, in lax mode too. *)
Theorem C43_filtered_refuted : outs (seq_read true Cnone (fun _ d => negb d) (before seqt_file 3 (arch ex_evs))) = ([Oskip], Fexn Ebug).
Proof. vm_compute. reflexivity. Qed.
(** A shared inode that could not be opened is described again with its next name: the whole archive is refused from there. *)
Definition r_hf : rec := Rec (Emir [104; 49] 0) (Bfailed []) None [].
Definition r_h2d : rec := Rec (Emir [104; 50] 0) (Bdata [] (2, [7; 8]) false) None [].
Theorem C43_failed_link_refuted : outs (seq_read false Cnone everything (arch [Eput r_hf; Eput r_h2d; Eput r_c])) = ([], Fexn Erange) /\ archive_items xs [Eput r_hf; Eput r_h2d; Eput r_c] ex_cat <> Err Erange.
Proof. split; vm_compute; [reflexivity|discriminate]. Qed.
(** ... although the archive holds its data, which come with that next name just as if it were the first. *)
Theorem C43_failed_link_described : exists a b, events_items xs [] [Eput r_hf; Eput r_h2d] = Ok (a ++ b) /\ events_items xs [] [Eput r_h2d] = Ok b /\
  outs (seq_read false Cnone everything (arch [Eput r_h2d])) = ([Odone (Some [7; 8]) false None], Fend [([[120]], 102, dt_seconds 88)]).
Proof.
  destruct (events_items xs [] [Eput r_hf]) as [a|] eqn:A; [|vm_compute in A; discriminate]. destruct (events_items xs [] [Eput r_h2d]) as [b|] eqn:B; [|vm_compute in B; discriminate].
  exists a, b. split; [|split; [reflexivity|vm_compute; reflexivity]]. vm_compute in A. injection A as <-. vm_compute in B. injection B as <-. vm_compute. reflexivity.
Qed.
(** A file whose size goes from above 1 GiB to below between two copies: the second copy is good but its checksum has not the width expected. *)
Definition r_g : rec := Rec (Eino (xi [102]) (Kfile (xf 1073741825))) (Bdata [(1073741825, [1; 2])] (2, [1; 2]) false) None [].
Theorem C43_giga_refuted : outs (seq_read false Cnone everything (arch [Eput r_g])) = ([Oerr], Fend [([[120]], 102, dt_seconds 88)]).
Proof. vm_compute. reflexivity. Qed.
(** A dirty file that has EA: the mark hides them and the restoration fails. *)
Definition r_de : rec := Rec (Eino (xe [102]) (Kfile (xf 3))) (Bdata [] (3, [1; 2; 4]) true) None [([117], [5; 6])].
Theorem C43_dirty_ea_refuted : outs (seq_read false Cnone everything (arch [Eput r_de])) = ([Oerr], Fend [([[120]], 102, dt_seconds 88)]).
Proof. vm_compute. reflexivity. Qed.
(** A first copy that was damaged: the second one is not used. *)
Definition last_changed (p its : list item) (b : N) : list item := removelast p ++ D b :: skipn (length p) its.
Theorem C43_second_copy_refuted : outs (seq_read true Cnone everything (last_changed (before seqt_file_crc 0 (arch [Eput r_c])) (arch [Eput r_c]) 77)) = ([Oerr], Fend [([[120]], 102, dt_seconds 88)]).
Proof. vm_compute. reflexivity. Qed.
