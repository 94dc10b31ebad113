(** * Property C25: the sparse file layer. *)
From Verif Require Import Base NumModel FileModel InfinintModel InfinintProof2 CrcModel CrcProof PropCrc EscapeModel EscapeSpec EscapeProof EscapeProof2 EscapeProof3 EscapeProof4 PropEscape SparseModel SparseProof SparseProof2 SparseProof3.
Open Scope nat_scope.

(** The specification is [denotes min items d] (SparseProof.v): the items (bytes and marks, [parse], EscapeSpec.v) stored stand for the
    content [d] when each byte stands for itself and each "file" mark followed by the variable length integer [n], with [n] greater
    than [min], stands for [n] zeros. *)

(** ** Writing: whatever the minimum hole size and the way the content is cut in pieces, what is stored stands for the content, holes
    are only stored for runs of zeros longer than the minimum, and the position is exact after each piece. *)
Theorem C25_written : forall min chunks f, at_eof f ->
  exists f' body, sparse_session min chunks f = Ok f' /\ fdata f' = fdata f ++ body /\ at_eof f' /\ denotes min (parse S0 body) (concat chunks).
Proof.
  intros min chunks f He. unfold sparse_session. destruct (run_spec chunks _ _ (wrote_new min)) as (w & -> & W & Mi). cbn [bind app] in *.
  destruct (sync_spec w _ W) as (w' & log & -> & E & Nl & Hd & _). cbn [bind]. rewrite E.
  assert (Hy : sync_ok (log ++ [OpSync])).
  { clear -Nl. induction Nl as [|o l [H1 _] Hl IH]; cbn; [auto|]. destruct o; auto. tauto. }
  assert (Hx : no_X (log ++ [OpSync])).
  { intro Q. apply in_app_or in Q as [Q|[Q|[]]]; [|discriminate]. unfold no_sync in Nl. rewrite Forall_forall in Nl. destruct (Nl _ Q) as [_ B]. tauto. }
  destruct (session_spec S0 (log ++ [OpSync]) f S0_ok Hy Hx He) as (f' & body & E' & F & A & P). exists f', body. repeat (split; auto).
  rewrite P, items_app. cbn [items_of]. rewrite app_nil_r, Mi in *. exact Hd.
Qed.
Print Assumptions C25_written.
Theorem C25_write_position : forall min chunks, exists w, ws_run chunks (ws_new min) = Ok w /\ ws_position w = N.of_nat (length (concat chunks)).
Proof. intros min chunks. destruct (run_spec chunks _ _ (wrote_new min)) as (w & E & W & _). exists w. split; [exact E|]. destruct W as (_ & _ & P & _). exact P. Qed.
(** Detection: given in one piece, data containing a run of zeros longer than the minimum (positive, and at most the largest native
    unsigned integer) is not stored as is. *)
Theorem C25_holes_found : forall min a start len, (0 < min)%N -> (min <= UI_MAX)%N -> (min < N.of_nat len)%N -> start + len <= length a -> (forall i, start <= i < start + len -> nth i a 0%N = 0%N) ->
  exists f' body, sparse_session min [a] (mk_file [] 0) = Ok f' /\ fdata f' = body /\ In (M seqt_file) (parse S0 body).
Proof.
  intros min a start len H0 H1 H2 H3 H4. destruct (C25_written min [a] (mk_file [] 0) eq_refl) as (f' & body & E & F & _ & Hd). exists f', body. split; [exact E|]. split; [exact F|].
  revert E F Hd. unfold sparse_session. cbn [ws_run]. intros E F Hd.
  (* the log of the writer *)
  destruct (write_spec a _ _ (wrote_new min)) as (w & Ew & W & Mi). rewrite Ew in E. cbn [bind] in E.
  destruct (sync_spec w _ W) as (w' & log & Es & El & Nl & Hdl & _). rewrite Es in E. cbn [bind] in E. rewrite El in E.
  assert (Hy : sync_ok (log ++ [OpSync])).
  { clear -Nl. induction Nl as [|o l [H1 _] Hl IH]; cbn; [auto|]. destruct o; auto. tauto. }
  assert (Hx : no_X (log ++ [OpSync])).
  { intro Q. apply in_app_or in Q as [Q|[Q|[]]]; [|discriminate]. unfold no_sync in Nl. rewrite Forall_forall in Nl. destruct (Nl _ Q) as [_ B]. tauto. }
  destruct (session_spec S0 (log ++ [OpSync]) (mk_file [] 0) S0_ok Hy Hx eq_refl) as (f2 & body2 & E' & F' & _ & P). rewrite E in E'. injection E' as <-. rewrite F in F'. cbn [fdata app] in F'. subst body2.
  rewrite P, items_app. apply in_or_app. left. clear E F Hd P Hy Hx f' body.
  assert (La : 0 < length a) by lia. unfold ws_write in Ew. remember (S (length a)) as k eqn:Ek. cbn [ws_loop] in Ew. replace (0 <? length a) with true in Ew by lia. cbn [ws_mode ws_new] in Ew. cbn [skipn] in Ew.
  change (ws_ui (ws_new min)) with (if (min <=? UI_MAX)%N then min else 0%N) in Ew. replace (min <=? UI_MAX)%N with true in Ew by lia.
  pose proof (look_for_hole_spec a min) as Hk. destruct (look_for_hole a min) as [[[hs hl]|]|]; [| |destruct Hk]; cbn [bind] in Ew.
  2:{ exfalso. specialize (Hk H0 start len (conj H3 H4)). lia. }
  destruct Hk as (K1 & K2 & K3 & K4). replace (N.of_nat hl <? min)%N with false in Ew by lia.
  destruct (0 + hs + hl <? length a).
  - (* a hole in the log *)
    assert (Inv : forall fuel b wr x y, ws_loop fuel b wr x = Ok y -> exists l, ws_log y = ws_log x ++ l).
    { clear. induction fuel as [|k IH]; intros b wr x y H; cbn [ws_loop] in H; [discriminate|]. destruct (wr <? length b); [|injection H as <-; exists []; rewrite app_nil_r; reflexivity].
      destruct (ws_mode x).
      - destruct (look_for_hole (skipn wr b) (ws_ui x)) as [[[hs hl]|]|]; cbn [bind] in H; [| |discriminate].
        + destruct (N.of_nat hl <? ws_ui x)%N; [discriminate|]. destruct (wr + hs + hl <? length b).
          * destruct (IH _ _ _ _ H) as [l E]. cbn [ws_log] in E. rewrite E, <- !app_assoc. eauto.
          * injection H as <-. cbn [ws_log]. eauto.
        + injection H as <-. cbn [ws_log]. eauto.
      - destruct (0 <? wr); [discriminate|]. destruct (count_initial_zeros b <? length b).
        + unfold dump_pending_zeros in H. cbn [ws_mode bind ws_zeros ws_offset ws_min ws_ui ws_log] in H. destruct (nsub _ _); cbn [bind] in H; [|discriminate]. destruct (IH _ _ _ _ H) as [l E]. cbn [ws_log] in E. rewrite E, <- app_assoc. eauto.
        + injection H as <-. exists []. rewrite app_nil_r. reflexivity. }
    destruct (Inv _ _ _ _ _ Ew) as [l El']. cbn [ws_log] in El'.
    unfold ws_sync in Es. assert (exists l2, ws_log w' = ws_log w ++ l2 ++ [OpSync]) as [l2 El2].
    { destruct (ws_mode w) eqn:Q; [cbn [bind] in Es; injection Es as <-; exists []; reflexivity|]. unfold dump_pending_zeros in Es. rewrite Q in Es. cbn [bind] in Es. injection Es as <-. cbn [ws_log]. rewrite <- app_assoc. eauto. }
    rewrite El, El', app_assoc in El2. apply app_inj_tail in El2 as [-> _]. rewrite !items_app. apply in_or_app. left. apply in_or_app. left. apply in_or_app. right. left. reflexivity.
  - injection Ew as <-. unfold ws_sync in Es. cbn [ws_mode] in Es. unfold dump_pending_zeros in Es. cbn [ws_mode ws_zeros ws_min ws_offset ws_ui ws_log ws_new] in Es.
    replace (N.of_nat hl <=? min)%N with false in Es by lia. cbn [bind] in Es. injection Es as <-. cbn [ws_log app] in El. change [OpWrite (firstn hs a); OpMark seqt_file; OpWrite (dumpN (N.of_nat hl)); OpSync] with ([OpWrite (firstn hs a); OpMark seqt_file; OpWrite (dumpN (N.of_nat hl))] ++ [OpSync]) in El. apply app_inj_tail in El as [<- _]. cbn [items_of]. apply in_or_app. right. left. reflexivity.
Qed.
Print Assumptions C25_holes_found.

(** ** Reading back *)
(** a client reading pieces of the sizes given: what it gets, and the position after each *)
Fixpoint rs_run (ns : list nat) (r : rsp) : res (list (list N * N)) :=
  match ns with [] => Ok [] | n :: q => let* '(d, r) := rs_read n r in let* p := rs_position r in let* l := rs_run q r in Ok ((d, p) :: l) end.
(** the same on a plain file holding [d], at position [pos] *)
Fixpoint plain_run (ns : list nat) (pos : nat) (d : list N) : list (list N * N) :=
  match ns with [] => [] | n :: q => let got := firstn n d in (got, N.of_nat (pos + length got)) :: plain_run q (pos + length got) (skipn n d) end.
Lemma rs_run_spec : forall ns r pos d, rel r pos d -> rs_run ns r = Ok (plain_run ns pos d).
Proof.
  induction ns as [|n ns IH]; intros r pos d HR; cbn [rs_run plain_run]; [reflexivity|]. destruct (rs_read_spec n r pos d HR) as (r1 & -> & R1). cbn [bind].
  rewrite (rs_position_spec _ _ _ R1). cbn [bind]. rewrite (IH _ _ _ R1). reflexivity.
Qed.
Lemma rel_new : forall p f d, denotes 0 (parse S0 (skipn p (fdata f))) d -> tail_safe (parse S0 (skipn p (fdata f))) -> rel (rs_new (reader_at p f)) 0 d.
Proof.
  intros p f d Hd Ht. destruct (reader_at_inv S0 p f) as [I A]. exists (parse S0 (skipn p (fdata f))), d. cbn [rs_new rs_esc rs_zeros rs_offset rs_mode]. repeat (split; auto); discriminate.
Qed.
(** the stored stream does not end by a start of the fixed sequence: [tail_safe] (SparseProof2.v). It is enough that the content ends
    by a byte which is neither zero nor in the sequence. *)
Definition neutral_end (d : list N) : Prop := d = [] \/ exists d0 b, d = d0 ++ [b] /\ b <> 0%N /\ ~ In b (fixed S0).
Lemma denotes_last : forall m its d, denotes m its d -> forall d0 b, d = d0 ++ [b] -> b <> 0%N -> exists i, its = i ++ [D b].
Proof.
  intros m its d H. induction H as [|x its d H IH|n its d Hn H IH]; intros d0 b E Hb.
  - destruct d0; discriminate.
  - destruct d0 as [|y d0]; cbn in E; injection E as -> E.
    + subst d. inversion H; subst; [exists []; reflexivity|]. destruct (N.to_nat n) eqn:Q; [lia|discriminate].
    + destruct (IH d0 b E Hb) as [i ->]. exists (D y :: i). reflexivity.
  - destruct d as [|x d] using rev_ind.
    + exfalso. rewrite app_nil_r in E. assert (In b (repeat 0%N (N.to_nat n))) by (rewrite E; apply in_or_app; right; left; reflexivity). apply repeat_spec in H0. tauto.
    + rewrite app_assoc in E. apply app_inj_tail in E as [_ ->]. destruct (IH d b eq_refl Hb) as [i ->]. exists (M seqt_file :: map D (dumpN n) ++ i). rewrite app_comm_cons, app_assoc. reflexivity.
Qed.
Lemma neutral_safe : forall m its d, denotes m its d -> neutral_end d -> tail_safe its.
Proof.
  intros m its d H [->|(d0 & b & -> & Hb & Hf)] x p q E Hp Q.
  - inversion H; subst; [destruct x; [|discriminate]; destruct p; [tauto|discriminate]|]. destruct (N.to_nat n) eqn:Z; [lia|discriminate].
  - destruct (denotes_last _ _ _ H d0 b eq_refl Hb) as [i ->]. destruct p as [|y p] using rev_ind; [tauto|]. rewrite map_app, app_assoc in E. cbn [map] in E. apply app_inj_tail in E as [_ E]. injection E as ->.
    apply Hf. rewrite Q. apply in_or_app. left. apply in_or_app. right. left. reflexivity.
Qed.
(** Reads of any sizes answer as the original file, position included. *)
Theorem C25_read_back : forall min chunks ns f, at_eof f ->
  exists f' body, sparse_session min chunks f = Ok f' /\ fdata f' = fdata f ++ body /\
    (neutral_end (concat chunks) \/ tail_safe (parse S0 body) -> rs_run ns (rs_new (reader_at (length (fdata f)) f')) = Ok (plain_run ns 0 (concat chunks))).
Proof.
  intros min chunks ns f He. destruct (C25_written min chunks f He) as (f' & body & E & F & _ & Hd). exists f', body. split; [exact E|]. split; [exact F|]. intro Hs. apply rs_run_spec. apply rel_new; rewrite F, skipn_app_exact.
  - apply denotes_weaken with min. exact Hd.
  - destruct Hs as [Hs|Hs]; [apply (neutral_safe _ _ _ Hd Hs)|exact Hs].
Qed.
Print Assumptions C25_read_back.
(** The same holds for every stored stream standing for a content (any minimum), not only for those this writer makes. *)
Theorem C25_any_stream : forall body d ns, denotes 0 (parse S0 body) d -> tail_safe (parse S0 body) -> rs_run ns (rs_new (reader_at 0 (mk_file body 0))) = Ok (plain_run ns 0 d).
Proof. intros body d ns Hd Ht. apply rs_run_spec. apply rel_new; assumption. Qed.
(** Skipping forward, from the start of the file, to a position of the file, then reading gives what is there; beyond the end it is reported. *)
Theorem C25_skip_forward : forall min chunks bs pos ns, 0 < bs -> neutral_end (concat chunks) ->
  exists f' r', sparse_session min chunks (mk_file [] 0) = Ok f' /\
    rs_skip 2 bs (N.of_nat pos) (rs_new (reader_at 0 f')) = Ok (pos <=? length (concat chunks), r') /\
    rs_run ns r' = Ok (plain_run ns (Nat.min pos (length (concat chunks))) (skipn pos (concat chunks))).
Proof.
  intros min chunks bs pos ns Hb Hs. destruct (C25_written min chunks (mk_file [] 0) eq_refl) as (f' & body & E & F & _ & Hd). cbn [fdata app] in F. subst body.
  assert (R : rel (rs_new (reader_at 0 f')) 0 (concat chunks)). { apply rel_new; cbn [skipn]; [apply denotes_weaken with min; exact Hd|apply (neutral_safe _ _ _ Hd Hs)]. }
  destruct (drop_spec (S pos) bs pos _ 0 _ Hb R ltac:(lia)) as (r' & Ed & Rd). exists f', r'. split; [exact E|]. split.
  - cbn [rs_skip]. rewrite (rs_position_spec _ _ _ R). cbn [bind]. replace (N.of_nat pos <? N.of_nat 0)%N with false by lia. cbn [rs_new rs_seen andb]. rewrite N.sub_0_r, Nat2N.id.
    change (mk_rs normal 0 0 false 0 (reader_at 0 f')) with (rs_new (reader_at 0 f')) in *. rewrite Ed. cbn [bind]. do 2 f_equal. destruct (Nat.leb_spec pos (length (concat chunks))); destruct (Nat.eqb_spec (Nat.min pos (length (concat chunks))) pos); lia || reflexivity.
  - apply rs_run_spec. exact Rd.
Qed.
Print Assumptions C25_skip_forward.

(** ** Copying (restoration): from a file just opened, to an empty target, restoring the holes by skips, the target gets the content
    exactly, its position is the size of the content, and the CRC is the checksum of the content. *)
Theorem C25_copy : forall min chunks bs addr width, 0 < bs -> neutral_end (concat chunks) -> width <> 0 ->
  exists f' r' t' c, sparse_session min chunks (mk_file [] 0) = Ok f' /\
    rs_copy_to bs false addr width (rs_new (reader_at 0 f')) (mk_file [] 0) = Ok (r', t', Some c) /\
    fdata t' = concat chunks /\ fpos t' = length (concat chunks) /\ cyclic c = checksum width (concat chunks).
Proof.
  intros min chunks bs addr width Hb Hs Hw. destruct (C25_written min chunks (mk_file [] 0) eq_refl) as (f' & body & E & F & _ & Hd). cbn [fdata app] in F. subst body.
  destruct (reader_at_inv S0 0 f') as [I A]. cbn [skipn] in A. exists f'. unfold rs_copy_to. replace (width =? 0) with false by lia. unfold crc_create. replace (width =? 0) with false by lia. cbn [bind].
  assert (Er : r_skip S0 0 (rs_esc (rs_new (reader_at 0 f'))) = Ok (reader_at 0 f')) by reflexivity. cbn [rs_new rs_esc] in Er |- *. rewrite Er. cbn [bind rs_new rs_mode rs_zeros rs_offset rs_before].
  match goal with |- context [copy_loop ?fuel bs false addr false ?r ?t ?c] =>
    destruct (copy_loop_spec fuel bs addr false r t c (parse S0 (fdata f')) (concat chunks) [] width Hb) as (r' & t' & c' & Ec & C1 & C2 & C3) end; auto.
  - apply denotes_weaken with min. exact Hd.
  - apply (neutral_safe _ _ _ Hd Hs).
  - unfold parse. pose proof (parse_f_len (length (fdata f')) S0 (fdata f')). cbn [reader_at r_new r_below g_skip fdata]. lia.
  - split; reflexivity.
  - cbn [crc_so_far]. unfold wf, crc_size. cbn [pointer cyclic]. rewrite repeat_length. split; [lia|]. split; [reflexivity|]. intros i Hi. rewrite nth_repeat0. reflexivity.
  - destruct c' as [c|]; [|cbn in C3; tauto]. cbn [app] in *. exists r', t', c. split; [exact E|]. split; [exact Ec|]. split; [exact C1|]. split; [exact C2|].
    rewrite checksum_spec. destruct C3 as (_ & L & V). unfold crc_size in L. apply (nth_ext _ _ 0%N 0%N).
    + rewrite L. unfold crc_spec. rewrite map_length, seq_length. reflexivity.
    + intros i Hi. rewrite crc_spec_nth by lia. apply V. lia.
Qed.
Print Assumptions C25_copy.
(** Without CRC, writing zeros instead of skipping gives the same content. *)
Theorem C25_copy_zeros : forall min chunks bs addr, 0 < bs -> neutral_end (concat chunks) ->
  exists f' r' t', sparse_session min chunks (mk_file [] 0) = Ok f' /\
    rs_copy_to bs true addr 0 (rs_new (reader_at 0 f')) (mk_file [] 0) = Ok (r', t', None) /\ fdata t' = concat chunks /\ fpos t' = length (concat chunks).
Proof.
  intros min chunks bs addr Hb Hs. destruct (C25_written min chunks (mk_file [] 0) eq_refl) as (f' & body & E & F & _ & Hd). cbn [fdata app] in F. subst body.
  destruct (reader_at_inv S0 0 f') as [I A]. cbn [skipn] in A. exists f'. unfold rs_copy_to. change (0 =? 0) with true. cbv match. cbn [bind].
  assert (Er : r_skip S0 0 (rs_esc (rs_new (reader_at 0 f'))) = Ok (reader_at 0 f')) by reflexivity. cbn [rs_new rs_esc] in Er |- *. rewrite Er. cbn [bind rs_new rs_mode rs_zeros rs_offset rs_before].
  match goal with |- context [copy_loop ?fuel bs true addr false ?r ?t None] =>
    destruct (copy_loop_noskip fuel bs addr false r t (parse S0 (fdata f')) (concat chunks) [] Hb) as (r' & t' & Ec & C1 & C2) end; auto.
  - apply denotes_weaken with min. exact Hd.
  - apply (neutral_safe _ _ _ Hd Hs).
  - unfold parse. pose proof (parse_f_len (length (fdata f')) S0 (fdata f')). cbn [reader_at r_new r_below g_skip fdata]. lia.
  - split; reflexivity.
  - cbn [app] in *. exists r', t'. auto.
Qed.
Print Assumptions C25_copy_zeros.

(** non-trivial instance: a hole in the middle, one at a piece boundary, data to escape *)
Example C25_instance : let chunks := [[1; 174; 253; 234; 119; 33; 70; 2] ++ repeat 0 20; repeat 0 10 ++ [5; 0; 0; 7]]%N in neutral_end (concat chunks) /\
  exists f', sparse_session 15 chunks (mk_file [] 0) = Ok f' /\
    fdata f' = [1; 174; 253; 234; 119; 33; 88; 70; 2; 174; 253; 234; 119; 33; 70; 128; 0; 0; 0; 30; 5; 0; 0; 7]%N.
Proof. split; [right; eexists _, 7%N; split; [cbn [concat app repeat]; repeat rewrite app_comm_cons; change [5; 0; 0; 7]%N with ([5; 0; 0] ++ [7])%N; rewrite ?app_comm_cons; reflexivity|split; [discriminate|cbn; intuition discriminate]]|]. eexists. split; [vm_compute; reflexivity|]. vm_compute; reflexivity. Qed.

(** ** Refutations *)
(** (a) Data ending by a start of the fixed sequence is lost by small reads. *)
Definition rs_outcome (ns : list nat) (f : gfile) : res (list (list N * N)) := rs_run ns (rs_new (reader_at 0 f)).
Theorem C25_tail_refuted : exists f', sparse_session 15 [[174; 253]%N] (mk_file [] 0) = Ok f' /\ rs_outcome [2; 2; 2] f' = Ok [([], 0%N); ([], 0%N); ([], 0%N)].
Proof. eexists. split; [vm_compute; reflexivity|]. vm_compute; reflexivity. Qed.
(** (b) A file ended by a hole of 2935876215 bytes (0xAEFDEA77) following data of a certain length cannot be read. *)
Theorem C25_tail_hole_refuted : exists body, denotes 15 (parse S0 body) ([1; 2; 3]%N ++ repeat 0%N (N.to_nat 2935876215)) /\ rs_outcome [10; 10] (mk_file body 0) = Err Erange.
Proof.
  exists [1; 2; 3; 174; 253; 234; 119; 33; 70; 128; 174; 253; 234; 119]%N. split; [|vm_compute; reflexivity].
  change (parse S0 _) with (map D [1; 2; 3]%N ++ M seqt_file :: map D (dumpN 2935876215) ++ []). apply denotes_app; [apply denotes_bytes|]. rewrite <- (app_nil_r (repeat 0%N (N.to_nat 2935876215))). apply den_hole; [reflexivity|apply den_nil].
Qed.
(** (c) With copy_to_without_skip, the CRC computed is not that of the data. *)
Definition copy_outcome (bs : nat) (no_skip : bool) (width : nat) (r : rsp) : res (list N * option (list N)) :=
  let* '(_, t, c) := rs_copy_to bs no_skip 0 width r (mk_file [] 0) in Ok (fdata t, option_map cyclic c).
Theorem C25_copy_crc_refuted : exists d f', sparse_session 3 [d] (mk_file [] 0) = Ok f' /\ neutral_end d /\
  copy_outcome 100 true 4 (rs_new (reader_at 0 f')) = Ok (d, Some [1; 7; 0; 0]%N) /\ checksum 4 d = [0; 1; 7; 0]%N.
Proof.
  exists [0; 0; 0; 0; 0; 1; 7]%N. eexists. split; [vm_compute; reflexivity|]. split; [right; exists [0; 0; 0; 0; 0; 1]%N, 7%N; split; [reflexivity|split; [discriminate|cbn; intuition discriminate]]|].
  split; vm_compute; reflexivity.
Qed.
(** (d) Once something was read, copy_to does not place the data at the right offset (it goes back to the start of the stored data but
    keeps counting from the current offset). *)
Definition read_then_copy (n bs width : nat) (f : gfile) : res (list N * option (list N)) :=
  let* '(_, r) := rs_read n (rs_new (reader_at 0 f)) in copy_outcome bs false width r.
Theorem C25_copy_twice_refuted : exists d f' t, sparse_session 3 [d] (mk_file [] 0) = Ok f' /\ neutral_end d /\ read_then_copy 2 100 0 f' = Ok (t, None) /\ t <> d.
Proof.
  exists [1; 2; 0; 0; 0; 0; 0; 1; 7]%N. eexists _, _. split; [vm_compute; reflexivity|]. split; [right; exists [1; 2; 0; 0; 0; 0; 0; 1]%N, 7%N; split; [reflexivity|split; [discriminate|cbn; intuition discriminate]]|].
  split; [vm_compute; reflexivity|]. discriminate.
Qed.
(** (e) Skipping backward gives wrong data when the content needed escaping. *)
Definition read_skip_read (n : nat) (pos : N) (m : nat) (f : gfile) : res (list N) :=
  let* '(_, r) := rs_read n (rs_new (reader_at 0 f)) in let* '(_, r) := rs_skip 2 100 pos r in let* '(d, _) := rs_read m r in Ok d.
Theorem C25_skip_backward_refuted : exists d f' got, sparse_session 15 [d] (mk_file [] 0) = Ok f' /\ neutral_end d /\ read_skip_read 12 8 3 f' = Ok got /\ got <> firstn 3 (skipn 8 d).
Proof.
  exists [1; 174; 253; 234; 119; 33; 70; 2; 3; 4; 5; 6; 7; 8; 9]%N. eexists _, _. split; [vm_compute; reflexivity|].
  split; [right; exists [1; 174; 253; 234; 119; 33; 70; 2; 3; 4; 5; 6; 7; 8]%N, 9%N; split; [reflexivity|split; [discriminate|cbn; intuition discriminate]]|]. split; [vm_compute; reflexivity|]. discriminate.
Qed.
(** (f) Terminating the writer without sync_write() drops the trailing zeros (inherited_terminate, sparse_file.hpp, goes straight to escape). *)
Theorem C25_no_sync_refuted : exists w f', ws_run [[1; 2; 0; 0; 0; 0; 0; 0]%N] (ws_new 3) = Ok w /\ w_session S0 (ws_log w) (mk_file [] 0) = Ok f' /\ fdata f' = [1; 2]%N.
Proof. eexists _, _. split; [vm_compute; reflexivity|]. split; [vm_compute; reflexivity|]. vm_compute; reflexivity. Qed.
