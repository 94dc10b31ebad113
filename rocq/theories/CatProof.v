(** * Proofs on the catalogue: writing then reading *)
From Verif Require Import Base InfinintModel InfinintProof InfinintProof2 CrcModel CrcProof DatetimeModel PropDatetime HeaderModel HeaderProof2 PathModel CatModel CatSpec.
Open Scope N_scope.

Lemma bind_ok : forall A B (x : A) (f : A -> res B), bind (Ok x) f = f x.
Proof. reflexivity. Qed.

Lemma sig_rt : forall l s, is_lower l = true -> exists b, sig_byte l s = Ok b /\ forall f, sig_read (b :: f) = Some (l, s, f).
Proof.
  intros l s H. unfold sig_byte. rewrite H. cbn [negb]. eexists. split; [reflexivity|]. intro f. unfold sig_read. cbn [read1].
  assert (97 <= l <= 122) as [H1 H2] by (unfold is_lower in H; apply andb_true_iff in H; lia).
  assert (E : exists k, l = 97 + N.of_nat k /\ (k < 26)%nat) by (exists (N.to_nat (l - 97)); split; lia).
  destruct E as (k & -> & Hk).
  do 26 (destruct k as [|k]; [destruct s; vm_compute; reflexivity|]). lia.
Qed.
Lemma dt_rt : forall d, date d -> exists b, dt_dump d = Ok b /\ forall rest, dt_read 12 (b ++ rest) = Ok (d, rest).
Proof.
  intros d H. destruct (C19_dump_read d 12 [] H ltac:(lia)) as (b & E & _). exists b. split; [exact E|]. intro rest.
  destruct (C19_dump_read d 12 rest H ltac:(lia)) as (b' & E' & R). rewrite E in E'. injection E' as <-. exact R.
Qed.
Lemma u16_rt : forall n rest, n < 65536 -> u16_get (be16 n ++ rest) = Ok (n, rest).
Proof. intros n rest H. unfold be16, u16_get. cbn [app]. f_equal. f_equal. lia. Qed.
Definition norm_crc (c : crc) : crc := mk_crc (cyclic c) 0.
Lemma crc_rt : forall c rest, crc_get (crc_dump c ++ rest) = Ok (norm_crc c, rest).
Proof. intros. apply crc_read_dump. Qed.

Lemma flag_ea : forall e g, N.land (N.lor (ea_flag e) (fsa_flag g)) 7 = ea_flag e.
Proof. intros [] []; reflexivity. Qed.
Lemma flag_fsa : forall e g, N.land (N.lor (ea_flag e) (fsa_flag g)) 0x18 = fsa_flag g.
Proof. intros [] []; reflexivity. Qed.

(** the object read back *)
Definition keep {A} (b : bool) (o : option A) : option A := if b then o else None.
Definition is_full (e : eastat) : bool := match e with EAfull => true | _ => false end.
Definition is_ffull (e : fsastat) : bool := match e with FSAfull => true | _ => false end.
Definition is_fany (e : fsastat) : bool := match e with FSAnone => false | _ => true end.
Definition inode_back (small : bool) (i : cinode) : cinode :=
  CI (i_name i) (i_saved i) (i_uid i) (i_gid i) (i_perm i) (i_atime i) (i_mtime i) (i_ctime i)
     (i_ea i) (keep (is_full (i_ea i)) (i_ea_size i)) (keep (is_full (i_ea i) && negb small) (i_ea_off i))
     (keep (is_full (i_ea i) && negb small) (option_map norm_crc (i_ea_crc i)))
     (i_fsa i) (keep (is_fany (i_fsa i)) (i_fsa_fam i)) (keep (is_ffull (i_fsa i)) (i_fsa_size i)) (keep (is_ffull (i_fsa i) && negb small) (i_fsa_off i))
     (keep (is_ffull (i_fsa i) && negb small) (option_map norm_crc (i_fsa_crc i))).

Lemma back_head : forall small i, v_head small (inode_back small i) = v_head small i.
Proof.
  intros small [nm sv u g p a m c ea es eo ec fs ff fz fo fc]. unfold v_head, inode_back, keep, v_crc.
  cbn [i_name i_saved i_uid i_gid i_perm i_atime i_mtime i_ctime i_ea i_ea_size i_ea_off i_ea_crc i_fsa i_fsa_fam i_fsa_size i_fsa_off i_fsa_crc].
  destruct ea, fs, small; cbn [is_full is_ffull is_fany andb negb]; destruct ec, fc; reflexivity.
Qed.
Lemma back_head_name : forall small n i, v_head small (set_name n (inode_back small i)) = v_head small (set_name n i).
Proof. intros small n i. exact (back_head small (set_name n i)). Qed.

Ltac rd := repeat (rewrite bind_ok || rewrite readN_dumpN || rewrite crc_rt || (rewrite u16_rt by assumption)).

Lemma inode_rt : forall small i letter, inode_ok small i -> is_lower letter = true ->
  exists s b, inode_dump small letter i = Ok (s :: b) /\ (forall f, sig_read (s :: f) = Some (letter, i_saved i, f)) /\
    forall rest, inode_read small (i_saved i) (b ++ rest) = Ok (inode_back small i, rest).
Proof.
  intros small [nm sv u g p a m c ea es eo ec fs ff fz fo fc] letter H HL. unfold inode_ok in H.
  cbn [i_name i_saved i_uid i_gid i_perm i_atime i_mtime i_ctime i_ea i_ea_size i_ea_off i_ea_crc i_fsa i_fsa_fam i_fsa_size i_fsa_off i_fsa_crc] in *.
  destruct H as (Hn & Hp & Da & Dm & Dc & HE & HF1 & HF2).
  destruct (sig_rt letter sv HL) as (s & Es & Rs). destruct (dt_rt a Da) as (ba & Ea & Ra). destruct (dt_rt m Dm) as (bm & Em & Rm).
  destruct (dt_rt c Dc) as (bc & Ec & Rc).
  unfold inode_dump, nomme_dump.
  cbn [i_name i_saved i_uid i_gid i_perm i_atime i_mtime i_ctime i_ea i_ea_size i_ea_off i_ea_crc i_fsa i_fsa_fam i_fsa_size i_fsa_off i_fsa_crc].
  rewrite Es, Ea, Em, Ec, !bind_ok.
  set (flag := N.lor (ea_flag ea) (fsa_flag fs)).
  (* EA *)
  assert (E1 : exists b1 b2,
     match ea with EAfull => let* s := opt_bug es in Ok (dumpN s) | _ => Ok [] end = Ok b1 /\
     match ea with EAfull => if small then Ok [] else let* o := opt_bug eo in let* k := opt_bug ec in Ok (dumpN o ++ crc_dump k) | _ => Ok [] end = Ok b2 /\
     (forall rest, match ea with EAfull => let* '(x, f) := readN (b1 ++ rest) in Ok (Some x, f) | _ => Ok (None, b1 ++ rest) end = Ok (keep (is_full ea) es, rest)) /\
     (forall rest, (if negb small then match ea with EAfull => let* '(o, f) := readN (b2 ++ rest) in let* '(k, f) := crc_get f in Ok (Some o, Some k, f) | _ => Ok (None, None, b2 ++ rest) end
       else Ok (None, None, b2 ++ rest)) = Ok (keep (is_full ea && negb small) eo, keep (is_full ea && negb small) (option_map norm_crc ec), rest))).
  { destruct ea; try (exists [], []; do 2 (split; [reflexivity|]); split; intro; [reflexivity|destruct small; reflexivity]).
    destruct (HE eq_refl) as [P1 P2]. destruct es as [es|]; [|exfalso; apply P1; reflexivity]. destruct small.
    - exists (dumpN es), []. do 2 (split; [reflexivity|]). split; intro; [rd|]; reflexivity.
    - destruct (P2 eq_refl) as [P3 P4]. destruct eo as [eo|]; [|exfalso; apply P3; reflexivity]. destruct ec as [ec|]; [|exfalso; apply P4; reflexivity].
      exists (dumpN es), (dumpN eo ++ crc_dump ec). do 2 (split; [reflexivity|]). split; intro; rewrite <- ?app_assoc; cbn [negb]; rd; reflexivity. }
  destruct E1 as (b1 & b2 & -> & -> & R1 & R2). rewrite !bind_ok.
  assert (E2 : exists b3 b4 b5,
     match fs with FSAnone => Ok [] | _ => let* s := opt_bug ff in Ok (dumpN s) end = Ok b3 /\
     match fs with FSAfull => let* s := opt_bug fz in Ok (dumpN s) | _ => Ok [] end = Ok b4 /\
     match fs with FSAfull => if small then Ok [] else let* o := opt_bug fo in let* k := opt_bug fc in Ok (dumpN o ++ crc_dump k) | _ => Ok [] end = Ok b5 /\
     (forall rest, match fs with FSAnone => Ok (None, b3 ++ rest) | _ => let* '(x, f) := readN (b3 ++ rest) in Ok (Some x, f) end = Ok (keep (is_fany fs) ff, rest)) /\
     (forall rest, match fs with FSAfull => let* '(x, f) := readN (b4 ++ rest) in Ok (Some x, f) | _ => Ok (None, b4 ++ rest) end = Ok (keep (is_ffull fs) fz, rest)) /\
     (forall rest, (if negb small then match fs with FSAfull => let* '(o, f) := readN (b5 ++ rest) in let* '(k, f) := crc_get f in Ok (Some o, Some k, f) | _ => Ok (None, None, b5 ++ rest) end
       else Ok (None, None, b5 ++ rest)) = Ok (keep (is_ffull fs && negb small) fo, keep (is_ffull fs && negb small) (option_map norm_crc fc), rest))).
  { destruct fs.
    - exists [], [], []. do 3 (split; [reflexivity|]). split; [reflexivity|]. split; [reflexivity|]. intro. destruct small; reflexivity.
    - destruct ff as [ff|]; [|exfalso; apply HF1; [discriminate|reflexivity]].
      exists (dumpN ff), [], []. do 3 (split; [reflexivity|]). split; [intro; rd; reflexivity|]. split; [reflexivity|]. intro. destruct small; reflexivity.
    - destruct ff as [ff|]; [|exfalso; apply HF1; [discriminate|reflexivity]].
      destruct (HF2 eq_refl) as [P1 P2]. destruct fz as [fz|]; [|exfalso; apply P1; reflexivity]. destruct small.
      + exists (dumpN ff), (dumpN fz), []. do 3 (split; [reflexivity|]). split; [|split]; intro; rd; reflexivity.
      + destruct (P2 eq_refl) as [P3 P4]. destruct fo as [fo|]; [|exfalso; apply P3; reflexivity]. destruct fc as [fc|]; [|exfalso; apply P4; reflexivity].
        exists (dumpN ff), (dumpN fz), (dumpN fo ++ crc_dump fc). do 3 (split; [reflexivity|]). split; [|split]; intro; rewrite <- ?app_assoc; cbn [negb]; rd; reflexivity. }
  destruct E2 as (b3 & b4 & b5 & -> & -> & -> & R3 & R4 & R5). rewrite !bind_ok.
  eexists _, _. split; [cbn [app]; reflexivity|]. split; [exact Rs|]. intro rest.
  unfold inode_read. rewrite <- ?app_assoc. rewrite read_string_app by exact Hn. rewrite bind_ok. cbn [app read1]. rewrite bind_ok. cbn zeta.
  replace (N.land flag 7) with (ea_flag ea) by (symmetry; apply flag_ea).
  replace (if ea_flag ea =? 1 then Ok EAfull else if ea_flag ea =? 2 then Ok EApart else if ea_flag ea =? 3 then Ok EAnone
             else if ea_flag ea =? 4 then Ok EAfake else if ea_flag ea =? 5 then Ok EAremo else Err Erange) with (Ok ea) by (destruct ea; reflexivity).
  rewrite bind_ok. rewrite <- ?app_assoc. do 2 rewrite readN_dumpN, bind_ok.
  rewrite u16_rt by exact Hp. rewrite bind_ok. rewrite Ra, bind_ok, Rm, bind_ok, Rc, bind_ok.
  rewrite R1, bind_ok, R2, bind_ok.
  replace (N.land flag 0x18) with (fsa_flag fs) by (symmetry; apply flag_fsa).
  replace (if fsa_flag fs =? 0 then Ok FSAnone else if fsa_flag fs =? 0x08 then Ok FSApart else if fsa_flag fs =? 0x10 then Ok FSAfull else Err Erange)
    with (Ok fs) by (destruct fs; reflexivity).
  rewrite bind_ok, R3, bind_ok, R4, bind_ok, R5, bind_ok. reflexivity.
Qed.

(** ** files *)
Lemma dsig_rt : forall d, present (ds_result d) -> exists b, dsig_dump d = Ok b /\
  exists d', v_sig d' = v_sig d /\ forall rest, dsig_read (b ++ rest) = Ok (d', rest).
Proof.
  intros [mg sz off r] H. cbn [ds_result] in H. destruct r as [r|]; [|exfalso; apply H; reflexivity].
  unfold dsig_dump. cbn [ds_result ds_magic ds_size ds_off opt_bug]. rewrite bind_ok. eexists. split; [reflexivity|].
  exists (DSig mg sz (if sz =? 0 then 0 else off) (Some (norm_crc r))). split.
  - unfold v_sig. cbn [ds_result ds_magic ds_size ds_off]. destruct (sz =? 0); reflexivity.
  - intro rest. unfold dsig_read, byte_get. cbn [app read1]. rewrite bind_ok.
    replace (char_magic (magic_char mg)) with (Ok mg) by (destruct mg; reflexivity). rewrite bind_ok.
    rewrite <- !app_assoc, readN_dumpN, bind_ok. destruct (sz =? 0); cbn [app]; rd; reflexivity.
Qed.

Lemma odd_flag : forall x, N.odd x = has_flag x WITH_HOLE.
Proof.
  intro x. unfold has_flag, WITH_HOLE. destruct x as [|[p|p|]]; reflexivity.
Qed.
Lemma v_file_alt : forall small w st c, v_file small w st c =
  VF (c_size c) (has_flag (if w then c_fds_write c else c_fds_read c) WITH_HOLE)
     (if has_data st && negb small then Some (c_off c, c_ssize c, c_dirty c, v_crc (c_check c)) else None)
     (if has_data st then Some (if w then c_algo_write c else c_algo_read c) else None)
     (if is_delta st then Some (v_crc (c_base c)) else None)
     (option_map (fun d => if small then None else Some (v_sig d)) (c_sig c)).
Proof. intros. unfold v_file. rewrite odd_flag. destruct st; reflexivity. Qed.
Lemma file_rt : forall small st c algo, file_ok small st c -> exists b, file_dump small st c = Ok b /\
  exists c', v_file small false st c' = v_file small true st c /\ forall rest, file_read small st algo (b ++ rest) = Ok (c', rest).
Proof.
  intros small st [size off ss dirty fr fw ar aw chk base sg] algo (Hw & Hc & Hd & Hs). change (stored st) with (has_data st) in Hc. cbn [c_fds_write c_check c_base c_sig] in *.
  assert (Hfw : fw = 0 \/ fw = 1) by lia.
  unfold file_dump. cbn [c_size c_off c_ssize c_dirty c_fds_read c_fds_write c_algo_read c_algo_write c_check c_base c_sig].
  set (flags := N.lor (N.lor match sg with Some _ => HAS_DELTA_SIG | None => 0 end fw) (if dirty then IS_DIRTY else 0)).
  assert (FL : has_flag flags IS_DIRTY = dirty /\ has_flag flags HAS_DELTA_SIG = (match sg with Some _ => true | None => false end) /\
               has_flag (clear_flag flags IS_DIRTY) HAS_DELTA_SIG = (match sg with Some _ => true | None => false end) /\
               has_flag flags WITH_HOLE = has_flag fw WITH_HOLE /\ has_flag (clear_flag flags IS_DIRTY) WITH_HOLE = has_flag fw WITH_HOLE /\
               has_flag (clear_flag flags HAS_DELTA_SIG) WITH_HOLE = has_flag fw WITH_HOLE /\
               has_flag (clear_flag (clear_flag flags IS_DIRTY) HAS_DELTA_SIG) WITH_HOLE = has_flag fw WITH_HOLE).
  { unfold flags. destruct Hfw as [-> | ->], sg, dirty; vm_compute; tauto. }
  destruct FL as (F1 & F2 & F3 & F4 & F5 & F6 & F7). clearbody flags.
  assert (BB : exists bb, (if is_delta st then let* k := opt_bug base in Ok (crc_dump k) else Ok []) = Ok bb /\
     forall rest, (if (match sg with Some _ => true | None => false end) && is_delta st then let* '(k, f) := crc_get (bb ++ rest) in Ok (Some k, f) else Ok (None, bb ++ rest))
       = Ok (keep (is_delta st) (option_map norm_crc base), rest)).
  { destruct st; try (exists []; split; [reflexivity|]; intro; rewrite andb_false_r; reflexivity).
    destruct (Hd eq_refl) as [P1 P2]. destruct base as [base|]; [|exfalso; apply P1; reflexivity]. destruct sg; [|exfalso; apply P2; reflexivity].
    exists (crc_dump base). split; [reflexivity|]. intro. cbn [andb is_delta]. rd. reflexivity. }
  destruct BB as (bb & Ebb & Rbb).
  assert (VB : (if is_delta st then Some (v_crc (keep (is_delta st) (option_map norm_crc base))) else None) = (if is_delta st then Some (v_crc base) else None)).
  { destruct (is_delta st); [|reflexivity]. cbn [keep]. destruct base; reflexivity. }
  destruct small; cbn [negb].
  - destruct (has_data st) eqn:HD.
    + rewrite Ebb, !bind_ok. eexists. split; [reflexivity|].
      eexists (CF size 0 0 false (if (match sg with Some _ => true | None => false end) then clear_flag flags HAS_DELTA_SIG else flags)
        (if (match sg with Some _ => true | None => false end) then clear_flag flags HAS_DELTA_SIG else flags) aw aw None (keep (is_delta st) (option_map norm_crc base)) (match sg with Some _ => Some (DSig Mnone 0 0 None) | None => None end)).
      split.
      * rewrite !v_file_alt. cbn [c_size c_off c_ssize c_dirty c_fds_read c_fds_write c_algo_read c_algo_write c_check c_base c_sig].
        rewrite HD, VB. cbn [andb negb]. destruct sg; cbn [option_map]; rewrite ?F4, ?F6; reflexivity.
      * intro rest. unfold file_read. rewrite <- !app_assoc, readN_dumpN, bind_ok. cbn [negb]. rewrite HD. unfold byte_get. cbn [app read1].
        rewrite bind_ok. cbn [app read1]. rewrite bind_ok, char_comp_char, bind_ok. cbn zeta. rewrite F2, Rbb, bind_ok. destruct sg; reflexivity.
    + rewrite bind_ok. eexists. split; [reflexivity|].
      eexists (CF size 0 0 false (if (match sg with Some _ => true | None => false end) then clear_flag flags HAS_DELTA_SIG else flags)
        (if (match sg with Some _ => true | None => false end) then clear_flag flags HAS_DELTA_SIG else flags) algo algo None None (match sg with Some _ => Some (DSig Mnone 0 0 None) | None => None end)).
      split.
      * rewrite !v_file_alt. cbn [c_size c_off c_ssize c_dirty c_fds_read c_fds_write c_algo_read c_algo_write c_check c_base c_sig].
        assert (is_delta st = false) as -> by (destruct st; try reflexivity; discriminate). rewrite HD. cbn [andb negb]. destruct sg; cbn [option_map]; rewrite ?F4, ?F6; reflexivity.
      * intro rest. unfold file_read. rewrite <- !app_assoc, readN_dumpN, bind_ok. cbn [negb]. rewrite HD. unfold byte_get. cbn [app read1].
        rewrite !bind_ok. cbn zeta. rewrite F2. destruct sg; reflexivity.
  - assert (SG : exists bs, match sg with Some s => dsig_dump s | None => Ok [] end = Ok bs /\ exists sg', option_map v_sig sg' = option_map v_sig sg /\
       forall rest, (if (match sg with Some _ => true | None => false end) then let* '(d, f) := dsig_read (bs ++ rest) in Ok (Some d, f) else Ok (None, bs ++ rest)) = Ok (sg', rest)).
    { destruct sg as [d|].
      - destruct (dsig_rt d (Hs eq_refl d eq_refl)) as (b & E & d' & V & R). exists b. split; [exact E|]. exists (Some d'). split; [cbn [option_map]; rewrite V; reflexivity|].
        intro rest. rewrite R. reflexivity.
      - exists []. split; [reflexivity|]. exists None. split; reflexivity. }
    destruct SG as (bs & Es & sg' & Vs & Rs).
    assert (Vs' : option_map (fun d => if false then @None (magic * N * option N * option (list N)) else Some (v_sig d)) sg' = option_map (fun d => if false then None else Some (v_sig d)) sg).
    { destruct sg, sg'; cbn [option_map] in *; congruence. }
    destruct (has_data st) eqn:HD.
    + rewrite Ebb, !bind_ok. pose proof (Hc eq_refl eq_refl) as P. destruct chk as [chk|]; [|exfalso; apply P; reflexivity]. cbn [opt_bug]. rewrite !bind_ok, Es, !bind_ok.
      eexists. split; [reflexivity|].
      set (fl2 := if dirty then clear_flag flags IS_DIRTY else flags).
      set (fl3 := if (match sg with Some _ => true | None => false end) then clear_flag fl2 HAS_DELTA_SIG else fl2).
      eexists (CF size off ss dirty fl3 fl3 aw aw (Some (norm_crc chk)) (keep (is_delta st) (option_map norm_crc base)) sg').
      assert (G1 : has_flag fl2 HAS_DELTA_SIG = match sg with Some _ => true | None => false end) by (unfold fl2; destruct dirty; assumption).
      assert (G2 : has_flag fl3 WITH_HOLE = has_flag fw WITH_HOLE) by (unfold fl3, fl2; destruct sg, dirty; assumption).
      split.
      * rewrite !v_file_alt. cbn [c_size c_off c_ssize c_dirty c_fds_read c_fds_write c_algo_read c_algo_write c_check c_base c_sig].
        rewrite HD, VB, G2, Vs'. reflexivity.
      * intro rest. unfold file_read. rewrite <- !app_assoc, readN_dumpN, bind_ok. cbn [negb]. rewrite HD. rewrite <- ?app_assoc. rewrite readN_dumpN, bind_ok, readN_dumpN, bind_ok.
        unfold byte_get. cbn [app read1]. rewrite !bind_ok. cbn [app read1]. cbn zeta. rewrite F1. fold fl2. rewrite bind_ok, char_comp_char, bind_ok. rewrite G1, Rbb, bind_ok, crc_rt, bind_ok, Rs, bind_ok. reflexivity.
    + rewrite !bind_ok, Es, !bind_ok. eexists. split; [reflexivity|].
      eexists (CF size 0 0 false (clear_flag flags HAS_DELTA_SIG) 0 algo algo None None sg'). split.
      * rewrite !v_file_alt. cbn [c_size c_off c_ssize c_dirty c_fds_read c_fds_write c_algo_read c_algo_write c_check c_base c_sig].
        assert (is_delta st = false) as -> by (destruct st; try reflexivity; discriminate). rewrite HD, F6, Vs'. reflexivity.
      * intro rest. unfold file_read. rewrite <- !app_assoc, readN_dumpN, bind_ok. cbn [negb]. rewrite HD. unfold byte_get. cbn [app read1].
        rewrite !bind_ok. cbn zeta. rewrite F2, Rs, bind_ok. reflexivity.
Qed.

Lemma letter_lower : forall k, is_lower (letter_of k) = true.
Proof. destruct k; reflexivity. Qed.
Lemma kind_rt : forall small st k algo, kind_ok small st k -> exists b, kind_dump small st k = Ok b /\
  exists k', v_kind small false st k' = v_kind small true st k /\
  (forall f, kind_read small algo (letter_of k) st f <> None) /\
  forall rest, kind_read small algo (letter_of k) st (b ++ rest) = Some (Ok (k', rest)).
Proof.
  intros small st [c|c|t|a b|a b| |] algo H; cbn [kind_ok kind_dump letter_of v_kind] in *.
  - destruct (file_rt small st c algo H) as (bs & E & c' & V & R). exists bs. split; [exact E|]. exists (Kfile c'). split; [cbn [v_kind]; rewrite V; reflexivity|].
    split; [intro; discriminate|]. intro rest. unfold kind_read. cbn [N.eqb Pos.eqb]. rewrite R. reflexivity.
  - destruct (file_rt small st c algo H) as (bs & E & c' & V & R). exists bs. split; [exact E|]. exists (Kdoor c'). split; [cbn [v_kind]; rewrite V; reflexivity|].
    split; [intro; discriminate|]. intro rest. unfold kind_read. cbn [N.eqb Pos.eqb]. rewrite R. reflexivity.
  - eexists. split; [reflexivity|]. exists (Klien (match st with Ssaved => t | _ => [] end)). split; [destruct st; reflexivity|]. split; [intro; discriminate|].
    intro rest. unfold kind_read. cbn [N.eqb Pos.eqb]. destruct st; cbn [lien_read]; try reflexivity. rewrite read_string_app by exact H. reflexivity.
  - destruct H as [Ha Hb]. eexists. split; [reflexivity|]. exists (Kchar (match st with Ssaved => a | _ => 0 end) (match st with Ssaved => b | _ => 0 end)).
    split; [destruct st; reflexivity|]. split; [intro; discriminate|].
    intro rest. unfold kind_read. cbn [N.eqb Pos.eqb]. destruct st; cbn [device_read]; try reflexivity. rewrite <- app_assoc. rd. reflexivity.
  - destruct H as [Ha Hb]. eexists. split; [reflexivity|]. exists (Kblock (match st with Ssaved => a | _ => 0 end) (match st with Ssaved => b | _ => 0 end)).
    split; [destruct st; reflexivity|]. split; [intro; discriminate|].
    intro rest. unfold kind_read. cbn [N.eqb Pos.eqb]. destruct st; cbn [device_read]; try reflexivity. rewrite <- app_assoc. rd. reflexivity.
  - exists []. split; [reflexivity|]. exists Ktube. split; [reflexivity|]. split; [intro; discriminate|]. reflexivity.
  - exists []. split; [reflexivity|]. exists Kprise. split; [reflexivity|]. split; [intro; discriminate|]. reflexivity.
Qed.
