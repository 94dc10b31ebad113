(** * C27: a window over a file behaves as a file of its own and never touches what is out of it. *)
From Verif Require Import Base FileModel ClientSpec CacheProof CacheProof2 TroncModel.
Open Scope nat_scope.

(** ** specification: a file whose size is at most [lim] *)
Definition window (start : nat) (lim : option nat) (D : list N) : list N := match lim with Some s => firstn s (skipn start D) | None => skipn start D end.
Definition w_op (lim : option nat) (o : gop) (f : gfile) : gout * gfile :=
  match o, lim with
  | GSkip p, Some s => if s <? p then (OBool false, g_skip s f) else (OBool true, g_skip p f)
  | GEof, Some s => (OBool true, g_skip s f)
  | GRel x, _ => let y := (Z.of_nat (fpos f) + x)%Z in
      if (y <? 0)%Z then (OBool false, g_skip 0 f)
      else match lim with
           | Some s => if (Z.of_nat s <? y)%Z then (OBool false, g_skip s f) else (OBool true, g_skip (Z.to_nat y) f)
           | None => (OBool true, g_skip (Z.to_nat y) f)
           end
  | _, _ => g_op o f
  end.
Fixpoint w_run (lim : option nat) (ops : list gop) (f : gfile) : list gout * gfile :=
  match ops with
  | [] => ([], f)
  | o :: r => let '(a, f1) := w_op lim o f in let '(l, f2) := w_run lim r f1 in (a :: l, f2)
  end.
(** the client writes within the size; it skips backward relatively once it has read, written or jumped to the end at least once; it does not reach the exact end by a relative skip *)
Fixpoint client_ok (lim : option nat) (used : bool) (ops : list gop) (f : gfile) : Prop :=
  match ops with
  | [] => True
  | o :: r =>
    match o, lim with
    | GWrite a, Some s => fpos f + length a <= s
    | GRel x, _ => ((x < 0)%Z -> used = true) /\ ((0 < x)%Z -> match lim with Some s => (Z.of_nat (fpos f) + x <> Z.of_nat s)%Z | None => True end)
    | _, _ => True
    end /\ client_ok lim (used || match o with GRead _ | GWrite _ | GEof => true | _ => false end) r (snd (w_op lim o f))
  end.
(** nothing changed out of the window *)
Definition kept (start : nat) (lim : option nat) (D D' : list N) : Prop :=
  (forall i, i < start \/ match lim with Some s => start + s <= i | None => False end -> nth i D' 0%N = nth i D 0%N) /\ length D <= length D' /\
  match lim with Some s => length D' <= Nat.max (length D) (start + s) | None => True end.

Lemma kept_refl : forall start lim D, kept start lim D D.
Proof. intros. split; [reflexivity|]. split; [lia|]. destruct lim; lia. Qed.
Lemma kept_trans : forall start lim A B C, kept start lim A B -> kept start lim B C -> kept start lim A C.
Proof.
  intros start lim A B C (H1 & H2 & H3) (K1 & K2 & K3). split; [intros i Hi; rewrite (K1 i Hi); apply H1; exact Hi|]. split; [lia|]. destruct lim; lia.
Qed.
Lemma window_write : forall start lim D cur a, (match lim with Some s => cur + length a <= s | None => True end) ->
  window start lim (overwrite D (start + cur) a) = overwrite (window start lim D) cur a \/ length a = 0.
Proof.
  intros start lim D cur a H. destruct (Nat.eq_dec (length a) 0) as [Z|Z]; [right; exact Z|left].
  apply ext0.
  - destruct lim as [s|]; cbn [window]; rewrite ow_len, ?firstn_length, !skipn_length, ?firstn_length, ?skipn_length, ow_len; lia.
  - intro i. destruct lim as [s|]; cbn [window]; rewrite ?nth_firstn0, !nth_skipn0, !ow_nth, ?nth_firstn0, ?nth_skipn0.
    + destruct (Nat.ltb_spec i s); destruct (Nat.leb_spec (start + cur) (start + i)); destruct (Nat.leb_spec cur i); destruct (Nat.ltb_spec (start + i) (start + cur + length a)); destruct (Nat.ltb_spec i (cur + length a)); cbn [andb]; try lia; try reflexivity; f_equal; lia.
    + destruct (Nat.leb_spec (start + cur) (start + i)); destruct (Nat.leb_spec cur i); destruct (Nat.ltb_spec (start + i) (start + cur + length a)); destruct (Nat.ltb_spec i (cur + length a)); cbn [andb]; try lia; try reflexivity; f_equal; lia.
Qed.
Lemma kept_write : forall start lim D cur a, (match lim with Some s => cur + length a <= s | None => True end) -> kept start lim D (overwrite D (start + cur) a).
Proof.
  intros start lim D cur a H. split; [|split; [rewrite ow_len; lia|destruct lim; [rewrite ow_len; lia|exact I]]].
  intros i Hi. rewrite ow_nth. destruct (Nat.leb_spec (start + cur) i); cbn [andb]; [|reflexivity]. destruct (Nat.ltb_spec i (start + cur + length a)); [|reflexivity]. destruct lim as [s|]; lia.
Qed.

(** ** the two loops *)
Lemma read_loop_spec : forall M n fuel avail macro got ref, 0 < M -> macro <= M -> length got <= n -> n - length got < fuel ->
  let want := firstn (Nat.min (n - length got) (avail + macro)) (skipn (fpos ref) (fdata ref)) in
  t_read_loop fuel M n avail macro got ref = (got ++ want, mk_file (fdata ref) (fpos ref + length want)).
Proof.
  intros M n. induction fuel as [|k IH]; intros avail macro got ref HM Hm Hg Hf want; [lia|]. cbn [t_read_loop].
  set (take := Nat.min avail (M - macro)). set (micro := Nat.min (n - length got) (macro + take)).
  destruct (Nat.ltb_spec 0 micro) as [Q|Q].
  2:{ assert (want = []) as -> by (unfold want; replace (Nat.min (n - length got) (avail + macro)) with 0 by lia; reflexivity). rewrite app_nil_r. cbn [length]. rewrite Nat.add_0_r. destruct ref; reflexivity. }
  unfold g_read. set (d := firstn micro (skipn (fpos ref) (fdata ref))).
  assert (Ld : length d = Nat.min micro (length (fdata ref) - fpos ref)) by (unfold d; rewrite firstn_length, skipn_length; reflexivity).
  destruct (Nat.ltb_spec 0 (length d)) as [L|L].
  - rewrite IH; [|assumption|lia|rewrite app_length; lia|rewrite app_length; lia]. cbn [fdata fpos].
    assert (W : want = d ++ firstn (Nat.min (n - length (got ++ d)) (avail - take + (macro + take - length d))) (skipn (fpos ref + length d) (fdata ref))).
    { unfold want. destruct (Nat.eq_dec (length d) micro) as [E|E].
      - rewrite app_length. replace (Nat.min (n - length got) (avail + macro)) with (micro + Nat.min (n - (length got + length d)) (avail - take + (macro + take - length d))) by lia.
        rewrite firstn_add. fold d. f_equal. rewrite skipn_skipn, E. f_equal. f_equal. lia.
      - rewrite (@skipn_all2 N (fpos ref + length d)) by lia. rewrite firstn_nil, app_nil_r. unfold d. rewrite !firstn_all2 by (rewrite skipn_length; lia). reflexivity. }
    rewrite W at 1. rewrite <- app_assoc. f_equal. f_equal. rewrite W. set (X := firstn _ (skipn (fpos ref + length d) _)). rewrite (app_length d X). lia.
  - assert (E : length (fdata ref) <= fpos ref) by lia. assert (want = d) as -> by (unfold want, d; rewrite (skipn_all2 (fdata ref)) by exact E; rewrite !firstn_nil; reflexivity). reflexivity.
Qed.
Lemma write_loop_spec : forall M fuel a avail macro ref, 0 < M -> macro <= M -> length a < fuel ->
  t_write_loop fuel M a avail macro ref = (if length a <=? avail + macro then None else Some Erange, g_write (firstn (avail + macro) a) ref).
Proof.
  intros M. induction fuel as [|k IH]; intros a avail macro ref HM Hm Hf; [lia|]. cbn [t_write_loop].
  set (take := Nat.min avail (M - macro)). destruct (Nat.eqb_spec (macro + take) 0) as [Q|Q]; cbn [andb].
  - assert (avail + macro = 0) as -> by lia. destruct a as [|x a]; cbn [length Nat.ltb Nat.leb]; [reflexivity|]. reflexivity.
  - set (micro := Nat.min (length a) (macro + take)). destruct (skipn micro a) as [|x r] eqn:E.
    + assert (length a <= micro) by (apply (f_equal (@length N)) in E; rewrite skipn_length in E; cbn in E; lia). replace (length a <=? avail + macro) with true by lia. rewrite !firstn_all2 by lia. reflexivity.
    + assert (L : micro < length a) by (apply (f_equal (@length N)) in E; rewrite skipn_length in E; cbn in E; lia). assert (Em : micro = macro + take) by lia. rewrite <- E, IH by (try assumption; try (rewrite skipn_length); lia).
      rewrite skipn_length. f_equal; [destruct (Nat.leb_spec (length a - micro) (avail - take + (macro + take - micro))); destruct (Nat.leb_spec (length a) (avail + macro)); try lia; reflexivity|].
      replace (avail + macro) with (micro + (avail - take + (macro + take - micro))) by lia. rewrite (firstn_add a micro). set (b := firstn _ (skipn micro a)).
      assert (Lm : length (firstn micro a) = micro) by (rewrite firstn_length; lia). destruct (firstn micro a) as [|y z] eqn:Ey; [cbn in Lm; lia|].
      rewrite <- Ey in *. assert (G : forall l f, l <> [] -> g_write l f = mk_file (overwrite (fdata f) (fpos f) l) (fpos f + length l)) by (intros [|? ?] f; [congruence|reflexivity]).
      rewrite (G (firstn micro a)), (G (firstn micro a ++ b)) by (rewrite Ey; discriminate). destruct b as [|u v] eqn:Eb; [rewrite app_nil_r; reflexivity|]. rewrite G by discriminate. cbn [fdata fpos]. rewrite ow_app, app_length. f_equal. lia.
Qed.

(** ** one operation *)
Definition tview (t : tronc) : gfile := mk_file (window (t_start t) (t_sz t) (fdata (t_ref t))) (t_cur t).
Definition t_inv (t : tronc) : Prop := t_chk t = true /\ match t_sz t with Some s => t_cur t <= s | None => t_start t <= length (fdata (t_ref t)) end.
Definition synced (t : tronc) : Prop := fpos (t_ref t) = t_start t + t_cur t.
Definition t_same (t t' : tronc) : Prop := t_start t' = t_start t /\ t_sz t' = t_sz t.
Lemma g_write_ne : forall l f, l <> [] -> g_write l f = mk_file (overwrite (fdata f) (fpos f) l) (fpos f + length l).
Proof. intros [|? ?] f; [congruence|reflexivity]. Qed.

Lemma t_op_spec : forall M o t used, 0 < M -> t_inv t -> (used = true -> synced t) -> 
  match o, t_sz t with
  | GWrite a, Some s => t_cur t + length a <= s
  | GRel x, _ => ((x < 0)%Z -> used = true) /\ ((0 < x)%Z -> match t_sz t with Some s => (Z.of_nat (t_cur t) + x <> Z.of_nat s)%Z | None => True end)
  | _, _ => True
  end ->
  exists t', t_op M o t = Ok (fst (w_op (t_sz t) o (tview t)), t') /\ tview t' = snd (w_op (t_sz t) o (tview t)) /\ t_inv t' /\ t_same t t' /\
    ((used || match o with GRead _ | GWrite _ | GEof => true | _ => false end) = true -> synced t') /\ kept (t_start t) (t_sz t) (fdata (t_ref t)) (fdata (t_ref t')).
Proof.
  intros M o [ref start lim cur chk] used HM [Hc Hi] Hs Ho. unfold t_inv, synced, t_same, tview in *. cbn [t_ref t_start t_sz t_cur t_chk] in *. subst chk.
  destruct o as [n|a|p| |x|]; cbn [t_op].
  - (* read *)
    unfold t_read, t_at, t_move. cbn [t_ref t_start t_sz t_cur t_chk]. destruct lim as [s|].
    + replace (s <? cur) with false by lia. rewrite read_loop_spec by (cbn; lia). cbn [length app g_skip fpos fdata bind]. rewrite Nat.sub_0_r, Nat.add_0_r. cbn [w_op g_op window fpos fdata].
      unfold g_read. cbn [fpos fdata fst snd t_ref t_start t_sz t_cur t_chk].
      assert (E : firstn (Nat.min n (s - cur)) (skipn (start + cur) (fdata ref)) = firstn n (skipn cur (firstn s (skipn start (fdata ref))))).
      { rewrite skipn_firstn_comm, skipn_skipn, firstn_firstn. f_equal. f_equal. lia. }
      rewrite E. set (d := firstn n _) in *. assert (length d <= s - cur) by (rewrite <- E, firstn_length; lia). eexists. split; [reflexivity|]. cbn [t_ref t_start t_sz t_cur t_chk fdata fpos]. repeat split; auto; try lia.
    + unfold g_read. cbn [bind g_skip fpos fdata w_op g_op window fst snd]. unfold g_read. cbn [fpos fdata fst snd]. rewrite (skipn_skipn N cur start), (Nat.add_comm cur start). eexists. split; [reflexivity|]. cbn [t_ref t_start t_sz t_cur t_chk fdata fpos]. repeat split; auto; try lia.
  - (* write *)
    unfold t_write, t_at, t_move. cbn [t_ref t_start t_sz t_cur t_chk]. destruct lim as [s|].
    + replace (s <? cur) with false by lia. rewrite write_loop_spec by lia. rewrite Nat.add_0_r. replace (length a <=? s - cur) with true by lia. rewrite firstn_all2 by lia. eexists. split; [reflexivity|]. cbn [t_ref t_start t_sz t_cur t_chk w_op g_op window snd].
      destruct a as [|b a]; [cbn [g_write length g_skip fdata fpos]; rewrite Nat.add_0_r; repeat split; auto; lia|]. remember (b :: a) as w eqn:Ew. assert (Hw : w <> []) by (subst; discriminate). assert (Lw : 0 < length w) by (subst; cbn; lia). clear b a Ew.
      rewrite !g_write_ne by exact Hw. cbn [g_skip fdata fpos]. pose proof (window_write start (Some s) (fdata ref) cur w Ho) as [E|E]; [|lia]. cbn [window] in E. rewrite E.
      split; [reflexivity|]. split; [split; [reflexivity|lia]|]. split; [split; reflexivity|]. split; [intros _; lia|]. apply (kept_write start (Some s)). exact Ho.
    + eexists. split; [reflexivity|]. cbn [t_ref t_start t_sz t_cur t_chk w_op g_op window snd].
      destruct a as [|b a]; [cbn [g_write length g_skip fdata fpos]; rewrite Nat.add_0_r; repeat split; auto; lia|]. remember (b :: a) as w eqn:Ew. assert (Hw : w <> []) by (subst; discriminate). assert (Lw : 0 < length w) by (subst; cbn; lia). clear b a Ew.
      rewrite !g_write_ne by exact Hw. cbn [g_skip fdata fpos]. pose proof (window_write start None (fdata ref) cur w I) as [E|E]; [|lia]. cbn [window] in E. rewrite E.
      split; [reflexivity|]. split; [split; [reflexivity|rewrite ow_len; lia]|]. split; [split; reflexivity|]. split; [intros _; lia|]. apply (kept_write start None). exact I.
  - (* skip *)
    unfold t_skip, t_move. cbn [t_ref t_start t_sz t_cur t_chk]. rewrite andb_true_r, orb_false_r. destruct (Nat.eqb_spec cur p) as [Q|Q].
    + subst p. exists (mk_t ref start lim cur true). cbn [t_ref t_start t_sz t_cur t_chk]. destruct lim as [s|]; cbn [w_op g_op fst snd]; [replace (s <? cur) with false by lia|]; cbn [fst snd g_skip fdata]; repeat split; auto; lia.
    + destruct lim as [s|]; cbn [w_op g_op]; [destruct (Nat.ltb_spec s p)|]; eexists; (split; [reflexivity|]); cbn [fst snd t_ref t_start t_sz t_cur t_chk g_skip fdata fpos]; repeat split; auto; lia.
  - (* eof *)
    unfold t_skip_eof, t_move, t_set_back. cbn [t_ref t_start t_sz t_cur t_chk]. destruct lim as [s|].
    + eexists. split; [reflexivity|]. cbn [w_op snd t_ref t_start t_sz t_cur t_chk g_skip fdata fpos]. repeat split; auto; lia.
    + cbn [g_skip_eof fpos]. replace (length (fdata ref) <? start) with false by lia. cbn [bind]. eexists. split; [reflexivity|]. cbn [w_op g_op snd t_ref t_start t_sz t_cur t_chk g_skip fdata fpos t_move]. unfold g_skip_eof. cbn [window fdata fpos]. rewrite skipn_length. repeat split; auto; lia.
  - (* relative *)
    unfold t_skip_relative, t_move. cbn [t_ref t_start t_sz t_cur t_chk]. rewrite orb_false_r. cbn [w_op fpos]. destruct Ho as [Ho1 Ho2]. destruct (Z.ltb_spec x 0) as [Q|Q].
    + specialize (Hs (Ho1 Q)). destruct (Z.ltb_spec (Z.of_nat cur) (- x)) as [L|L].
      * replace (Z.of_nat cur + x <? 0)%Z with true by lia. eexists. split; [reflexivity|]. cbn [snd t_ref t_start t_sz t_cur t_chk g_skip fdata fpos]. repeat split; auto; try lia; destruct lim; lia.
      * replace (Z.of_nat cur + x <? 0)%Z with false by lia. unfold g_skip_relative. rewrite Hs. replace (Z.of_nat (start + cur) + x <? 0)%Z with false by lia. cbn [fst].
        destruct lim as [s|]; [replace (Z.of_nat s <? Z.of_nat cur + x)%Z with false by lia|]; eexists; (split; [reflexivity|]); cbn [snd t_ref t_start t_sz t_cur t_chk g_skip fdata fpos]; repeat split; auto; lia.
    + replace (Z.of_nat cur + x <? 0)%Z with false by lia. destruct (Z.ltb_spec 0 x) as [R|R].
      * specialize (Ho2 R). assert (G : g_skip_relative x ref = (true, mk_file (fdata ref) (Z.to_nat (Z.of_nat (fpos ref) + x)))) by (unfold g_skip_relative; replace (Z.of_nat (fpos ref) + x <? 0)%Z with false by lia; reflexivity). rewrite G.
        destruct lim as [s|].
        -- destruct (Z.leb_spec (Z.of_nat s) (Z.of_nat cur + x)) as [L|L].
           ++ replace (Z.of_nat s <? Z.of_nat cur + x)%Z with true by lia. eexists. split; [reflexivity|]. cbn [snd t_ref t_start t_sz t_cur t_chk g_skip fdata fpos]. repeat split; auto; lia.
           ++ replace (Z.of_nat s <? Z.of_nat cur + x)%Z with false by lia. eexists. split; [reflexivity|]. cbn [snd t_ref t_start t_sz t_cur t_chk g_skip fdata fpos]. repeat split; auto; try lia; intro U; specialize (Hs U); lia.
        -- eexists. split; [reflexivity|]. cbn [snd t_ref t_start t_sz t_cur t_chk g_skip fdata fpos]. repeat split; auto; try lia; intro U; specialize (Hs U); lia.
      * assert (x = 0%Z) as -> by lia. rewrite Z.add_0_r, Nat2Z.id. exists (mk_t ref start lim cur true). destruct lim as [s|]; [replace (Z.of_nat s <? Z.of_nat cur)%Z with false by lia|]; (split; [reflexivity|]); cbn [snd t_ref t_start t_sz t_cur t_chk g_skip fdata fpos]; repeat split; auto; lia.
  - exists (mk_t ref start lim cur true). cbn [t_ref t_start t_sz t_cur t_chk]. rewrite orb_false_r. destruct lim; cbn [w_op g_op fst snd]; repeat split; auto; lia.
Qed.
Lemma t_run_spec : forall M ops t used, 0 < M -> t_inv t -> (used = true -> synced t) -> client_ok (t_sz t) used ops (tview t) ->
  exists t', t_run M ops t = Ok (fst (w_run (t_sz t) ops (tview t)), t') /\ tview t' = snd (w_run (t_sz t) ops (tview t)) /\ t_inv t' /\ t_same t t' /\ kept (t_start t) (t_sz t) (fdata (t_ref t)) (fdata (t_ref t')).
Proof.
  intros M. induction ops as [|o r IH]; intros t used HM Hi Hs Hok; cbn [t_run w_run].
  - exists t. split; [reflexivity|]. split; [reflexivity|]. split; [exact Hi|]. split; [split; reflexivity|apply kept_refl].
  - destruct Hok as [H1 H2]. destruct (t_op_spec M o t used HM Hi Hs) as (t1 & -> & V1 & I1 & (S1 & S2) & Y1 & K1). { destruct o; exact H1. }
    cbn [bind]. rewrite <- V1, <- S2 in H2. destruct (IH t1 _ HM I1 Y1 H2) as (t2 & -> & V2 & I2 & (T1 & T2) & K2). cbn [bind]. rewrite S2, V1 in *. destruct (w_op (t_sz t) o (tview t)) as [a f1]. cbn [fst snd] in *. destruct (w_run (t_sz t) r f1) as [l f2].
    exists t2. split; [reflexivity|]. split; [exact V2|]. split; [exact I2|]. split; [split; congruence|]. eapply kept_trans; [exact K1|]. rewrite <- S1. exact K2.
Qed.

(** C27. A window [start, start + s) (or from start to the end) over any file: whatever the client reads, writes and skips it gets the answers of a file
    holding the bytes of the window (a new window of known size is positioned at its end), those bytes evolve the same way and no byte out of the window changes. *)
Theorem C27_window : forall M f start lim ops, 0 < M -> (lim = None -> start <= length (fdata f)) ->
  let w := mk_file (window start lim (fdata f)) (match lim with Some s => s | None => 0 end) in
  client_ok lim false ops w ->
  exists t', t_run M ops (t_new f start lim) = Ok (fst (w_run lim ops w), t') /\ window start lim (fdata (t_ref t')) = fdata (snd (w_run lim ops w)) /\ kept start lim (fdata f) (fdata (t_ref t')).
Proof.
  intros M f start lim ops HM Hl w Hok. destruct (t_run_spec M ops (t_new f start lim) false HM) as (t' & E & V & _ & (S1 & S2) & K).
  - split; [reflexivity|]. unfold t_new. cbn. destruct lim; [lia|auto].
  - discriminate.
  - exact Hok.
  - exists t'. split; [exact E|]. split; [|exact K]. apply (f_equal fdata) in V. cbn [tview fdata] in V. rewrite S1, S2 in V. exact V.
Qed.
(** a window which lies inside the file is the very slice of the file, and the file keeps its size *)
Theorem C27_slice : forall start s D, start + s <= length D -> length (window start (Some s) D) = s /\ (forall i, i < s -> nth i (window start (Some s) D) 0%N = nth (start + i) D 0%N) /\ (forall D', kept start (Some s) D D' -> length D' = length D).
Proof.
  intros start s D H. cbn [window]. split; [rewrite firstn_length, skipn_length; lia|]. split; [intros i Hi; rewrite nth_firstn0, nth_skipn0; replace (i <? s) with true by lia; reflexivity|]. intros D' (_ & A & B). lia.
Qed.
(** writing more than what remains fails, and what was written is the part which fits *)
Theorem C27_overflow : forall M t a s, 0 < M -> t_chk t = true -> t_sz t = Some s -> t_cur t <= s -> s < t_cur t + length a ->
  let t' := snd (t_write M a t) in
  fst (t_write M a t) = Some Erange /\ t_cur t' = t_cur t /\ kept (t_start t) (Some s) (fdata (t_ref t)) (fdata (t_ref t')) /\
  (t_cur t < s -> window (t_start t) (Some s) (fdata (t_ref t')) = overwrite (window (t_start t) (Some s) (fdata (t_ref t))) (t_cur t) (firstn (s - t_cur t) a)).
Proof.
  intros M t a s HM Hc Es H1 H2. unfold t_write. rewrite Es. replace (s <? t_cur t) with false by lia. rewrite write_loop_spec by lia. rewrite Nat.add_0_r. replace (length a <=? s - t_cur t) with false by lia.
  cbn [fst snd t_move t_cur t_ref]. unfold t_at. rewrite Hc. split; [reflexivity|]. split; [reflexivity|]. set (w := firstn (s - t_cur t) a). assert (Lw : length w = s - t_cur t) by (unfold w; rewrite firstn_length; lia).
  destruct (Nat.eq_dec (t_cur t) s) as [E|E].
  - assert (w = []) as -> by (apply length_zero_iff_nil; lia). cbn [g_write g_skip fdata]. split; [apply kept_refl|lia].
  - rewrite g_write_ne by (intro Z; rewrite Z in Lw; cbn in Lw; lia). cbn [g_skip fdata fpos]. split; [apply (kept_write (t_start t) (Some s)); lia|]. intros _. destruct (window_write (t_start t) (Some s) (fdata (t_ref t)) (t_cur t) w) as [Q|Q]; [lia|exact Q|lia].
Qed.
(** moving the window keeps the position on the same byte of the file, when that byte is in the new window *)
Theorem C27_modify : forall t start lim, let abs := t_start t + t_cur t in let t' := t_modify start lim t in
  fdata (t_ref t') = fdata (t_ref t) /\ t_start t' = start /\ t_sz t' = lim /\
  (start <= abs -> match lim with Some s => abs <= start + s | None => True end -> t_start t' + t_cur t' = abs) /\ (abs < start -> t_cur t' = 0) /\ (forall s, lim = Some s -> t_cur t' <= s).
Proof.
  intros t start lim abs t'. unfold t', t_modify. cbn [t_ref t_start t_sz t_cur]. split; [reflexivity|]. split; [reflexivity|]. split; [reflexivity|]. unfold abs. destruct (Nat.leb_spec (t_cur t + t_start t) start).
  - split; [|split]; [intros; destruct lim as [s|]; [destruct (Nat.ltb_spec s 0)|]; lia|intros; destruct lim as [s|]; [destruct (Nat.ltb_spec s 0)|]; lia|]. intros s ->. destruct (Nat.ltb_spec s 0); lia.
  - split; [|split]; [intros A B; destruct lim as [s|]; [destruct (Nat.ltb_spec s (t_cur t + t_start t - start))|]; lia|lia|]. intros s ->. destruct (Nat.ltb_spec s (t_cur t + t_start t - start)); lia.
Qed.

Definition c27_ops : list gop := [GSkip 1; GRead 3; GWrite [100%N; 101%N]; GRel (-4); GRead 9; GPos; GSkip 12; GEof; GRel (-20); GWrite [200%N]; GRel 3; GRead 1].
Theorem C27_instance : let f := mk_file [1; 2; 3; 4; 5; 6; 7; 8; 9; 10; 11; 12]%N 0 in let w := mk_file [3; 4; 5; 6; 7; 8; 9]%N 7 in
  window 2 (Some 7) (fdata f) = fdata w /\ client_ok (Some 7) false c27_ops w /\
  fst (w_run (Some 7) c27_ops w) = [OBool true; OData [4; 5; 6]%N; OUnit; OBool true; OData [5; 6; 100; 101; 9]%N; OPos 7; OBool false; OBool true; OBool false; OUnit; OBool true; OData [100%N]] /\
  fdata (snd (w_run (Some 7) c27_ops w)) = [200; 4; 5; 6; 100; 101; 9]%N.
Proof. cbn zeta. split; [vm_compute; reflexivity|]. split; [vm_compute; repeat split; try discriminate; lia|]. split; vm_compute; reflexivity. Qed.

(** ** where it is not so *)
(** a relative skip to the end of the window goes there and reports a failure, while the same absolute skip succeeds *)
Theorem C27_relative_end_refuted : exists f t, t_run 100 [GSkip 2; GRel 3; GPos; GSkip 1; GSkip 5] (t_new f 0 (Some 5)) = Ok ([OBool true; OBool false; OPos 5; OBool true; OBool true], t).
Proof. exists (mk_file [1; 2; 3; 4; 5; 6]%N 0). eexists. vm_compute. reflexivity. Qed.
(** the first relative skip moves from where the file below happens to be: it fails although the position is well inside the window *)
Theorem C27_relative_first_refuted : exists f t, t_run 100 [GPos; GRel (-2); GPos] (t_new f 1 (Some 5)) = Ok ([OPos 5; OBool false; OPos 5], t).
Proof. exists (mk_file [1; 2; 3; 4; 5; 6]%N 0). eexists. vm_compute. reflexivity. Qed.
(** truncating the window cuts the file below, and what follows the window is lost *)
Theorem C27_truncate_refuted : exists f t t', t_run 100 [GSkip 0; GRead 3] (t_new f 1 (Some 4)) = Ok ([OBool true; OData [2; 3; 4]%N], t) /\ t_truncate 3 t = Ok t' /\ fdata (t_ref t') = [1; 2; 3; 4]%N /\ fdata f = [1; 2; 3; 4; 5; 6; 7]%N.
Proof. exists (mk_file [1; 2; 3; 4; 5; 6; 7]%N 0). eexists. eexists. split; [vm_compute; reflexivity|]. split; [vm_compute; reflexivity|]. split; reflexivity. Qed.
(** truncating a new window reports an internal bug *)
Theorem C27_truncate_new_refuted : exists f, t_truncate 3 (t_new f 1 (Some 4)) = Err Ebug.
Proof. exists (mk_file [1; 2; 3; 4; 5; 6; 7]%N 0). vm_compute. reflexivity. Qed.
