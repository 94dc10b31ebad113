(** * Proofs about the cache. *)
From Verif Require Import Base FileModel ClientSpec CacheModel.
Open Scope nat_scope.

(** ** overwriting, byte by byte *)
Lemma ow_len : forall D p w, length (overwrite D p w) = Nat.max (length D) (p + length w).
Proof. intros. unfold overwrite. rewrite !app_length, repeat_length, firstn_length, skipn_length. lia. Qed.
Lemma nth_firstn0 : forall (l : list N) n i, nth i (firstn n l) 0%N = if i <? n then nth i l 0%N else 0%N.
Proof. induction l as [|x l IH]; intros [|n] [|i]; cbn [firstn nth]; try reflexivity; [destruct (_ <? _); reflexivity|]. rewrite IH. reflexivity. Qed.
Lemma nth_skipn0 : forall (l : list N) n i, nth i (skipn n l) 0%N = nth (n + i) l 0%N.
Proof. induction l as [|x l IH]; intros [|n] i; cbn [skipn nth Nat.add]; try reflexivity; [destruct i; reflexivity|apply IH]. Qed.
Lemma nth_repeat0 : forall n i, nth i (repeat 0%N n) 0%N = 0%N.
Proof. induction n as [|n IH]; intros [|i]; cbn [repeat nth]; auto. Qed.
Lemma nth_app0 : forall (a b : list N) i, nth i (a ++ b) 0%N = if i <? length a then nth i a 0%N else nth (i - length a) b 0%N.
Proof. intros a b i. destruct (Nat.ltb_spec i (length a)); [apply app_nth1; lia|apply app_nth2; lia]. Qed.
Lemma nth_out : forall (l : list N) i, length l <= i -> nth i l 0%N = 0%N.
Proof. intros. apply nth_overflow. assumption. Qed.
Lemma ow_nth : forall D p w i, nth i (overwrite D p w) 0%N = if (p <=? i) && (i <? p + length w) then nth (i - p) w 0%N else nth i D 0%N.
Proof.
  intros D p w i. unfold overwrite. rewrite !nth_app0, repeat_length, firstn_length, nth_firstn0, nth_repeat0, nth_skipn0.
  destruct (Nat.ltb_spec i (Nat.min p (length D))).
  { destruct (Nat.ltb_spec i p); [|lia]. replace (p <=? i) with false by lia. reflexivity. }
  destruct (Nat.ltb_spec (i - Nat.min p (length D)) (p - length D)).
  { replace (p <=? i) with false by lia. cbn [andb]. rewrite nth_out by lia. reflexivity. }
  destruct (Nat.leb_spec p i); cbn [andb].
  2:{ exfalso; lia. }
  replace (i - Nat.min p (length D) - (p - length D)) with (i - p) by lia.
  destruct (Nat.ltb_spec (i - p) (length w)); destruct (Nat.ltb_spec i (p + length w)); try (exfalso; lia); try reflexivity. f_equal. lia.
Qed.
Lemma list_ext : forall a b : list N, length a = length b -> (forall i, i < length a -> nth i a 0%N = nth i b 0%N) -> a = b.
Proof. intros a b H1 H2. apply (nth_ext _ _ 0%N 0%N H1 H2). Qed.

(** ** what the client sees *)
Definition content (c : cache) : list N :=
  if need_flush c then overwrite (fdata (c_ref c)) (c_off c + c_ftw c) (skipn (c_ftw c) (c_buf c)) else fdata (c_ref c).
Definition view (c : cache) : gfile := mk_file (content c) (c_pos c).
Definition inv (c : cache) : Prop :=
  10 <= c_size c /\ c_next c <= c_last c /\ c_last c <= c_size c /\ (c_ftw c = c_size c \/ (c_ftw c < c_last c /\ c_ftw c <= c_next c)) /\ (need_flush c = true -> c_ro c = false) /\
  (c_last c = 0 \/ c_off c + c_last c <= length (content c)) /\ (forall i, i < c_last c -> nth (c_off c + i) (content c) 0%N = nth i (c_buf c) 0%N) /\
  (need_flush c = false -> fpos (c_ref c) = c_off c + c_last c) /\ (c_eof c <> 0 -> c_eof c = length (content c)).
(** the parameters which never change *)
Definition same (c c' : cache) : Prop := c_size c' = c_size c /\ c_shift c' = c_shift c /\ c_ro c' = c_ro c.
Lemma clean_ftw : forall c, inv c -> need_flush c = false -> c_ftw c = c_size c.
Proof. intros c (_ & _ & _ & H & _) E. unfold need_flush in E. apply Nat.ltb_ge in E. lia. Qed.
Lemma clean_content : forall c, need_flush c = false -> content c = fdata (c_ref c).
Proof. intros c H. unfold content. rewrite H. reflexivity. Qed.
Lemma clean_intro : forall c, c_ftw c = c_size c -> c_last c <= c_size c -> need_flush c = false.
Proof. intros c H1 H2. unfold need_flush. lia. Qed.

Lemma shift_or_clear_spec : forall c, inv c -> need_flush c = false -> c_next c = c_last c ->
  exists c', shift_or_clear c = Ok c' /\ inv c' /\ need_flush c' = false /\ c_ref c' = c_ref c /\ c_pos c' = c_pos c /\ c_eof c' = c_eof c /\ c_next c' = c_last c' /\ c_last c' < c_size c /\ same c c' /\ (c_last c = 0 -> c_last c' = 0).
Proof.
  intros c H Hc Hn. pose proof (clean_ftw c H Hc) as Hf. pose proof (clean_content c Hc) as Hv. destruct H as (H1 & H2 & H3 & _ & H5 & H6 & H7 & H8 & H9). specialize (H8 Hc). rewrite Hv in *.
  assert (Hh : c_half c < c_size c) by (unfold c_half; lia). unfold shift_or_clear. destruct (c_shift c) eqn:Es.
  - unfold shift_by_half. destruct (Nat.leb_spec (c_last c) (c_half c)) as [L|L].
    + exists c. split; [reflexivity|]. split; [unfold inv; rewrite Hv; repeat (split; auto)|]. repeat (split; [auto; lia|]). split; [repeat split; auto|auto].
    + set (s := Nat.min (c_last c - c_half c) (c_next c)). replace (c_ftw c <? s) with false by lia. replace (c_ftw c <? c_size c) with false by lia. eexists. split; [reflexivity|].
      set (c' := mk_c _ _ _ _ _ _ _ _ _). assert (Ll : c_last c' = c_half c) by (unfold c_last, c'; cbn [c_buf]; rewrite skipn_length; fold (c_last c); unfold s; lia).
      assert (Hc' : need_flush c' = false) by (apply clean_intro; cbn [c' c_ftw c_size]; lia). assert (Hv' : content c' = fdata (c_ref c)) by (rewrite clean_content by exact Hc'; reflexivity).
      split; [|repeat split; auto; unfold c_pos, c'; cbn [c_off c_next c_buf]; try lia; fold c'; lia].
      unfold inv. rewrite Hv', Ll, Hc'. unfold c'. cbn [c_size c_next c_last c_ftw c_ro c_off c_ref c_eof c_buf]. repeat split; auto; try lia; try discriminate.
      intros i Hi. rewrite nth_skipn0, <- H7 by lia. f_equal. lia.
  - unfold clear_buffer. rewrite Hc. eexists. split; [reflexivity|]. set (c' := mk_c _ _ _ _ _ _ _ _ _). assert (Hc' : need_flush c' = false) by (apply clean_intro; cbn; lia).
    assert (Hv' : content c' = fdata (c_ref c)) by (rewrite clean_content by exact Hc'; reflexivity). split; [|unfold c_pos, c_last; cbn; repeat split; auto; lia].
    unfold inv. rewrite Hv', Hc'. unfold c', c_last. cbn [c_size c_next c_ftw c_ro c_off c_ref c_eof c_buf length]. fold (c_last c). repeat split; auto; try lia; try discriminate.
Qed.

Lemma flush_spec : forall c, inv c -> exists c', flush_if_needed c = Ok c' /\ inv c' /\ need_flush c' = false /\ content c' = content c /\ c_eof c' = c_eof c /\ same c c' /\
  (c_next c = c_last c -> c_pos c' = c_pos c /\ c_next c' = c_last c') /\ (need_flush c = false -> c' = c) /\ (need_flush c = true -> c_last c' < c_size c /\ c_next c' = c_last c' /\ c_pos c' = c_off c + c_last c).
Proof.
  intros c H. unfold flush_if_needed. destruct (need_flush c) eqn:En.
  2:{ exists c. split; [reflexivity|]. split; [exact H|]. split; [exact En|]. split; [reflexivity|]. split; [reflexivity|]. split; [repeat split|]. split; [auto|]. split; [auto|discriminate]. }
  pose proof H as (H1 & H2 & H3 & H4 & H5 & H6 & H7 & H8 & H9). pose proof (H5 En) as Hro. unfold flush_write. rewrite Hro, En.
  set (ref := g_write _ _). set (c1 := mk_c _ _ _ _ _ _ _ _ _). unfold need_flush in En. apply Nat.ltb_lt in En.
  assert (Er : ref = mk_file (content c) (c_off c + c_last c)).
  { subst ref. unfold content, need_flush. replace (c_ftw c <? c_last c) with true by lia. unfold g_write. destruct (skipn (c_ftw c) (c_buf c)) as [|x y] eqn:Eb.
    - apply (f_equal (@length N)) in Eb. rewrite skipn_length in Eb. unfold c_last in En. cbn in Eb. lia.
    - rewrite <- Eb. cbn [g_skip fdata fpos]. f_equal. rewrite skipn_length. fold (c_last c). lia. }
  assert (Hc1 : need_flush c1 = false) by (apply clean_intro; cbn [c1 c_ftw c_size]; unfold c_last; cbn; fold (c_last c); lia).
  assert (Hv1 : content c1 = content c) by (rewrite clean_content by exact Hc1; cbn [c1 c_ref]; rewrite Er; reflexivity).
  assert (I1 : inv c1).
  { unfold inv. rewrite Hv1, Hc1. unfold c1. unfold c_last. cbn [c_size c_next c_ftw c_ro c_off c_ref c_eof c_buf]. fold (c_last c). rewrite Er. cbn [fpos]. repeat split; auto; try lia; discriminate. }
  destruct (shift_or_clear_spec c1 I1 Hc1 eq_refl) as (c' & E & I' & Hc' & R' & P' & Ee & N' & L' & (S1 & S2 & S3) & _).
  change (c_ro c1) with false in S3. rewrite E. exists c'. split; [reflexivity|]. split; [exact I'|]. split; [exact Hc'|]. split; [rewrite clean_content, R' by exact Hc'; cbn [c1 c_ref]; rewrite Er; reflexivity|].
  split; [exact Ee|]. split; [repeat split; auto; congruence|]. unfold c_pos in P'. cbn [c1 c_off c_next] in P'. split; [intro Q; split; [unfold c_pos; lia|exact N']|]. split; [discriminate|]. intros _. split; [exact L'|]. split; [exact N'|]. unfold c_pos. lia.
Qed.
Lemma g_read_at : forall n f, fst (g_read n f) = firstn n (skipn (fpos f) (fdata f)).
Proof. reflexivity. Qed.
Lemma nth_slice : forall (l : list N) p n i, i < length (firstn n (skipn p l)) -> nth i (firstn n (skipn p l)) 0%N = nth (p + i) l 0%N.
Proof. intros l p n i H. rewrite firstn_length, skipn_length in H. rewrite nth_firstn0, nth_skipn0. replace (i <? n) with true by lia. reflexivity. Qed.
Lemma fulfill_spec : forall c, inv c -> need_flush c = false -> c_next c = c_last c -> (c_eof c = 0 \/ c_off c + c_last c < c_eof c) ->
  exists c', fulfill_read c = Ok c' /\ inv c' /\ need_flush c' = false /\ content c' = content c /\ c_pos c' = c_pos c /\ c_eof c' = c_eof c /\ same c c' /\ (c_next c' = c_last c' -> skipn (c_pos c) (content c) = []).
Proof.
  intros c H Hc Hn He. unfold fulfill_read. destruct (shift_or_clear_spec c H Hc Hn) as (c1 & -> & I1 & Hc1 & R1 & P1 & E1 & N1 & L1 & (S1 & S2 & S3) & Z1). cbn [bind]. rewrite E1, N1, Nat.eqb_refl, andb_true_r.
  assert (Hv : content c1 = content c) by (rewrite !clean_content by assumption; rewrite R1; reflexivity).
  pose proof I1 as (A1 & A2 & A3 & A4 & A5 & A6 & A7 & A8 & A9). specialize (A8 Hc1). pose proof (clean_ftw _ I1 Hc1) as Hf. rewrite clean_content in A6, A7, A9 by exact Hc1. rewrite R1 in *. pose proof (clean_content c Hc) as Hv0.
  destruct (negb (c_eof c =? 0) && (c_eof c <? c_off c1 + c_last c1 + c_size c1) && (c_last c =? 0)) eqn:B.
  - apply andb_true_iff in B as [B B3]. apply andb_true_iff in B as [B1 B2]. apply negb_true_iff, Nat.eqb_neq in B1. apply Nat.ltb_lt in B2. apply Nat.eqb_eq in B3. specialize (Z1 B3). rewrite Z1 in *. rewrite E1 in A9. specialize (A9 B1).
    assert (Ep : c_off c1 = c_off c) by (unfold c_pos in P1; lia). destruct He as [He|He]; [tauto|]. assert (Eb1 : c_buf c1 = []) by (apply length_zero_iff_nil; exact Z1).
    set (o := if c_size c1 <? c_eof c then c_eof c - c_size c1 else 0). set (n := c_off c1 - o).
    assert (Eo : (if c_size c1 <? c_eof c then (c_off c1 + c_size c1 - c_eof c, c_eof c - c_size c1, g_skip (c_eof c - c_size c1) (c_ref c)) else (c_off c1, 0, g_skip 0 (c_ref c))) = (n, o, g_skip o (c_ref c))).
    { subst n o. destruct (Nat.ltb_spec (c_size c1) (c_eof c)); do 2 f_equal; lia. }
    rewrite Eo. assert (Ho : o <= c_off c1 < c_eof c /\ c_eof c <= o + c_size c1) by (subst o; destruct (Nat.ltb_spec (c_size c1) (c_eof c)); lia). clearbody o. subst n. clear Eo.
    unfold g_read. cbn [g_skip fpos fdata]. eexists. split; [reflexivity|]. set (c' := mk_c _ _ _ _ _ _ _ _ _).
    assert (Ll : c_last c' = c_eof c - o). { unfold c_last, c'. cbn [c_buf]. rewrite Eb1. cbn [app]. rewrite firstn_length, skipn_length. lia. }
    assert (Hc' : need_flush c' = false) by (apply clean_intro; cbn [c' c_ftw c_size]; lia). assert (Hv' : content c' = fdata (c_ref c)) by (rewrite clean_content by exact Hc'; reflexivity).
    split; [|split; [exact Hc'|]; split; [congruence|]; split; [unfold c_pos in *; cbn [c' c_off c_next]; lia|]; split; [cbn [c' c_eof]; congruence|]; split; [repeat split; assumption|]; rewrite Ll; cbn [c' c_next]; lia].
    unfold inv. rewrite Hv', Hc', Ll. unfold c'. cbn [c_size c_next c_ftw c_ro c_off c_ref c_eof c_buf fpos]. rewrite Eb1. cbn [app]. split; [lia|]. split; [lia|]. split; [lia|]. split; [lia|]. split; [discriminate|]. split; [lia|]. split; [|split; [|lia]].
    + intros i Hi. rewrite nth_slice; [reflexivity|]. rewrite firstn_length, skipn_length. lia.
    + intros _. rewrite firstn_length, skipn_length. lia.
  - unfold g_read. cbn [g_skip fpos fdata]. eexists. split; [reflexivity|]. set (d := firstn (c_size c1 - c_last c1) (skipn (c_off c1 + c_last c1) (fdata (c_ref c)))). set (c' := mk_c _ _ _ _ _ _ _ _ _).
    assert (Ll : c_last c' = c_last c1 + length d) by (unfold c_last, c'; cbn [c_buf]; rewrite app_length; reflexivity). assert (Ld : length d = Nat.min (c_size c1 - c_last c1) (length (fdata (c_ref c)) - (c_off c1 + c_last c1))) by (unfold d; rewrite firstn_length, skipn_length; reflexivity).
    assert (Hc' : need_flush c' = false) by (apply clean_intro; cbn [c' c_ftw c_size]; lia). assert (Hv' : content c' = fdata (c_ref c)) by (rewrite clean_content by exact Hc'; reflexivity).
    split.
    + unfold inv. rewrite Hv', Hc', Ll. unfold c'. cbn [c_size c_next c_ftw c_ro c_off c_ref c_eof c_buf fpos]. split; [lia|]. split; [lia|]. split; [lia|]. split; [lia|]. split; [discriminate|]. split; [lia|]. split; [|split; [lia|]].
      * intros i Hi. rewrite nth_app0. fold (c_last c1). destruct (Nat.ltb_spec i (c_last c1)) as [Q|Q]; [apply A7; exact Q|]. unfold d. rewrite nth_slice by (fold d; lia). f_equal. lia.
      * rewrite E1 in A9. exact A9.
    + repeat split; auto; try congruence; try (unfold c_pos in *; cbn [c' c_off c_next]; lia). intro Q. cbn [c' c_next] in Q. rewrite Ll in Q. apply skipn_all2. rewrite Hv0. unfold c_pos in *. lia.
Qed.

Lemma firstn_add : forall (l : list N) a b, firstn (a + b) l = firstn a l ++ firstn b (skipn a l).
Proof. induction l as [|x l IH]; intros [|a] b; cbn [Nat.add firstn skipn app]; try reflexivity; [rewrite firstn_nil; reflexivity|]. f_equal. apply IH. Qed.
(** ** reading *)
Lemma read_loop_spec : forall fuel n got c, inv c -> length got <= n -> n - length got < fuel ->
  let want := firstn (n - length got) (skipn (c_pos c) (content c)) in
  exists c', read_loop fuel n got c = Ok (got ++ want, c') /\ inv c' /\ content c' = content c /\ c_pos c' = c_pos c + length want /\ same c c'.
Proof.
  induction fuel as [|k IH]; intros n got c H Hg Hf want; [lia|]. cbn [read_loop].
  (* the copy out of the buffer and the following turns *)
  assert (Copy : forall c1, inv c1 -> content c1 = content c -> c_pos c1 = c_pos c -> same c c1 -> c_next c1 < c_last c1 -> length got < n ->
    exists c', (let* '(got, c) :=
      if negb false && (length got <? n) then
        let min := Nat.min (c_last c1 - c_next c1) (n - length got) in
        if 0 <? min then Ok (got ++ firstn min (skipn (c_next c1) (c_buf c1)), mk_c (c_ref c1) (c_buf c1) (c_next c1 + min) (c_ftw c1) (c_off c1) (c_eof c1) (c_shift c1) (c_size c1) (c_ro c1))
        else Err Ebug
      else Ok (got, c1) in
      if (length got <? n) && negb false then read_loop k n got c else Ok (got, c)) = Ok (got ++ want, c') /\ inv c' /\ content c' = content c /\ c_pos c' = c_pos c + length want /\ same c c').
  { intros c1 I1 V1 P1 (S1 & S2 & S3) L1 Lg. replace (length got <? n) with true by lia. cbn [negb andb]. set (m := Nat.min (c_last c1 - c_next c1) (n - length got)). replace (0 <? m) with true by lia. cbn [bind].
    set (c2 := mk_c _ _ _ _ _ _ _ _ _). set (d := firstn m (skipn (c_next c1) (c_buf c1))).
    pose proof I1 as (A1 & A2 & A3 & A4 & A5 & A6 & A7 & A8 & A9).
    assert (I2 : inv c2). { unfold inv. change (content c2) with (content c1). change (need_flush c2) with (need_flush c1). unfold c2, c_last. cbn [c_size c_next c_ftw c_ro c_off c_ref c_eof c_buf]. fold (c_last c1). repeat split; auto; lia. }
    assert (Ed : d = firstn m (skipn (c_pos c) (content c))).
    { rewrite <- P1, <- V1. unfold d, c_pos. apply list_ext; rewrite !firstn_length, !skipn_length; fold (c_last c1); [lia|]. intros i Hi. rewrite !nth_slice by (rewrite firstn_length, skipn_length; fold (c_last c1); lia). rewrite <- A7 by lia. f_equal. lia. }
    assert (Ld : length d = m) by (unfold d; rewrite firstn_length, skipn_length; fold (c_last c1); lia).
    assert (W : want = d ++ firstn (n - length (got ++ d)) (skipn (c_pos c2) (content c2))).
    { unfold want. rewrite app_length, Ld. replace (n - length got) with (m + (n - (length got + m))) by lia. rewrite firstn_add, <- Ed. f_equal. change (content c2) with (content c1). rewrite V1. f_equal. rewrite skipn_skipn. f_equal. unfold c_pos in *. cbn [c2 c_off c_next]. lia. }
    destruct (Nat.ltb_spec (length (got ++ d)) n) as [Q|Q]; cbn [andb].
    - destruct (IH n (got ++ d) c2 I2) as (c' & E & I' & V' & P' & (T1 & T2 & T3)).
      { lia. }
      { rewrite app_length, Ld. lia. }
      rewrite E. exists c'. rewrite <- app_assoc, <- W. split; [reflexivity|]. split; [exact I'|]. change (content c2) with (content c1) in V'. split; [congruence|]. split.
      + rewrite P', W. set (X := firstn _ _). clearbody X. rewrite (app_length d X), Ld. clear - P1. unfold c_pos in *. cbn [c2 c_off c_next]. lia.
      + cbn [c2 c_size c_shift c_ro] in T1, T2, T3. repeat split; congruence.
    - exists c2. rewrite app_length in Q. assert (W2 : want = d) by (rewrite W, app_length; replace (n - (length got + length d)) with 0 by lia; cbn; apply app_nil_r). rewrite W2. split; [reflexivity|]. split; [exact I2|].
      change (content c2) with (content c1). split; [exact V1|]. split; [clear W W2; unfold c_pos in *; cbn [c2 c_off c_next]; lia|repeat split; assumption]. }
  destruct (Nat.leb_spec (c_last c) (c_next c)) as [L|L].
  - pose proof H as (B1 & B2 & B3 & _). assert (Hn : c_next c = c_last c) by lia.
    destruct (flush_spec c H) as (c1 & -> & I1 & Hc1 & V1 & E1 & (S1 & S2 & S3) & F1 & _ & _). destruct (F1 Hn) as [P1 N1]. cbn [bind].
    destruct (Nat.ltb_spec (n - length got) (c_size c1)) as [Q|Q].
    + assert (Done : forall c2, inv c2 -> content c2 = content c -> c_pos c2 = c_pos c -> same c c2 -> (c_next c2 = c_last c2 -> skipn (c_pos c) (content c) = []) ->
        exists c', (let* '(got, eof, c) := Ok (got, c_last c2 <=? c_next c2, c2) in let* '(got, c) :=
          if negb eof && (length got <? n) then
            let min := Nat.min (c_last c - c_next c) (n - length got) in
            if 0 <? min then Ok (got ++ firstn min (skipn (c_next c) (c_buf c)), mk_c (c_ref c) (c_buf c) (c_next c + min) (c_ftw c) (c_off c) (c_eof c) (c_shift c) (c_size c) (c_ro c)) else Err Ebug
          else Ok (got, c) in
          if (length got <? n) && negb eof then read_loop k n got c else Ok (got, c)) = Ok (got ++ want, c') /\ inv c' /\ content c' = content c /\ c_pos c' = c_pos c + length want /\ same c c').
      { intros c2 I2 V2 P2 S' Hend. cbn [bind]. pose proof I2 as (_ & N2 & _). destruct (Nat.leb_spec (c_last c2) (c_next c2)) as [Z|Z].
        - cbn [negb andb bind]. rewrite andb_false_r. assert (want = []) as -> by (unfold want; rewrite (Hend ltac:(lia)), firstn_nil; reflexivity). rewrite app_nil_r. exists c2. repeat (split; auto). cbn. lia.
        - destruct (Nat.ltb_spec (length got) n) as [Y|Y].
          + destruct (Copy c2 I2 V2 P2 S' Z Y) as (c' & E & R). exists c'. split; [|exact R]. rewrite <- E. replace (length got <? n) with true by lia. reflexivity.
          + cbn [negb andb bind]. assert (want = []) as -> by (unfold want; replace (n - length got) with 0 by lia; reflexivity). replace (length got <? n) with false by lia. cbn [bind andb]. replace (length got <? n) with false by lia. rewrite app_nil_r. exists c2. repeat (split; auto). cbn. lia. }
      destruct ((c_eof c1 =? 0) || (c_off c1 + c_last c1 <? c_eof c1)) eqn:Z.
      * destruct (fulfill_spec c1 I1 Hc1 N1) as (c2 & -> & I2 & Hc2 & V2 & P2 & _ & (T1 & T2 & T3) & End).
        { apply orb_true_iff in Z as [Z|Z]; [left; apply Nat.eqb_eq; exact Z|right; apply Nat.ltb_lt; exact Z]. }
        cbn [bind]. apply Done; auto; try congruence; [repeat split; congruence|]. rewrite <- P1, <- V1. exact End.
      * cbn [bind]. apply orb_false_iff in Z as [Z1 Z2]. apply Nat.eqb_neq in Z1. apply Nat.ltb_ge in Z2. apply Done; auto; [repeat split; auto|]. intros _. apply skipn_all2. rewrite <- V1. destruct I1 as (_ & _ & _ & _ & _ & _ & _ & _ & X). rewrite <- (X Z1). rewrite <- P1. unfold c_pos. lia.
    + (* directly from below *)
      pose proof I1 as (A1 & A2 & A3 & A4 & A5 & A6 & A7 & A8 & A9). specialize (A8 Hc1). pose proof (clean_ftw _ I1 Hc1) as Hf1. unfold g_read. rewrite A8. cbn [fpos fdata].
      set (d := firstn (n - length got) (skipn (c_off c1 + c_last c1) (fdata (c_ref c1)))).
      assert (Ed : d = want). { unfold want, d. rewrite <- V1, <- P1, clean_content by exact Hc1. unfold c_pos. rewrite N1. reflexivity. }
      unfold clear_buffer. set (cc := mk_c _ _ _ _ _ _ _ _ _). change (need_flush cc) with (need_flush c1). rewrite Hc1. cbn [bind c_ref c_buf c_next c_ftw c_off c_eof c_shift c_size c_ro cc fpos].
      assert (Ld : length d = Nat.min (n - length got) (length (fdata (c_ref c1)) - (c_off c1 + c_last c1))) by (unfold d; rewrite firstn_length, skipn_length; reflexivity).
      set (c2 := mk_c _ [] 0 _ _ _ _ _ _). assert (Hc2 : need_flush c2 = false) by (apply clean_intro; unfold c_last; cbn; lia). assert (V2 : content c2 = content c) by (rewrite clean_content by exact Hc2; cbn [c2 c_ref fdata]; rewrite <- V1; symmetry; apply clean_content; exact Hc1).
      assert (I2 : inv c2).
      { unfold inv. rewrite Hc2, V2. unfold c2, c_last. cbn [c_size c_next c_ftw c_ro c_off c_ref c_eof c_buf fpos length]. rewrite <- V1. repeat split; auto; try lia; discriminate. }
      assert (P2 : c_pos c2 = c_pos c + length d) by (unfold c_pos in *; cbn [c2 c_off c_next]; lia).
      assert (Fin : exists c', Ok (got ++ d, c2) = Ok (got ++ want, c') /\ inv c' /\ content c' = content c /\ c_pos c' = c_pos c + length want /\ same c c').
      { exists c2. rewrite Ed in *. split; [reflexivity|]. split; [exact I2|]. split; [exact V2|]. split; [exact P2|]. repeat split; assumption. }
      rewrite app_length. destruct (Nat.ltb_spec (length got + length d) n) as [Y|Y]; cbn [negb andb bind].
      * rewrite andb_false_r. exact Fin.
      * replace (length (got ++ d) <? n) with false by (rewrite app_length; lia). cbn [bind andb]. replace (length (got ++ d) <? n) with false by (rewrite app_length; lia). exact Fin.
  - cbn [bind]. destruct (Nat.ltb_spec (length got) n) as [Y|Y].
    + destruct (Copy c H eq_refl eq_refl ltac:(repeat split) L Y) as (c' & E & R). exists c'. split; [|exact R]. rewrite <- E. replace (length got <? n) with true by lia. reflexivity.
    + cbn [negb andb bind]. assert (want = []) as -> by (unfold want; replace (n - length got) with 0 by lia; reflexivity). replace (length got <? n) with false by lia. cbn [bind andb]. replace (length got <? n) with false by lia.
      rewrite app_nil_r. exists c. repeat (split; auto).
Qed.
