(** * Proofs about the cache: writing, skipping. *)
From Verif Require Import Base FileModel ClientSpec CacheModel CacheProof.
Open Scope nat_scope.

(** pending data starts at the latest at the current position *)
Definition pend (c : cache) : Prop := need_flush c = true -> c_ftw c <= c_next c.
Definition good (c : cache) : Prop := inv c /\ pend c.
Definition set_eof (e : nat) (c : cache) : cache := mk_c (c_ref c) (c_buf c) (c_next c) (c_ftw c) (c_off c) e (c_shift c) (c_size c) (c_ro c).

Lemma inv_good : forall c, inv c -> good c.
Proof. intros c H. split; [exact H|]. destruct H as (_ & _ & H3 & H4 & _). unfold pend, need_flush. intro Q. apply Nat.ltb_lt in Q. lia. Qed.
Lemma ext0 : forall a b : list N, length a = length b -> (forall i, nth i a 0%N = nth i b 0%N) -> a = b.
Proof. intros a b H1 H2. apply list_ext; auto. Qed.
Lemma ow_app : forall D p a b, overwrite (overwrite D p a) (p + length a) b = overwrite D p (a ++ b).
Proof.
  intros. apply ext0; [rewrite !ow_len, app_length; lia|]. intro i. rewrite !ow_nth, app_length, nth_app0.
  destruct (Nat.leb_spec p i); destruct (Nat.leb_spec (p + length a) i); destruct (Nat.ltb_spec i (p + length a + length b)); destruct (Nat.ltb_spec i (p + length a)); destruct (Nat.ltb_spec i (p + (length a + length b))); destruct (Nat.ltb_spec (i - p) (length a)); cbn [andb]; try lia; try reflexivity; f_equal; lia.
Qed.

(** the end of file kept aside plays no role in writing *)
Lemma shift_or_clear_eof : forall e c, shift_or_clear (set_eof e c) = bind (shift_or_clear c) (fun c' => Ok (set_eof e c')).
Proof.
  intros e c. unfold shift_or_clear, shift_by_half, clear_buffer, set_eof, need_flush, c_last, c_half. cbn [c_ref c_buf c_next c_ftw c_off c_eof c_shift c_size c_ro].
  destruct (c_shift c) eqn:E; [destruct (_ <=? _); [cbn [bind]; rewrite E; reflexivity|]; destruct (_ <? _); reflexivity|destruct (_ <? _); reflexivity].
Qed.
Lemma flush_eof : forall e c, flush_if_needed (set_eof e c) = bind (flush_if_needed c) (fun c' => Ok (set_eof e c')).
Proof.
  intros e c. unfold flush_if_needed. change (need_flush (set_eof e c)) with (need_flush c). destruct (need_flush c) eqn:E; [|reflexivity].
  unfold flush_write. change (c_ro (set_eof e c)) with (c_ro c). destruct (c_ro c); [reflexivity|]. change (need_flush (set_eof e c)) with (need_flush c).
  rewrite <- shift_or_clear_eof. reflexivity.
Qed.
Lemma write_loop_eof : forall e fuel a c, write_loop fuel a (set_eof e c) = bind (write_loop fuel a c) (fun c' => Ok (set_eof e c')).
Proof.
  intro e. induction fuel as [|k IH]; intros a c; [reflexivity|]. cbn [write_loop]. destruct a as [|x a]; [reflexivity|].
  change (c_size (set_eof e c) - c_next (set_eof e c)) with (c_size c - c_next c).
  assert (F : (if c_size c - c_next c =? 0 then flush_if_needed (set_eof e c) else Ok (set_eof e c)) = bind (if c_size c - c_next c =? 0 then flush_if_needed c else Ok c) (fun c' => Ok (set_eof e c'))).
  { destruct (_ =? 0); [apply flush_eof|reflexivity]. }
  rewrite F. destruct (if c_size c - c_next c =? 0 then flush_if_needed c else Ok c) as [c1|]; [|reflexivity]. cbn [bind].
  change (need_flush (set_eof e c1)) with (need_flush c1). cbn [set_eof c_size c_next]. destruct (_ && _); [reflexivity|]. rewrite <- IH. reflexivity.
Qed.

(** one portion of data set in the buffer *)
Definition put (w : list N) (c : cache) : cache :=
  mk_c (c_ref c) (firstn (c_next c) (c_buf c) ++ w ++ skipn (c_next c + length w) (c_buf c)) (c_next c + length w) (if c_last c <=? c_ftw c then c_next c else c_ftw c) (c_off c) (c_eof c) (c_shift c) (c_size c) (c_ro c).
Lemma put_buf : forall w c, c_next c <= c_last c -> c_buf (put w c) = overwrite (c_buf c) (c_next c) w.
Proof. intros w c H. unfold overwrite. unfold c_last in H. replace (c_next c - length (c_buf c)) with 0 by lia. reflexivity. Qed.
Lemma put_spec : forall w c, good c -> c_eof c = 0 -> c_ro c = false -> w <> [] -> c_next c + length w <= c_size c ->
  good (put w c) /\ content (put w c) = overwrite (content c) (c_pos c) w /\ c_pos (put w c) = c_pos c + length w /\ same c (put w c) /\ need_flush (put w c) = true.
Proof.
  intros w c [H P] He Hr Hw Hs. pose proof H as (H1 & H2 & H3 & H4 & H5 & H6 & H7 & H8 & H9).
  assert (Lw : 0 < length w) by (destruct w; [contradiction|cbn; lia]).
  assert (Ll : c_last (put w c) = Nat.max (c_last c) (c_next c + length w)) by (unfold c_last at 1; rewrite put_buf by exact H2; apply ow_len).
  assert (Nf : need_flush (put w c) = true). { unfold need_flush in *. rewrite Ll. cbn [put c_ftw]. destruct (Nat.leb_spec (c_last c) (c_ftw c)); lia. }
  assert (C : content (put w c) = overwrite (content c) (c_pos c) w).
  { unfold content at 1. rewrite Nf. cbn [put c_ref c_off]. rewrite <- (put_buf w c H2) || idtac. unfold content. unfold need_flush in *. destruct (Nat.ltb_spec (c_ftw c) (c_last c)) as [Q|Q].
    - clear P. assert (P : c_ftw c <= c_next c) by lia. replace (c_ftw (put w c)) with (c_ftw c) by (cbn [put c_ftw]; destruct (Nat.leb_spec (c_last c) (c_ftw c)); lia). fold (put w c). change (firstn (c_next c) (c_buf c) ++ w ++ skipn (c_next c + length w) (c_buf c)) with (c_buf (put w c)). rewrite put_buf by exact H2. unfold c_pos.
      apply ext0.
      + rewrite !ow_len, !skipn_length, ow_len. fold (c_last c). lia.
      + intro i. rewrite !ow_nth, !skipn_length, !nth_skipn0, ow_nth, ow_len. fold (c_last c).
        destruct (Nat.leb_spec (c_off c + c_ftw c) i); destruct (Nat.leb_spec (c_off c + c_next c) i); destruct (Nat.ltb_spec i (c_off c + c_next c + length w)); destruct (Nat.ltb_spec i (c_off c + c_ftw c + (c_last c - c_ftw c)));
        destruct (Nat.ltb_spec i (c_off c + c_ftw c + (Nat.max (c_last c) (c_next c + length w) - c_ftw c))); destruct (Nat.leb_spec (c_next c) (c_ftw c + (i - (c_off c + c_ftw c)))); destruct (Nat.ltb_spec (c_ftw c + (i - (c_off c + c_ftw c))) (c_next c + length w)); cbn [andb]; try lia; try reflexivity; f_equal; lia.
    - replace (c_ftw (put w c)) with (c_next c) by (cbn [put c_ftw]; destruct (Nat.leb_spec (c_last c) (c_ftw c)); lia). change (firstn (c_next c) (c_buf c) ++ w ++ skipn (c_next c + length w) (c_buf c)) with (c_buf (put w c)). rewrite put_buf by exact H2. unfold c_pos.
      assert (V : content c = fdata (c_ref c)) by (apply clean_content; unfold need_flush; lia). rewrite V in *.
      apply ext0.
      + rewrite !ow_len, !skipn_length, ow_len. fold (c_last c). lia.
      + intro i. rewrite !ow_nth, !skipn_length, !nth_skipn0, ow_nth, ow_len. fold (c_last c).
        destruct (Nat.leb_spec (c_off c + c_next c) i); cbn [andb]; [|reflexivity]. destruct (Nat.ltb_spec i (c_off c + c_next c + length w)).
        * destruct (Nat.ltb_spec i (c_off c + c_next c + (Nat.max (c_last c) (c_next c + length w) - c_next c))); [|lia]. destruct (Nat.leb_spec (c_next c) (c_next c + (i - (c_off c + c_next c)))); [|lia]. destruct (Nat.ltb_spec (c_next c + (i - (c_off c + c_next c))) (c_next c + length w)); [|lia]. cbn [andb]. f_equal. lia.
        * destruct (Nat.ltb_spec i (c_off c + c_next c + (Nat.max (c_last c) (c_next c + length w) - c_next c))); [|reflexivity]. destruct (Nat.ltb_spec (c_next c + (i - (c_off c + c_next c))) (c_next c + length w)); [lia|]. rewrite andb_false_r. rewrite <- H7 by lia. f_equal. lia. }
  split; [|split; [exact C|]; split; [unfold c_pos; cbn [put c_off c_next]; lia|]; split; [repeat split|exact Nf]].
  split; [|intros _; unfold need_flush in *; cbn [put c_ftw c_next]; destruct (Nat.leb_spec (c_last c) (c_ftw c)) as [Q|Q]; lia].
  unfold inv. rewrite Ll, C, ow_len. change (c_size (put w c)) with (c_size c). change (c_next (put w c)) with (c_next c + length w). change (c_ro (put w c)) with (c_ro c). change (c_off (put w c)) with (c_off c). change (c_eof (put w c)) with (c_eof c).
  split; [lia|]. split; [lia|]. split; [lia|]. split; [right; unfold need_flush in Nf; rewrite Ll in Nf; cbn [put c_ftw] in Nf |- *; destruct (Nat.leb_spec (c_last c) (c_ftw c)); lia|]. split; [auto|]. split; [right; unfold c_pos; lia|]. split; [|split; [rewrite Nf; discriminate|lia]].
  intros i Hi. rewrite put_buf by exact H2. rewrite !ow_nth. unfold c_pos. destruct (Nat.leb_spec (c_off c + c_next c) (c_off c + i)); destruct (Nat.leb_spec (c_next c) i); try lia; cbn [andb].
  - destruct (Nat.ltb_spec (c_off c + i) (c_off c + c_next c + length w)); destruct (Nat.ltb_spec i (c_next c + length w)); try lia; [f_equal; lia|]. apply H7. lia.
  - apply H7. lia.
Qed.

Lemma good_clean : forall c, inv c -> need_flush c = false -> good c.
Proof. intros c H E. split; [exact H|]. unfold pend. rewrite E. discriminate. Qed.
Lemma write_loop_spec : forall fuel a c, good c -> c_eof c = 0 -> c_ro c = false -> length a < fuel ->
  exists c', write_loop fuel a c = Ok c' /\ good c' /\ c_eof c' = 0 /\ content c' = match a with [] => content c | _ => overwrite (content c) (c_pos c) a end /\ c_pos c' = c_pos c + length a /\ same c c'.
Proof.
  induction fuel as [|k IH]; intros a c H He Hr Hf; [lia|]. cbn [write_loop]. destruct a as [|x0 a0].
  { exists c. repeat (split; auto). }
  remember (x0 :: a0) as a eqn:Ea. assert (La : 0 < length a) by (subst; cbn; lia). clear x0 a0 Ea.
  assert (F : exists c1, (if c_size c - c_next c =? 0 then flush_if_needed c else Ok c) = Ok c1 /\ good c1 /\ c_eof c1 = 0 /\ content c1 = content c /\ c_pos c1 = c_pos c /\ same c c1 /\ (need_flush c1 = true -> c_next c1 < c_size c1)).
  { destruct (Nat.eqb_spec (c_size c - c_next c) 0) as [Q|Q].
    - destruct H as [H P]. pose proof H as (H1 & H2 & H3 & _). destruct (flush_spec c H) as (c1 & E & I1 & F1 & V1 & E1 & S1 & Z1 & _ & _). assert (Hn : c_next c = c_last c) by lia. destruct (Z1 Hn) as [P1 N1].
      exists c1. split; [exact E|]. split; [apply good_clean; assumption|]. split; [congruence|]. split; [exact V1|]. split; [exact P1|]. split; [exact S1|]. rewrite F1. discriminate.
    - exists c. split; [reflexivity|]. split; [exact H|]. split; [exact He|]. repeat (split; [reflexivity|]). split; [repeat split|lia]. }
  destruct F as (c1 & -> & G1 & E1 & V1 & P1 & (S1 & S2 & S3) & Z1). cbn [bind]. rewrite Hr in S3.
  destruct ((c_size c1 - c_next c1 <? length a) && negb (need_flush c1)) eqn:B.
  - apply andb_true_iff in B as [B1 B2]. apply Nat.ltb_lt in B1. apply negb_true_iff in B2. eexists. split; [reflexivity|]. set (c2 := mk_c _ _ _ _ _ _ _ _ _). destruct G1 as [I1 _]. pose proof (clean_ftw c1 I1 B2) as Hf1. pose proof I1 as (A1 & A2 & A3 & A4 & A5 & A6 & A7 & A8 & A9).
    assert (Hc2 : need_flush c2 = false) by (apply clean_intro; unfold c_last; cbn; lia).
    assert (Eg : g_write a (g_skip (c_off c1 + c_next c1) (c_ref c1)) = mk_file (overwrite (content c) (c_pos c) a) (c_pos c + length a)).
    { unfold g_write. destruct a as [|x y]; [cbn in La; lia|]. cbn [g_skip fdata fpos]. rewrite <- P1, <- V1, clean_content by exact B2. reflexivity. }
    assert (V2 : content c2 = overwrite (content c) (c_pos c) a) by (rewrite clean_content by exact Hc2; cbn [c2 c_ref]; rewrite Eg; reflexivity).
    split.
    + apply good_clean; [|exact Hc2]. unfold inv. rewrite Hc2, V2. unfold c2, c_last. cbn [c_size c_next c_ftw c_ro c_off c_ref c_eof c_buf length]. rewrite Eg. cbn [fpos]. unfold c_pos in *. repeat split; auto; try lia; discriminate.
    + split; [exact E1|]. split; [rewrite V2; destruct a; [cbn in La; lia|reflexivity]|]. split; [unfold c_pos in *; cbn [c2 c_off c_next]; lia|]. repeat split; cbn; congruence.
  - set (m := Nat.min (length a) (c_size c1 - c_next c1)). assert (Hm : 0 < m). { apply andb_false_iff in B as [B|B]; [apply Nat.ltb_ge in B; lia|]. apply negb_false_iff in B. specialize (Z1 B). lia. }
    assert (Lm : length (firstn m a) = m) by (rewrite firstn_length; lia).
    pose proof G1 as [I1 _]. pose proof I1 as (A1 & A2 & A3 & _).
    destruct (put_spec (firstn m a) c1 G1 E1 ltac:(congruence)) as (G2 & V2 & P2 & (T1 & T2 & T3) & F2). { intro Z. rewrite Z in Lm. cbn in Lm. lia. } { lia. }
    replace (mk_c (c_ref c1) (firstn (c_next c1) (c_buf c1) ++ firstn m a ++ skipn (c_next c1 + m) (c_buf c1)) (c_next c1 + m) (if c_last c1 <=? c_ftw c1 then c_next c1 else c_ftw c1) (c_off c1) (c_eof c1) (c_shift c1) (c_size c1) (c_ro c1)) with (put (firstn m a) c1) by (unfold put; rewrite Lm; reflexivity).
    destruct (IH (skipn m a) (put (firstn m a) c1) G2) as (c' & E & G' & E' & V' & P' & (U1 & U2 & U3)); [exact E1|congruence|rewrite skipn_length; lia|].
    exists c'. split; [exact E|]. split; [exact G'|]. split; [exact E'|]. rewrite V1, P1 in V2. split; [|split].
    + rewrite V'. destruct a as [|x y] eqn:Ea; [cbn in La; lia|]. rewrite <- Ea in *. destruct (skipn m a) as [|u v] eqn:Es.
      * rewrite V2. f_equal. rewrite <- (firstn_skipn m a) at 2. rewrite Es, app_nil_r. reflexivity.
      * rewrite <- Es, V2. rewrite P2, P1, ow_app, firstn_skipn. reflexivity.
    + rewrite P', P2, P1, skipn_length, Lm. lia.
    + repeat split; congruence.
Qed.
Lemma c_write_spec : forall a c, good c -> c_ro c = false ->
  exists c', c_write a c = Ok c' /\ good c' /\ view c' = g_write a (view c) /\ same c c'.
Proof.
  intros a c [H P] Hr. unfold c_write. destruct a as [|x y].
  { cbn [length write_loop bind]. exists c. split; [reflexivity|]. split; [split; assumption|]. split; [reflexivity|repeat split]. }
  remember (x :: y) as a eqn:Ea.
  assert (G0 : good (set_eof 0 c)). { split; [|exact P]. destruct H as (H1 & H2 & H3 & H4 & H5 & H6 & H7 & H8 & H9). repeat (split; [assumption|]). intro Q. cbn in Q. congruence. }
  destruct (write_loop_spec (S (length a)) a (set_eof 0 c) G0 eq_refl Hr ltac:(lia)) as (c1 & E & G1 & E1 & V1 & P1 & S1). rewrite write_loop_eof in E.
  destruct (write_loop (S (length a)) a c) as [c2|]; [|discriminate]. cbn [bind] in E |- *. injection E as <-. exists (set_eof 0 c2). split; [reflexivity|]. split; [exact G1|].
  split; [|exact S1]. unfold view. rewrite V1, P1, Ea. reflexivity.
Qed.

Lemma c_read_spec : forall n c, good c -> exists c', c_read n c = Ok (fst (g_read n (view c)), c') /\ good c' /\ view c' = snd (g_read n (view c)) /\ same c c'.
Proof.
  intros n c [H P]. destruct (read_loop_spec (S (S n)) n [] c H ltac:(cbn; lia) ltac:(cbn; lia)) as (c' & E & I' & V' & P' & S'). cbn [length app] in E, P'. rewrite Nat.sub_0_r in *.
  exists c'. split; [exact E|]. split; [apply inv_good; exact I'|]. split; [unfold view; rewrite V', P'; reflexivity|exact S'].
Qed.

(** ** skipping *)
Lemma c_skip_spec : forall p c, good c -> exists c', c_skip p c = Ok (true, c') /\ good c' /\ view c' = g_skip p (view c) /\ same c c' /\ (need_flush c = false -> need_flush c' = false /\ c_eof c' = c_eof c).
Proof.
  intros p c [H P]. unfold c_skip. destruct (Nat.leb_spec (c_off c) p) as [Q1|Q1]; cbn [andb].
  destruct (Nat.leb_spec p (c_off c + c_last c)) as [Q2|Q2].
  { eexists. split; [reflexivity|]. set (n := p - c_off c). set (c' := mk_c _ _ _ _ _ _ _ _ _). pose proof H as (H1 & H2 & H3 & H4 & H5 & H6 & H7 & H8 & H9).
    assert (V : content c' = content c /\ need_flush c' = need_flush c).
    { unfold content, need_flush. change (c_last c') with (c_last c). change (c_ref c') with (c_ref c). change (c_off c') with (c_off c). change (c_buf c') with (c_buf c). change (c_ftw c') with (if (n <? c_ftw c) && negb (c_ftw c =? c_size c) then n else c_ftw c).
      destruct (Nat.ltb_spec n (c_ftw c)); cbn [andb]; [|auto]. destruct (Nat.eqb_spec (c_ftw c) (c_size c)); cbn [negb]; [auto|]. destruct (Nat.ltb_spec (c_ftw c) (c_last c)); [|lia]. replace (n <? c_last c) with true by lia. split; [|reflexivity].
      assert (En : need_flush c = true) by (unfold need_flush; lia). assert (Cv : content c = overwrite (fdata (c_ref c)) (c_off c + c_ftw c) (skipn (c_ftw c) (c_buf c))) by (unfold content; rewrite En; reflexivity).
      apply ext0.
      - destruct H6 as [H6|H6]; [lia|]. rewrite Cv in H6. rewrite !ow_len, !skipn_length in *. fold (c_last c) in *. lia.
      - intro i. rewrite !ow_nth, !skipn_length, !nth_skipn0. fold (c_last c). destruct (Nat.leb_spec (c_off c + n) i); destruct (Nat.leb_spec (c_off c + c_ftw c) i); destruct (Nat.ltb_spec i (c_off c + c_ftw c + (c_last c - c_ftw c))); destruct (Nat.ltb_spec i (c_off c + n + (c_last c - n))); cbn [andb]; try lia; try reflexivity; try (f_equal; lia).
        specialize (H7 (n + (i - (c_off c + n))) ltac:(lia)). rewrite <- H7, Cv, ow_nth. destruct (Nat.leb_spec (c_off c + c_ftw c) (c_off c + (n + (i - (c_off c + n))))); [lia|]. cbn [andb]. f_equal. lia. }
    destruct V as [V F]. split; [split|].
    - unfold inv. rewrite V, F. change (c_last c') with (c_last c). unfold c'. cbn [c_size c_next c_ftw c_ro c_off c_ref c_eof c_buf]. split; [lia|]. split; [lia|]. split; [lia|].
      split; [destruct (Nat.ltb_spec n (c_ftw c)); cbn [andb]; [destruct (Nat.eqb_spec (c_ftw c) (c_size c)); cbn [negb]; lia|lia]|]. repeat split; auto.
    - unfold pend. rewrite F. intro Q. specialize (P Q). cbn [c' c_ftw c_next]. unfold need_flush in Q. destruct (Nat.ltb_spec n (c_ftw c)); cbn [andb]; [|lia]. destruct (Nat.eqb_spec (c_ftw c) (c_size c)); cbn [negb]; lia.
    - split; [unfold view; rewrite V; unfold g_skip, c_pos; cbn [c' c_off c_next fdata]; f_equal; lia|]. split; [repeat split|]. rewrite F. auto. }
  all: destruct (flush_spec c H) as (c1 & -> & I1 & F1 & V1 & E1 & (S1 & S2 & S3) & _ & Z1 & _); cbn [bind]; eexists; split; [reflexivity|]; set (c' := mk_c _ _ _ _ _ _ _ _ _);
    pose proof (clean_ftw c1 I1 F1) as Hf1; assert (Hc' : need_flush c' = false) by (apply clean_intro; unfold c_last; cbn; lia); assert (V' : content c' = content c) by (rewrite clean_content by exact Hc'; cbn [c' c_ref g_skip fdata]; rewrite <- V1; symmetry; apply clean_content; exact F1);
    destruct I1 as (A1 & A2 & A3 & A4 & A5 & A6 & A7 & A8 & A9);
    (split; [apply good_clean; [|exact Hc']; unfold inv; rewrite Hc', V'; unfold c', c_last; cbn [c_size c_next c_ftw c_ro c_off c_ref c_eof c_buf length g_skip fpos]; rewrite <- V1; repeat split; auto; try lia; discriminate|]);
    (split; [unfold view; rewrite V'; unfold g_skip, c_pos; cbn [c' c_off c_next fdata]; f_equal; lia|]); (split; [repeat split; assumption|]); intros _; split; [exact Hc'|exact E1].
Qed.
Lemma c_skip_eof_spec : forall c, good c -> c_pos c <= length (content c) -> exists c', c_skip_eof c = Ok (true, c') /\ good c' /\ view c' = g_skip_eof (view c) /\ same c c'.
Proof.
  intros c [H P] Hp. unfold c_skip_eof. destruct (flush_spec c H) as (c1 & -> & I1 & F1 & V1 & E1 & (S1 & S2 & S3) & _ & Z1 & Z2). cbn [bind].
  assert (B1 : c_last c1 = 0 -> c_off c1 <= length (content c)).
  { intro Q. destruct (need_flush c) eqn:En.
    - destruct (Z2 eq_refl) as (_ & N1 & P1). unfold c_pos in P1. destruct H as (_ & _ & _ & _ & _ & [H6|H6] & _); [unfold need_flush in En; lia|lia].
    - rewrite (Z1 eq_refl) in Q |- *. destruct H as (_ & H2 & _). unfold c_pos in Hp. lia. }
  assert (B2 : c_off c1 + c_last c1 <= length (content c)). { destruct I1 as (_ & _ & _ & _ & _ & [H6|H6] & _); [specialize (B1 H6); lia|congruence || (rewrite <- V1; exact H6)]. }
  pose proof (clean_ftw c1 I1 F1) as Hf1. assert (D1 : fdata (c_ref c1) = content c) by (rewrite <- V1; symmetry; apply clean_content; exact F1).
  (* the end of file is now known and the state is clean *)
  assert (X : exists c2, (if c_eof c1 =? 0 then let ref := g_skip_eof (c_ref c1) in Ok (true, mk_c ref (c_buf c1) (c_next c1) (c_ftw c1) (c_off c1) (fpos ref) (c_shift c1) (c_size c1) (c_ro c1)) else c_skip (c_eof c1) c1) = Ok (true, c2) /\
    same c c2 /\ fdata (c_ref c2) = content c /\ c_eof c2 = length (content c) /\ c_ftw c2 = c_size c2 /\ 10 <= c_size c2 /\ c_last c2 <= c_size c2 /\ c_off c2 + c_last c2 <= length (content c) /\ (forall i, i < c_last c2 -> nth (c_off c2 + i) (content c) 0%N = nth i (c_buf c2) 0%N) /\
    c_next c2 <= c_last c2 /\ (fpos (c_ref c2) = length (content c) \/ fpos (c_ref c2) = c_off c2 + c_last c2) /\ (c_off c2 + c_last c2 < length (content c) -> fpos (c_ref c2) = length (content c))).
  { pose proof I1 as (A1 & A2 & A3 & A4 & A5 & A6 & A7 & A8 & A9). specialize (A8 F1). rewrite V1 in *. destruct (Nat.eqb_spec (c_eof c1) 0) as [Q|Q].
    - eexists. split; [reflexivity|]. cbn [g_skip_eof fpos fdata c_ref c_eof c_ftw c_size c_off c_buf c_next]. unfold c_last at 1 2 3 4. cbn [c_buf]. fold (c_last c1). rewrite D1. repeat split; auto.
    - destruct (c_skip_spec (c_eof c1) c1 (good_clean c1 I1 F1)) as (c2 & E & [I2 _] & V2 & (T1 & T2 & T3) & Z). destruct (Z F1) as [F2 E2]. exists c2. split; [exact E|]. specialize (A9 Q).
      assert (C2 : content c2 = content c) by (apply (f_equal fdata) in V2; cbn in V2; congruence). assert (P2 : c_pos c2 = length (content c)) by (apply (f_equal fpos) in V2; cbn in V2; congruence). pose proof (clean_ftw c2 I2 F2) as Hf2. pose proof I2 as (D1' & D2 & D3 & D4 & D5 & D6 & D7 & D8 & D9). specialize (D8 F2). rewrite C2 in *. unfold c_pos in P2.
      split; [repeat split; congruence|]. split; [rewrite <- C2; symmetry; apply clean_content; exact F2|]. split; [congruence|]. split; [congruence|]. split; [lia|]. split; [lia|]. split; [lia|]. split; [exact D7|]. split; [exact D2|]. split; [right; exact D8|]. lia. }
  destruct X as (c2 & Ex & (T1 & T2 & T3) & D2 & E2 & Hf2 & Q1 & Q2 & Q3 & Q4 & Q5 & Q6 & Q7). cbv zeta in Ex. cbv zeta. rewrite Ex. cbn [bind]. rewrite E2.
  assert (F2 : need_flush c2 = false) by (apply clean_intro; assumption).
  destruct (Nat.ltb_spec (c_off c2 + c_last c2) (length (content c))) as [L|L].
  - unfold clear_buffer. rewrite F2. cbn [bind c_ref c_buf c_next c_ftw c_off c_eof c_shift c_size c_ro]. eexists. split; [reflexivity|]. set (c' := mk_c _ _ _ _ _ _ _ _ _).
    assert (Hc' : need_flush c' = false) by (apply clean_intro; unfold c_last; cbn; lia). assert (V' : content c' = content c) by (rewrite clean_content by exact Hc'; exact D2).
    split; [apply good_clean; [|exact Hc']; unfold inv; rewrite Hc', V'; unfold c', c_last; cbn [c_size c_next c_ftw c_ro c_off c_ref c_eof c_buf length]; specialize (Q7 L); repeat split; auto; try lia; discriminate|].
    split; [unfold view, g_skip_eof, c_pos; rewrite V'; cbn [c' c_off c_next fdata]; f_equal; lia|repeat split; assumption].
  - replace (length (content c) <? c_off c2 + c_last c2) with false by lia. eexists. split; [reflexivity|]. set (c' := mk_c _ _ _ _ _ _ _ _ _).
    assert (Hc' : need_flush c' = false) by (apply clean_intro; unfold c_last; cbn; auto). assert (V' : content c' = content c) by (rewrite clean_content by exact Hc'; exact D2).
    split; [apply good_clean; [|exact Hc']; unfold inv; rewrite Hc', V'; change (c_last c') with (c_last c2); unfold c'; cbn [c_size c_next c_ftw c_ro c_off c_ref c_eof c_buf length]; repeat split; auto; try lia; discriminate|].
    split; [unfold view, g_skip_eof, c_pos; rewrite V'; cbn [c' c_off c_next fdata]; f_equal; lia|repeat split; assumption].
Qed.
