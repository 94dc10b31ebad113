(** * Property C33: copies and comparisons between files. *)
From Verif Require Import Base FileModel CrcModel CrcProof PropCrc CopyModel.
Open Scope nat_scope.

(** what is left to read *)
Definition left (s : src) : list N := skipn (fpos (s_file s)) (fdata (s_file s)).
(** appending [d] at the current position of the target *)
Fixpoint put (chunks : list (list N)) (t : gfile) : gfile := match chunks with [] => t | d :: r => put r (g_write d t) end.

Lemma s_read_spec : forall n s, 0 < n -> let '(d, s') := s_read n s in
  left s = d ++ left s' /\ length d <= n /\ (d = [] -> left s = []) /\ length (fdata (s_file s')) = length (fdata (s_file s)) /\ (s_sched s = [] -> s_sched s' = [] /\ d = firstn n (left s) /\ left s' = skipn n (left s)).
Proof.
  intros n s Hn. unfold s_read, g_read. set (k := match s_sched s with [] => n | x :: _ => Nat.min n (S x) end).
  assert (K : 0 < k <= n) by (subst k; destruct (s_sched s); lia). unfold left. cbn [s_file fdata fpos]. set (l := skipn (fpos (s_file s)) (fdata (s_file s))).
  assert (E : skipn (fpos (s_file s) + length (firstn k l)) (fdata (s_file s)) = skipn k l).
  { rewrite firstn_length. subst l. rewrite skipn_length, skipn_skipn. destruct (Nat.le_ge_cases k (length (fdata (s_file s)) - fpos (s_file s))); [f_equal; lia|]. rewrite !skipn_all2 by lia. reflexivity. }
  rewrite E. split; [symmetry; apply firstn_skipn|]. split; [rewrite firstn_length; lia|]. split; [destruct l; [reflexivity|destruct k; [lia|discriminate]]|]. split; [reflexivity|].
  intro Q. cbn [s_sched]. subst k. rewrite Q. auto.
Qed.
Lemma overwrite_app : forall D k u v, overwrite D k (u ++ v) = overwrite (overwrite D k u) (k + length u) v.
Proof.
  intros D k p v. unfold overwrite. assert (L1 : length (firstn k D ++ repeat 0%N (k - length D)) = k) by (rewrite app_length, repeat_length, firstn_length; lia).
  rewrite !(app_assoc (firstn k D)). set (H := firstn k D ++ repeat 0%N (k - length D)) in *.
  rewrite (app_assoc H p). rewrite firstn_app, firstn_all2 by (rewrite app_length; lia). rewrite !app_length, L1, skipn_length.
  replace (k + length p - (k + length p + (length D - (k + length p)))) with 0 by lia. replace (k + length p - (k + length p)) with 0 by lia. cbn [firstn repeat app]. rewrite app_nil_r.
  rewrite skipn_app, (skipn_all2 (H ++ p)) by (rewrite app_length; lia). rewrite app_length, L1. cbn [app]. rewrite skipn_skipn, <- !app_assoc. do 4 f_equal. lia.
Qed.
Lemma g_write_app : forall a b t, g_write (a ++ b) t = g_write b (g_write a t).
Proof.
  intros [|x a] b t; [reflexivity|]. destruct b as [|y b]; [rewrite app_nil_r; reflexivity|]. unfold g_write at 1. change ((x :: a) ++ y :: b) with (x :: (a ++ y :: b)). cbv match.
  change (x :: (a ++ y :: b)) with ((x :: a) ++ y :: b). rewrite overwrite_app, app_length. unfold g_write. cbn [fpos fdata]. f_equal. lia.
Qed.

(** ** Copying everything: whatever the lengths of the reads, the target receives exactly what was left to read, in order, and the CRC is the
    checksum of it. *)
Lemma copy_loop_spec : forall fuel bs addr s t c, 0 < bs -> length (left s) < fuel -> (match c with Some c => wf c | None => True end) ->
  exists s' chunks, copy_loop fuel bs addr s t c = (let* c' := match c with Some c => let* c := crc_feed (map (fun d => (addr, d)) chunks) c in Ok (Some c) | None => Ok None end in Ok (s', g_write (left s) t, c')) /\
    concat chunks = left s /\ left s' = [].
Proof.
  induction fuel as [|k IH]; intros bs addr s t c Hb Hf Hw; [lia|]. cbn [copy_loop]. pose proof (s_read_spec bs s Hb) as R. destruct (s_read bs s) as [d s1]. destruct R as (R1 & R2 & R3 & _).
  destruct d as [|x d].
  - rewrite (R3 eq_refl). exists s1, [[]]. cbn [concat app map]. split; [|split; [reflexivity|rewrite R1 in R3; cbn in R3; auto]]. destruct c as [c|]; [|reflexivity]. cbn [crc_feed]. destruct (crc_compute addr [] c); reflexivity.
  - rewrite R1 in Hf. rewrite app_length in Hf. cbn [length] in Hf. destruct c as [c|].
    + destruct (crc_compute addr (x :: d) c) as [c1|] eqn:Ec.
      2:{ exfalso. rewrite crc_compute_spec in Ec by exact Hw. destruct (t_loop _ _ _). discriminate. }
      cbn [bind]. assert (W1 : wf c1). { rewrite crc_compute_spec in Ec by exact Hw. destruct (t_loop (x :: d) (cyclic c) (pointer c)) as [cy p] eqn:T. injection Ec as <-. apply (t_loop_wf _ _ _ _ _ Hw T). }
      destruct (IH bs addr s1 (g_write (x :: d) t) (Some c1) Hb ltac:(lia) W1) as (s' & ch & E & Ech & El). exists s', ((x :: d) :: ch). rewrite E. split; [|split; [cbn [concat]; rewrite Ech; auto|exact El]].
      cbn [map crc_feed]. rewrite Ec. cbn [bind]. rewrite R1, g_write_app. reflexivity.
    + cbn [bind]. destruct (IH bs addr s1 (g_write (x :: d) t) None Hb ltac:(lia) I) as (s' & ch & E & Ech & El). exists s', ((x :: d) :: ch). rewrite E. cbn [bind]. rewrite R1, g_write_app. split; [reflexivity|]. split; [cbn [concat]; rewrite Ech; auto|exact El].
Qed.
Lemma left_le : forall s, length (left s) <= length (fdata (s_file s)).
Proof. intro s. unfold left. rewrite skipn_length. lia. Qed.
Theorem C33_copy_all : forall bs addr s t, 0 < bs -> exists s', copy_to bs addr s t = Ok (s', g_write (left s) t) /\ left s' = [].
Proof.
  intros bs addr s t Hb. pose proof (left_le s). destruct (copy_loop_spec (S (length (fdata (s_file s)))) bs addr s t None Hb ltac:(lia) I) as (s' & ch & E & _ & El).
  exists s'. unfold copy_to. rewrite E. auto.
Qed.
Print Assumptions C33_copy_all.
Theorem C33_copy_all_crc : forall bs addr width s t, 0 < bs -> width <> 0 ->
  exists s' c, copy_to_crc bs addr width s t = Ok (s', g_write (left s) t, c) /\ left s' = [] /\ cyclic c = checksum width (left s).
Proof.
  intros bs addr width s t Hb Hw. pose proof (left_le s). unfold copy_to_crc.
  destruct (crc_create width) as [c0|] eqn:Ec; [|unfold crc_create in Ec; destruct (Nat.eqb_spec width 0); [tauto|discriminate]]. cbn [bind].
  assert (W0 : wf c0). { unfold crc_create in Ec. destruct (Nat.eqb_spec width 0); [tauto|]. injection Ec as <-. unfold wf, crc_size. cbn. rewrite repeat_length. lia. }
  destruct (copy_loop_spec (S (length (fdata (s_file s)))) bs addr s t (Some c0) Hb ltac:(lia) W0) as (s' & ch & E & Ech & El). rewrite E.
  destruct (C07_checksum_independent_of_buffering width (map (fun d => (addr, d)) ch) Hw) as (c1 & c & E1 & E2 & E3). rewrite E1 in Ec. injection Ec as ->.
  rewrite E2. cbn [bind]. exists s', c. split; [reflexivity|]. split; [exact El|]. rewrite E3, map_map. cbn [snd]. rewrite map_id, Ech. reflexivity.
Qed.
Print Assumptions C33_copy_all_crc.

(** ** Copying an amount: below 2^31 bytes, exactly the amount asked, or what is left when there is less, is copied, and the number returned
    is the one copied. *)
Lemma firstn_left : forall n (d r : list N), length d <= n -> firstn n (d ++ r) = d ++ firstn (n - length d) r.
Proof. intros n d r H. rewrite firstn_app, firstn_all2 by lia. reflexivity. Qed.
Lemma copy32_loop_spec : forall fuel bs size wrote s t, 0 < bs -> (size < 2147483648)%N -> (wrote <= size)%N -> length (left s) < fuel ->
  exists s', copy32_loop fuel bs size wrote s t = Ok ((wrote + N.of_nat (length (firstn (N.to_nat (size - wrote)) (left s))))%N, s', g_write (firstn (N.to_nat (size - wrote)) (left s)) t) /\
    left s' = skipn (N.to_nat (size - wrote)) (left s) /\ length (fdata (s_file s')) = length (fdata (s_file s)).
Proof.
  induction fuel as [|k IH]; intros bs size wrote s t Hb Hs Hw Hf; [lia|]. cbn [copy32_loop]. destruct (N.ltb_spec wrote size) as [L|L].
  2:{ exists s. replace (N.to_nat (size - wrote)) with 0 by lia. cbn. rewrite N.add_0_r. auto. }
  rewrite to_S_I_small by lia. set (pas := if (Z.of_nat bs <? Z.of_N (size - wrote))%Z then Z.of_nat bs else Z.of_N (size - wrote)).
  assert (P : (0 < pas <= Z.of_N (size - wrote))%Z) by (subst pas; destruct (Z.ltb_spec (Z.of_nat bs) (Z.of_N (size - wrote))); lia). replace (pas <? 0)%Z with false by lia.
  pose proof (s_read_spec (Z.to_nat pas) s ltac:(lia)) as R. destruct (s_read (Z.to_nat pas) s) as [d s1]. destruct R as (R1 & R2 & R3 & R4 & _). destruct d as [|x d].
  - exists s1. rewrite (R3 eq_refl) in *. cbn in R1. rewrite <- R1, firstn_nil, skipn_nil. cbn. rewrite N.add_0_r. auto.
  - remember (x :: d) as dd. assert (Ld : 0 < length dd) by (subst; cbn; lia). rewrite R1 in Hf. rewrite app_length in Hf.
    destruct (IH bs size (wrote + N.of_nat (length dd))%N s1 (g_write dd t) Hb Hs ltac:(lia) ltac:(lia)) as (s' & E & E2 & E3). rewrite E. exists s'. rewrite R1, firstn_left, skipn_app, skipn_all2 by lia.
    replace (N.to_nat (size - (wrote + N.of_nat (length dd)))) with (N.to_nat (size - wrote) - length dd) in * by lia. rewrite g_write_app, app_length. cbn [app]. split; [f_equal; f_equal; f_equal; lia|]. split; [exact E2|congruence].
Qed.
Theorem C33_copy_amount32 : forall bs size s t, 0 < bs -> (size < 2147483648)%N ->
  exists s', copy32 bs size s t = Ok (N.of_nat (length (firstn (N.to_nat size) (left s))), s', g_write (firstn (N.to_nat size) (left s)) t) /\ left s' = skipn (N.to_nat size) (left s).
Proof.
  intros bs size s t Hb Hs. pose proof (left_le s). unfold copy32. destruct (copy32_loop_spec (S (length (fdata (s_file s)))) bs size 0 s t Hb Hs ltac:(lia) ltac:(lia)) as (s' & E & E2 & _).
  rewrite N.sub_0_r in *. exists s'. rewrite E. auto.
Qed.
Theorem C33_copy_amount : forall bs size s t, 0 < bs -> (size < 2147483648)%N ->
  exists s', copyN bs size s t = Ok (N.of_nat (length (firstn (N.to_nat size) (left s))), s', g_write (firstn (N.to_nat size) (left s)) t) /\ left s' = skipn (N.to_nat size) (left s).
Proof.
  intros bs size s t Hb Hs. pose proof (left_le s) as Hl. unfold copyN, unstack32. replace (N.min size (U32MAX - 0)) with size by (unfold U32MAX; lia). rewrite N.sub_diag. cbn [N.add].
  remember (S (length (fdata (s_file s)))) as k eqn:Ek. cbn [copyN_loop]. unfold copy32 at 1. rewrite <- Ek.
  destruct (copy32_loop_spec k bs size 0 s t Hb Hs ltac:(lia) ltac:(lia)) as (s' & E & E2 & E3). rewrite E. cbn [bind]. rewrite N.add_0_l, N.sub_0_r in *.
  set (got := firstn (N.to_nat size) (left s)) in *. destruct (N.eqb_spec (size - N.of_nat (length got)) 0) as [Z|Z].
  - unfold unstack32. cbn [N.min N.sub N.add]. rewrite Z. cbn. exists s'. auto.
  - replace (0 <? size - N.of_nat (length got))%N with true by lia. cbn [andb]. destruct (N.eqb_spec (N.of_nat (length got)) 0) as [Y|Y]; cbn [negb].
    + exists s'. auto.
    + (* a second turn, which copies nothing *)
      assert (El : left s' = []). { rewrite E2. apply skipn_all2. subst got. rewrite firstn_length in Z. lia. }
      subst k. cbn [copyN_loop]. unfold copy32. rewrite E3. destruct (copy32_loop_spec (S (length (fdata (s_file s)))) bs (size - N.of_nat (length got)) 0 s' (g_write got t) Hb ltac:(lia) ltac:(lia)) as (s2 & F & F2 & _); [rewrite El; cbn; lia|].
      rewrite F, El, firstn_nil. change (0 + N.of_nat (length (@nil N)))%N with 0%N. cbn [bind]. change (negb (0 =? 0)%N) with false.
      replace (size - N.of_nat (length got) - 0 =? 0)%N with false by lia. rewrite andb_false_r. cbn [g_write]. exists s2. rewrite N.add_0_r. split; [reflexivity|]. rewrite F2, El, skipn_nil. symmetry. rewrite <- E2. exact El.
Qed.
Print Assumptions C33_copy_amount.
(** From 2^31 on (the documented limit is 4 GB, none for the infinint variant), the first read is given a negative size for a buffer of
    BUFFER_SIZE bytes: undefined behaviour, whatever the source holds. *)
Theorem C33_large_amount_refuted : forall bs size s t, (2147483648 <= size)%N -> (size < 4294967296)%N -> copy32 bs size s t = Err UB /\ copyN bs size s t = Err UB.
Proof.
  intros bs size s t H1 H2. assert (E : copy32 bs size s t = Err UB).
  { unfold copy32. cbn [copy32_loop]. replace (0 <? size)%N with true by lia. rewrite N.sub_0_r.
    assert (Q : (to_S_I (Z.of_N size) < 0)%Z) by (unfold to_S_I; lia).
    destruct (Z.ltb_spec (Z.of_nat bs) (to_S_I (Z.of_N size))); [lia|]. replace (to_S_I (Z.of_N size) <? 0)%Z with true by lia. reflexivity. }
  split; [exact E|]. unfold copyN, unstack32. replace (N.min size (U32MAX - 0)) with size by (unfold U32MAX; lia). cbn [copyN_loop N.add]. rewrite E. reflexivity.
Qed.
Print Assumptions C33_large_amount_refuted.

(** ** Comparing: on plain files (reads are short only at end of file) *)
Definition plain (f : gfile) : src := mk_src f [].
Lemma common_spec : forall a b, firstn (common a b) a = firstn (common a b) b /\ common a b <= length a /\ common a b <= length b /\
  (common a b < length a -> common a b < length b -> nth (common a b) a 0%N <> nth (common a b) b 0%N).
Proof.
  induction a as [|x a IH]; intros [|y b]; cbn [common firstn length nth]; try (repeat split; lia || reflexivity). destruct (N.eqb_spec x y) as [->|Hn]; cbn [firstn length nth].
  - destruct (IH b) as (H1 & H2 & H3 & H4). rewrite H1. repeat split; try lia; intros; apply H4; lia.
  - repeat split; try lia; auto.
Qed.
Lemma common_eq : forall a b, length a = length b -> (common a b = length a <-> a = b).
Proof.
  intros a b H. destruct (common_spec a b) as (H1 & H2 & H3 & H4). split; intro E; [|subst; clear; induction b; cbn; [reflexivity|rewrite N.eqb_refl; lia]].
  rewrite E in H1. rewrite firstn_all, H, firstn_all in H1. exact H1.
Qed.
(** the offset of the first difference between two contents of the same length *)
Definition first_difference (a b : list N) (o : nat) : Prop := o < length a /\ firstn o a = firstn o b /\ nth o a 0%N <> nth o b 0%N.
Lemma diff_loop_spec : forall fuel bs addr s1 s2 off c, 0 < bs -> s_sched s1 = [] -> s_sched s2 = [] -> length (left s1) < fuel -> wf c ->
  exists b o c', diff_loop fuel bs addr s1 s2 off c = Ok (b, o, c') /\ (b = false <-> left s1 = left s2) /\
    (b = false -> exists chunks, crc_feed (map (fun d => (addr, d)) chunks) c = Ok c' /\ concat chunks = left s1) /\
    (b = true -> length (left s1) = length (left s2) -> exists k, o = (off + N.of_nat k)%N /\ first_difference (left s1) (left s2) k).
Proof.
  induction fuel as [|k IH]; intros bs addr s1 s2 off c Hb H1 H2 Hf Hw; [lia|]. cbn [diff_loop].
  pose proof (s_read_spec bs s1 Hb) as R. destruct (s_read bs s1) as [d1 q1]. destruct R as (R1 & R2 & R3 & _ & R4). destruct (R4 H1) as (Q1 & E1 & L1). clear R4.
  pose proof (s_read_spec bs s2 Hb) as R. destruct (s_read bs s2) as [d2 q2]. destruct R as (T1 & T2 & T3 & _ & R4). destruct (R4 H2) as (Q2 & E2 & L2). clear R4.
  destruct (Nat.eqb_spec (length d1) (length d2)) as [Hl|Hl].
  - destruct (common_spec d1 d2) as (C1 & C2 & C3 & C4). destruct (Nat.ltb_spec (common d1 d2) (length d1)) as [Lc|Lc].
    + exists true, (off + N.of_nat (common d1 d2))%N, c. split; [reflexivity|]. split; [split; [discriminate|]|].
      { intro Q. exfalso. assert (d1 = d2) by congruence. pose proof (proj2 (common_eq d1 d2 Hl) H). lia. }
      split; [discriminate|]. intros _ _. exists (common d1 d2). split; [reflexivity|]. rewrite R1, T1. unfold first_difference. rewrite app_length. split; [lia|].
      split; [rewrite !firstn_app, C1; replace (common d1 d2 - length d1) with 0 by lia; replace (common d1 d2 - length d2) with 0 by lia; reflexivity|].
      rewrite !app_nth1 by lia. apply C4; lia.
    + assert (Ed : d1 = d2) by (apply common_eq; lia). clear E1 E2 L1 L2. subst d2.
      destruct (crc_compute addr d1 c) as [c1|] eqn:Ec.
      2:{ exfalso. rewrite crc_compute_spec in Ec by exact Hw. destruct (t_loop _ _ _). discriminate. }
      assert (W1 : wf c1). { rewrite crc_compute_spec in Ec by exact Hw. destruct (t_loop d1 (cyclic c) (pointer c)) as [cy p] eqn:T. injection Ec as <-. apply (t_loop_wf _ _ _ _ _ Hw T). }
      cbn [bind]. destruct (Nat.ltb_spec 0 (length d1)) as [Lp|Lp].
      * rewrite R1 in Hf. rewrite app_length in Hf. destruct (IH bs addr q1 q2 (off + N.of_nat (length d1))%N c1 Hb Q1 Q2 ltac:(lia) W1) as (b & o & c' & E & F1 & F2 & F3). exists b, o, c'. split; [exact E|].
        split; [rewrite F1, R1, T1; split; [intros ->; reflexivity|intro Z; apply app_inv_head in Z; exact Z]|]. split.
        -- intro Z. destruct (F2 Z) as (ch & G1 & G2). exists (d1 :: ch). cbn [map crc_feed]. rewrite Ec. cbn [bind]. split; [exact G1|]. cbn [concat]. rewrite G2. auto.
        -- intros Z Zl. rewrite R1, T1, !app_length in Zl. destruct (F3 Z ltac:(lia)) as (k' & -> & K1 & K2 & K3). exists (length d1 + k'). split; [lia|]. rewrite R1, T1. unfold first_difference. rewrite app_length. split; [lia|].
           rewrite !firstn_app_2, K2. split; [reflexivity|]. rewrite !app_nth2_plus. exact K3.
      * assert (d1 = []) by (apply length_zero_iff_nil; lia). subst d1. exists false, (off + N.of_nat 0)%N, c1. split; [reflexivity|]. rewrite (R3 eq_refl), (T3 eq_refl). split; [tauto|]. split; [|discriminate].
        intros _. exists [[]]. cbn [map crc_feed]. rewrite Ec. auto.
  - exists true, (off + N.of_nat (Nat.min (length d1) (length d2)))%N, c. split; [reflexivity|]. assert (Ne : left s1 <> left s2) by (intro Z; apply Hl; congruence). split; [split; [discriminate|tauto]|]. split; [discriminate|].
    intros _ Z. exfalso. apply Hl. rewrite E1, E2, !firstn_length. lia.
Qed.
Lemma left_0 : forall f, left (s_skip0 (plain f)) = fdata f.
Proof. reflexivity. Qed.
(** Whether the contents differ is exact, whatever the positions of the two files; when they do not, the CRC is the checksum of the content;
    when they do and the sizes are the same, the offset given is the first difference. *)
Theorem C33_diff : forall bs addr width f1 f2, 0 < bs -> width <> 0 -> exists b o c, diff bs addr width (plain f1) (plain f2) = Ok (b, o, c) /\
  (b = false <-> fdata f1 = fdata f2) /\ (b = false -> cyclic c = checksum width (fdata f1)) /\
  (b = true -> length (fdata f1) = length (fdata f2) -> first_difference (fdata f1) (fdata f2) (N.to_nat o)).
Proof.
  intros bs addr width f1 f2 Hb Hw. unfold diff. destruct (crc_create width) as [c0|] eqn:Ec; [|unfold crc_create in Ec; destruct (Nat.eqb_spec width 0); [tauto|discriminate]]. cbn [bind].
  assert (W0 : wf c0). { unfold crc_create in Ec. destruct (Nat.eqb_spec width 0); [tauto|]. injection Ec as <-. unfold wf, crc_size. cbn. rewrite repeat_length. lia. }
  destruct (diff_loop_spec (S (length (fdata f1))) bs addr (s_skip0 (plain f1)) (s_skip0 (plain f2)) 0 c0 Hb eq_refl eq_refl) as (b & o & c & E & F1 & F2 & F3); auto.
  rewrite !left_0 in *. exists b, o, c. split; [exact E|]. split; [exact F1|]. split.
  - intro Q. destruct (F2 Q) as (ch & G1 & G2). destruct (C07_checksum_independent_of_buffering width (map (fun d => (addr, d)) ch) Hw) as (c1 & c2 & E1 & E2 & E3). rewrite E1 in Ec. injection Ec as ->. rewrite G1 in E2. injection E2 as ->.
    rewrite E3, map_map. cbn [snd]. rewrite map_id, G2. reflexivity.
  - intros Q Ql. destruct (F3 Q Ql) as (k & -> & K). rewrite N.add_0_l, Nat2N.id. exact K.
Qed.
Print Assumptions C33_diff.
Lemma eq_loop_spec : forall fuel bs s1 s2, 0 < bs -> s_sched s1 = [] -> s_sched s2 = [] -> length (left s1) < fuel -> exists b, eq_loop fuel bs s1 s2 = Ok b /\ (b = true <-> left s1 = left s2).
Proof.
  induction fuel as [|k IH]; intros bs s1 s2 Hb H1 H2 Hf; [lia|]. cbn [eq_loop].
  pose proof (s_read_spec bs s1 Hb) as R. destruct (s_read bs s1) as [d1 q1]. destruct R as (R1 & R2 & R3 & _ & R4). destruct (R4 H1) as (Q1 & E1 & L1). clear R4.
  pose proof (s_read_spec bs s2 Hb) as R. destruct (s_read bs s2) as [d2 q2]. destruct R as (T1 & T2 & T3 & _ & R4). destruct (R4 H2) as (Q2 & E2 & L2). clear R4.
  destruct (Nat.eqb_spec (length d1) (length d2)) as [Hl|Hl].
  - destruct (common_spec d1 d2) as (C1 & C2 & C3 & C4). destruct (Nat.ltb_spec (common d1 d2) (length d1)) as [Lc|Lc]; cbn [negb].
    + rewrite andb_false_r. exists false. split; [reflexivity|]. split; [discriminate|]. intro Q. exfalso. assert (H : d1 = d2) by congruence. pose proof (proj2 (common_eq d1 d2 Hl) H). lia.
    + assert (Ed : d1 = d2) by (apply common_eq; lia). clear E1 E2 L1 L2. subst d2. rewrite andb_true_r. destruct (Nat.ltb_spec 0 (length d1)) as [Lp|Lp].
      * rewrite R1 in Hf. rewrite app_length in Hf. destruct (IH bs q1 q2 Hb Q1 Q2 ltac:(lia)) as (b & -> & F1). exists b. split; [reflexivity|]. rewrite F1, R1, T1. split; [intros ->; reflexivity|intro Z; apply app_inv_head in Z; exact Z].
      * assert (d1 = []) by (apply length_zero_iff_nil; lia). subst d1. exists true. split; [reflexivity|]. rewrite (R3 eq_refl), (T3 eq_refl). tauto.
  - rewrite andb_false_r. exists false. split; [reflexivity|]. split; [discriminate|]. intro Q. exfalso. apply Hl. congruence.
Qed.
Theorem C33_equal : forall bs f1 f2, 0 < bs -> exists b, file_eq bs (plain f1) (plain f2) = Ok b /\ (b = true <-> fdata f1 = fdata f2).
Proof. intros bs f1 f2 Hb. apply (eq_loop_spec (S (length (fdata f1))) bs (s_skip0 (plain f1)) (s_skip0 (plain f2)) Hb eq_refl eq_refl). rewrite left_0. lia. Qed.
Print Assumptions C33_equal.
(** When the sizes are different the offset may be after the first difference (generic_file.hpp:236: "holds the offset of the first difference met"). *)
Theorem C33_diff_offset_refuted : exists c, diff 102400 0 4 (plain (mk_file [1; 2; 3; 4; 5] 0)%N) (plain (mk_file [9; 2; 3] 0)%N) = Ok (true, 3%N, c).
Proof. eexists. vm_compute. reflexivity. Qed.
(** A source whose reads are short before the end of file is reported different from the same content. *)
Theorem C33_diff_short_refuted : exists c, diff 102400 0 4 (mk_src (mk_file [1; 2; 3; 4] 0)%N [1]) (plain (mk_file [1; 2; 3; 4] 0)%N) = Ok (true, 2%N, c).
Proof. eexists. vm_compute. reflexivity. Qed.
(** instances *)
Example C33_instance : exists s', copyN 3 7 (mk_src (mk_file [1; 2; 3; 4; 5; 6; 7; 8; 9]%N 1) [0; 5; 1]) (mk_file [50; 51]%N 2) = Ok (7%N, s', mk_file [50; 51; 2; 3; 4; 5; 6; 7; 8]%N 9).
Proof. eexists. vm_compute. reflexivity. Qed.
