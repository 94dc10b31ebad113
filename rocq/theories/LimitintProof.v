From Verif Require Import Base InfinintModel InfinintProof InfinintProof2 LimitintModel.
Open Scope N_scope.

Lemma hp2_loop_spec : forall fuel i val, 2 ^ i <= val -> val < 2 ^ (i + N.of_nat fuel) ->
  let r := hp2_loop fuel i val in i <= r /\ 2 ^ r <= val /\ val < 2 ^ (r + 1).
Proof.
  induction fuel as [|k IH]; intros i val Hl Hu; cbn [hp2_loop].
  - replace (i + N.of_nat 0) with i in Hu by lia. lia.
  - rewrite N.shiftr_div_pow2. pose proof (pow2_pos i) as Pi.
    destruct (N.ltb_spec 1 (val / 2 ^ i)) as [H|H].
    + assert (Hl' : 2 ^ (i + 1) <= val).
      { rewrite N.add_1_r, N.pow_succ_r'. pose proof (N.mul_div_le val (2 ^ i) ltac:(lia)). nia. }
      destruct (IH (i + 1) val Hl') as (A & B & C).
      { replace (i + 1 + N.of_nat k) with (i + N.of_nat (S k)) by lia. exact Hu. }
      cbv zeta in *. split; [lia|]. auto.
    + cbv zeta. split; [lia|]. split; auto. rewrite N.add_1_r, N.pow_succ_r'.
      assert (E : val = 2 ^ i * (val / 2 ^ i) + val mod 2 ^ i) by (apply N.div_mod; lia).
      assert (M : val mod 2 ^ i < 2 ^ i) by (apply N.mod_lt; lia).
      generalize dependent (val / 2 ^ i). intros q H E. nia.
Qed.

Lemma hp2_0 : hp2 0 = 0. Proof. reflexivity. Qed.
Lemma hp2_spec : forall val, 0 < val -> val < 2 ^ 64 -> 2 ^ hp2 val <= val /\ val < 2 ^ (hp2 val + 1).
Proof.
  intros val H1 H2. destruct (hp2_loop_spec 64 0 val) as (_ & A & B); auto.
  - change (2 ^ 0) with 1. lia.
Qed.

Lemma hp2_upper : forall val, val < 2 ^ 64 -> val < 2 ^ (hp2 val + 1).
Proof.
  intros val H. destruct (N.eq_dec val 0) as [->|Hn]; [reflexivity|].
  apply hp2_spec; lia.
Qed.

Lemma hp2_lt : forall w val, 0 < w -> w <= 64 -> val < 2 ^ w -> hp2 val < w.
Proof.
  intros w val Hw0 Hw H. destruct (N.eq_dec val 0) as [->|Hn]; [rewrite hp2_0; lia|].
  destruct (hp2_spec val) as [A _]; [lia| |].
  - eapply N.lt_le_trans; [exact H|]. apply N.pow_le_mono_r; lia.
  - apply (N.pow_lt_mono_r_iff 2); lia.
Qed.

Definition valid_width (w : N) : Prop := w = 32 \/ w = 64.

Ltac width_cases H := destruct H as [H|H]; subst; cbn [N.sub N.add].

Lemma lim_add_spec : forall w a b, valid_width w -> a < 2 ^ w -> b < 2 ^ w ->
  (a + b < 2 ^ w -> lim_add w a b = Ok (a + b)) /\ (2 ^ w <= a + b -> lim_add w a b = Err Elimitint).
Proof.
  intros w a b Hw Ha Hb. unfold lim_add, wrap. split; intro H.
  - rewrite N.mod_small by auto.
    destruct (N.ltb_spec (a + b) a); [lia|]. destruct (N.ltb_spec (a + b) b); [lia|]. reflexivity.
  - assert (E : (a + b) mod 2 ^ w = a + b - 2 ^ w).
    { symmetry. apply N.mod_unique with 1; lia. }
    rewrite E. destruct (N.ltb_spec (a + b - 2 ^ w) a); [reflexivity|lia].
Qed.

Lemma lim_mul_sound : forall w a b, valid_width w -> a < 2 ^ w -> b < 2 ^ w ->
  (lim_mul w a b = Ok (a * b) /\ a * b < 2 ^ w) \/ lim_mul w a b = Err Elimitint.
Proof.
  intros w a b Hw Ha Hb. unfold lim_mul.
  assert (W : 0 < w /\ w <= 64) by (destruct Hw; lia).
  pose proof (hp2_lt w a ltac:(lia) ltac:(lia) Ha) as La.
  pose proof (hp2_lt w b ltac:(lia) ltac:(lia) Hb) as Lb.
  assert (Hs : wrap w (hp2 a + hp2 b + 1) = hp2 a + hp2 b + 1).
  { unfold wrap. apply N.mod_small. apply N.lt_le_trans with (2 ^ 32); [|apply N.pow_le_mono_r; destruct Hw; lia].
    change (2 ^ 32) with 4294967296. lia. }
  rewrite Hs. destruct (N.ltb_spec (w - 1) (hp2 a + hp2 b + 1)) as [H|H]; [right; reflexivity|].
  assert (P : a * b < 2 ^ w).
  { assert (A64 : a < 2 ^ 64) by (eapply N.lt_le_trans; [exact Ha|apply N.pow_le_mono_r; lia]).
    assert (B64 : b < 2 ^ 64) by (eapply N.lt_le_trans; [exact Hb|apply N.pow_le_mono_r; lia]).
    pose proof (hp2_upper a A64) as Ua. pose proof (hp2_upper b B64) as Ub.
    apply N.lt_le_trans with (2 ^ (hp2 a + 1) * 2 ^ (hp2 b + 1)).
    - apply N.mul_lt_mono; auto.
    - rewrite <- N.pow_add_r. apply N.pow_le_mono_r; lia. }
  assert (Ew : wrap w (a * b) = a * b) by (unfold wrap; apply N.mod_small; auto).
  rewrite Ew. left. split; auto.
  destruct (N.eqb_spec a 0) as [Ea|Ea]; [cbn; reflexivity|].
  destruct (N.eqb_spec b 0) as [Eb|Eb]; [cbn; reflexivity|].
  cbn [negb andb]. destruct (N.ltb_spec (a * b) a); [nia|]. destruct (N.ltb_spec (a * b) b); [nia|]. reflexivity.
Qed.

Lemma lim_mul_small : forall w a b, valid_width w -> a < 2 ^ w -> b < 2 ^ w ->
  hp2 a + hp2 b + 1 <= w - 1 -> lim_mul w a b = Ok (a * b).
Proof.
  intros w a b Hw Ha Hb H. destruct (lim_mul_sound w a b Hw Ha Hb) as [[E _]|E]; auto.
  exfalso. revert E. unfold lim_mul.
  assert (Hs : wrap w (hp2 a + hp2 b + 1) = hp2 a + hp2 b + 1).
  { unfold wrap. apply N.mod_small. apply N.lt_le_trans with (2 ^ 32); [|apply N.pow_le_mono_r; destruct Hw; lia].
    change (2 ^ 32) with 4294967296. destruct Hw; lia. }
  rewrite Hs. destruct (N.ltb_spec (w - 1) (hp2 a + hp2 b + 1)) as [G|G]; [lia|].
  assert (W : 0 < w /\ w <= 64) by (destruct Hw; lia).
  assert (P : a * b < 2 ^ w).
  { assert (A64 : a < 2 ^ 64) by (eapply N.lt_le_trans; [exact Ha|apply N.pow_le_mono_r; lia]).
    assert (B64 : b < 2 ^ 64) by (eapply N.lt_le_trans; [exact Hb|apply N.pow_le_mono_r; lia]).
    pose proof (hp2_upper a A64) as Ua. pose proof (hp2_upper b B64) as Ub.
    apply N.lt_le_trans with (2 ^ (hp2 a + 1) * 2 ^ (hp2 b + 1)).
    - apply N.mul_lt_mono; auto.
    - rewrite <- N.pow_add_r. apply N.pow_le_mono_r; lia. }
  assert (Ew : wrap w (a * b) = a * b) by (unfold wrap; apply N.mod_small; auto).
  rewrite Ew.
  destruct (N.eqb_spec a 0) as [Ea|Ea]; [cbn; discriminate|].
  destruct (N.eqb_spec b 0) as [Eb|Eb]; [cbn; discriminate|].
  cbn [negb andb]. destruct (N.ltb_spec (a * b) a); [nia|]. destruct (N.ltb_spec (a * b) b); [nia|]. discriminate.
Qed.

Lemma lim_power_sound : forall w a e, valid_width w -> a < 2 ^ w ->
  (lim_power w a e = Ok (a ^ N.of_nat e) /\ a ^ N.of_nat e < 2 ^ w) \/ lim_power w a e = Err Elimitint.
Proof.
  intros w a e Hw Ha. induction e as [|e IH]; cbn [lim_power].
  - left. split; auto. change (N.of_nat 0) with 0. rewrite N.pow_0_r. destruct Hw as [->| ->]; reflexivity.
  - destruct IH as [[E L]|E]; rewrite E; cbn [bind]; auto.
    rewrite Nat2N.inj_succ, N.pow_succ_r'. rewrite (N.mul_comm a).
    apply lim_mul_sound; auto.
Qed.

Lemma bytesize_bits : forall w, valid_width w -> bytesize w * 8 = w.
Proof. intros w [->| ->]; reflexivity. Qed.

Lemma lim_shl_sound : forall w a bit, valid_width w -> a < 2 ^ w -> bit + 64 <= 2 ^ w ->
  (lim_shl w a bit = Ok (a * 2 ^ bit) /\ a * 2 ^ bit < 2 ^ w) \/ lim_shl w a bit = Err Elimitint.
Proof.
  intros w a bit Hw Ha Hb. unfold lim_shl. rewrite bytesize_bits by auto.
  assert (W : 0 < w /\ w <= 64) by (destruct Hw; lia).
  pose proof (hp2_lt w a ltac:(lia) ltac:(lia) Ha) as La.
  assert (Hs : wrap w (bit + hp2 a) = bit + hp2 a) by (unfold wrap; apply N.mod_small; lia).
  rewrite Hs. destruct (N.leb_spec w (bit + hp2 a)) as [H|H]; [right; reflexivity|].
  destruct (N.leb_spec w bit) as [H'|H']; [lia|]. left.
  assert (P : a * 2 ^ bit < 2 ^ w).
  { assert (A64 : a < 2 ^ 64) by (eapply N.lt_le_trans; [exact Ha|apply N.pow_le_mono_r; lia]).
    pose proof (hp2_upper a A64) as Ua. pose proof (pow2_pos bit).
    apply N.lt_le_trans with (2 ^ (hp2 a + 1) * 2 ^ bit).
    - apply N.mul_lt_mono_pos_r; auto.
    - rewrite <- N.pow_add_r. apply N.pow_le_mono_r; lia. }
  split; auto. unfold wrap. rewrite N.shiftl_mul_pow2. rewrite N.mod_small; auto.
Qed.

Lemma lim_shr_sound : forall w a bit, valid_width w -> a < 2 ^ w -> lim_shr w a bit = Ok (a / 2 ^ bit).
Proof.
  intros w a bit Hw Ha. unfold lim_shr. rewrite bytesize_bits by auto.
  destruct (N.leb_spec w bit) as [H|H].
  - rewrite N.div_small; auto. eapply N.lt_le_trans; [exact Ha|]. apply N.pow_le_mono_r; lia.
  - rewrite N.shiftr_div_pow2. reflexivity.
Qed.

Lemma lim_unstack_spec : forall w wT maxT field a, valid_width w -> field < 2 ^ w ->
  a <= maxT -> maxT < 2 ^ wT -> wT <= w ->
  let '(f', a') := lim_unstack w wT maxT field a in
  a' = N.min (a + field) maxT /\ f' + a' = field + a.
Proof.
  intros w wT maxT field a Hw Hf Ha HT Hle. unfold lim_unstack.
  assert (P : 2 ^ wT <= 2 ^ w) by (apply N.pow_le_mono_r; lia).
  assert (E1 : wrap w (maxT - a) = maxT - a) by (unfold wrap; apply N.mod_small; lia).
  rewrite E1.
  destruct (N.ltb_spec field (maxT - a)) as [H|H]; cbn [andb].
  - assert (E2 : wrap wT field = field) by (unfold wrap; apply N.mod_small; lia).
    rewrite E2. destruct (N.ltb_spec field (maxT - a)) as [_|?]; [|lia].
    assert (E3 : wrap wT (a + field) = a + field) by (unfold wrap; apply N.mod_small; lia).
    rewrite E3. lia.
  - assert (Z.to_N ((Z.of_N field - Z.of_N (maxT - a)) mod 2 ^ Z.of_N w) = field - (maxT - a)).
    { rewrite Z.mod_small.
      - lia.
      - replace (2 ^ Z.of_N w)%Z with (Z.of_N (2 ^ w)) by (rewrite N2Z.inj_pow; reflexivity). lia. }
    rewrite H0. lia.
Qed.

(** dump: the same bytes as the unlimited build *)
Lemma lim_dump_spec : forall w field, valid_width w -> field < 2 ^ w -> lim_dump w field = dumpN field.
Proof.
  intros w field Hw Hf.
  assert (Hp : field < p256 (N.to_nat (bytesize w))).
  { rewrite p256_pow2. destruct Hw as [->| ->]; exact Hf. }
  destruct (be_bytes_spec _ _ Hp) as (V & B & L).
  set (bb := be_bytes (N.to_nat (bytesize w)) field) in *.
  assert (E : reduce bb = inf_of_N field).
  { destruct (inf_of_N_spec field) as (V2 & O2 & C2). apply canon_unique; auto.
    - apply reduce_canon. - apply reduce_ok; auto. - apply O2.
    - rewrite reduce_value, V2, V. reflexivity. }
  assert (E' : reduce_if (inf_of_N field) = reduce bb).
  { rewrite E. destruct (inf_of_N_spec field) as (_ & _ & C2). destruct C2 as [->|(b & r & -> & Hb)]; auto.
    destruct b; [congruence|reflexivity]. }
  unfold dumpN, inf_dump. rewrite E'. unfold lim_dump. fold bb.
  assert (Sg : match strip0 bb with [] => [0] | _ :: _ => strip0 bb end = reduce bb).
  { unfold reduce. destruct (strip0 bb); reflexivity. }
  rewrite Sg.
  assert (Wd : (if N.of_nat (length (strip0 bb)) =? 0 then 1 else N.of_nat (length (strip0 bb))) = N.of_nat (length (reduce bb))).
  { unfold reduce. destruct (strip0 bb) as [|x y]; [reflexivity|]. cbn [length]. destruct (N.eqb_spec (N.of_nat (S (length y))) 0); [lia|reflexivity]. }
  rewrite Wd. cbv zeta.
  assert (Lr : (length (reduce bb) <= 8)%nat).
  { destruct (strip0_spec bb) as [n Hn]. apply (f_equal (@length N)) in Hn. rewrite app_length in Hn.
    unfold reduce. destruct (strip0 bb); cbn [length] in *; [lia|]. rewrite L in Hn. unfold bytesize in Hn. destruct Hw as [->| ->]; cbn in Hn; lia. }
  set (g := if N.of_nat (length (reduce bb)) mod TG =? 0 then N.of_nat (length (reduce bb)) / TG else N.of_nat (length (reduce bb)) / TG + 1).
  assert (Hg : g < 8). { unfold g, TG. destruct (N.eqb_spec (N.of_nat (length (reduce bb)) mod 4) 0); lia. }
  assert (L16 : N.land 65535 (g mod 8) = g mod 8).
  { rewrite N.land_comm. replace 65535 with (N.ones 16) by reflexivity. rewrite N.land_ones. apply N.mod_small.
    change (2 ^ 16) with 65536. lia. }
  rewrite L16. reflexivity.
Qed.

(** reading what the unlimited build wrote *)
Lemma lim_read_zeros : forall w k f s, valid_width w -> s + N.of_nat k < 2 ^ w ->
  lim_read_from w (repeat 0 k ++ f) s = lim_read_from w f (s + N.of_nat k).
Proof.
  intros w k f s Hw. revert s. induction k as [|k IH]; intros s H; cbn [repeat app].
  - f_equal. lia.
  - cbn [lim_read_from N.eqb].
    assert (1 < 2 ^ w) by (destruct Hw as [->| ->]; reflexivity).
    destruct (lim_add_spec w s 1 Hw) as [A _]; try lia.
    rewrite A by lia. cbn [bind]. rewrite IH by lia. f_equal. lia.
Qed.

Lemma lim_read_many_zeros : forall w k f s, valid_width w -> s < 2 ^ w -> 2 ^ w <= s + N.of_nat k ->
  lim_read_from w (repeat 0 k ++ f) s = Err Elimitint.
Proof.
  intros w k f s Hw. revert s. induction k as [|k IH]; intros s Hs H; [lia|].
  cbn [repeat app lim_read_from N.eqb].
  assert (1 < 2 ^ w) by (destruct Hw as [->| ->]; reflexivity).
  destruct (lim_add_spec w s 1 Hw) as [A B]; try lia.
  destruct (N.le_gt_cases (2 ^ w) (s + 1)) as [G|G].
  - rewrite B by auto. reflexivity.
  - rewrite A by auto. cbn [bind]. apply IH; lia.
Qed.

Lemma lim_marker_read : forall w i f s, valid_width w -> i < 8 -> s < 2 ^ w ->
  lim_read_from w (marker i :: f) s =
  if bytesize w <? (s * 8 + i + 1) * 4 then Err Elimitint
  else Ok (inf_value (firstn (N.to_nat ((s * 8 + i + 1) * 4)) f
             ++ repeat 0 (N.to_nat ((s * 8 + i + 1) * 4) - length f)), skipn (N.to_nat ((s * 8 + i + 1) * 4)) f).
Proof.
  intros w i f s Hw Hi Hs.
  cbn [lim_read_from].
  assert (M : N.shiftr 128 i =? 0 = false /\ negb (fold_left N.add (expand_byte (N.shiftr 128 i)) 0 =? 1) = false
              /\ first_one (expand_byte (N.shiftr 128 i)) = i).
  { assert (H : i = 0 \/ i = 1 \/ i = 2 \/ i = 3 \/ i = 4 \/ i = 5 \/ i = 6 \/ i = 7) by lia.
    destruct H as [->|[->|[->|[->|[->|[->|[->| ->]]]]]]]; repeat split; reflexivity. }
  unfold marker. destruct M as (M1 & M2 & M3). rewrite M1, M2, M3.
  assert (W : 0 < w /\ w <= 64) by (destruct Hw; lia).
  assert (W32 : 2 ^ 32 <= 2 ^ w) by (apply N.pow_le_mono_r; destruct Hw; lia).
  change (2 ^ 32) with 4294967296 in W32.
  assert (Big : bytesize w <= 8) by (destruct Hw as [->| ->]; cbv; discriminate).
  destruct (N.le_gt_cases 1 s) as [Hs1|Hs1].
  - (* too big *)
    destruct (N.ltb_spec (bytesize w) ((s * 8 + i + 1) * 4)) as [_|G]; [|lia].
    destruct (lim_mul_sound w s 8 Hw Hs ltac:(lia)) as [[E L]|E]; rewrite E; cbn [bind]; auto.
    destruct (lim_add_spec w (s * 8) (i + 1) Hw ltac:(lia) ltac:(lia)) as [A B].
    destruct (N.le_gt_cases (2 ^ w) (s * 8 + (i + 1))) as [G|G].
    + rewrite B by auto. reflexivity.
    + rewrite A by auto. cbn [bind]. unfold TG.
      destruct (lim_mul_sound w (s * 8 + (i + 1)) 4 Hw G ltac:(lia)) as [[E2 L2]|E2]; rewrite E2; cbn [bind]; auto.
      destruct (N.ltb_spec (bytesize w) ((s * 8 + (i + 1)) * 4)) as [_|?]; [reflexivity|lia].
  - assert (s = 0) by lia. subst s.
    rewrite (lim_mul_small w 0 8 Hw) by (try lia; destruct Hw as [->| ->]; cbv; discriminate).
    cbn [bind]. destruct (lim_add_spec w (0 * 8) (i + 1) Hw ltac:(lia) ltac:(lia)) as [A _]. rewrite A by lia. cbn [bind].
    replace (0 * 8 + (i + 1)) with (i + 1) by lia. replace (0 * 8 + i + 1) with (i + 1) by lia. unfold TG.
    rewrite (lim_mul_small w (i + 1) 4 Hw).
    + cbn [bind]. destruct (bytesize w <? (i + 1) * 4); auto. f_equal. f_equal. f_equal. f_equal. f_equal.
      rewrite firstn_length. lia.
    + lia.
    + lia.
    + change (hp2 4) with 2.
      assert (hp2 (i + 1) <= 3).
      { assert (H : i = 0 \/ i = 1 \/ i = 2 \/ i = 3 \/ i = 4 \/ i = 5 \/ i = 6 \/ i = 7) by lia.
        destruct H as [->|[->|[->|[->|[->|[->|[->| ->]]]]]]]; cbv; discriminate. }
      destruct Hw; lia.
Qed.

Lemma lim_read_dumpN : forall w n rest, valid_width w ->
  (n < 2 ^ w -> lim_read w (dumpN n ++ rest) = Ok (n, rest)) /\
  (2 ^ w <= n -> lim_read w (dumpN n ++ rest) = Err Elimitint).
Proof.
  intros w n rest Hw. unfold dumpN. destruct (inf_of_N_spec n) as (V & O & C).
  destruct (inf_dump_shape _ O) as (k & i & data & E & Hi & Hl & z & Ez & Hz). rewrite E.
  assert (Rv : inf_value data = n).
  { rewrite Ez, inf_value_zeros_app, reduce_if_value. exact V. }
  assert (Rb : bytes_ok data).
  { rewrite Ez. apply bytes_ok_app. split; [apply bytes_ok_zeros|]. apply reduce_if_ok; auto. }
  assert (Rc : reduce_if (inf_of_N n) = inf_of_N n).
  { destruct C as [->|(b & r & -> & Hb)]; auto. destruct b; [congruence|reflexivity]. }
  unfold lim_read. rewrite <- app_assoc. cbn [app]. split; intro H.
  - (* n fits, so at most bytesize bytes *)
    assert (Ln : (length (inf_of_N n) <= N.to_nat (bytesize w))%nat).
    { apply canon_len_bound; auto; [apply O| |].
      - rewrite V, p256_pow2, N2Nat.id, N.mul_comm, bytesize_bits by auto. exact H.
      - destruct Hw as [->| ->]; cbv; lia. }
    assert (Ld : N.of_nat (length data) <= bytesize w).
    { rewrite Ez, app_length, repeat_length, Rc in *. destruct Hw as [->| ->]; [change (bytesize 32) with 4 in *|change (bytesize 64) with 8 in *]; lia. }
    assert (K0 : k = 0%nat) by (destruct Hw as [->| ->]; [change (bytesize 32) with 4 in *|change (bytesize 64) with 8 in *]; lia).
    subst k. cbn [repeat app].
    rewrite lim_marker_read by (auto; apply pow2_pos).
    destruct (N.ltb_spec (bytesize w) ((0 * 8 + i + 1) * 4)) as [G|G]; [lia|].
    replace (N.to_nat ((0 * 8 + i + 1) * 4)) with (length data) by lia.
    rewrite firstn_app_exact, skipn_app_exact. rewrite app_length.
    replace (length data - (length data + length rest))%nat with 0%nat by lia. cbn [repeat]. rewrite app_nil_r, Rv. reflexivity.
  - assert (Ln : bytesize w < N.of_nat (length data)).
    { pose proof (inf_value_bound data Rb) as B. rewrite Rv, p256_pow2 in B.
      destruct (N.le_gt_cases (N.of_nat (length data)) (bytesize w)) as [G|G]; auto. exfalso.
      assert (2 ^ (8 * N.of_nat (length data)) <= 2 ^ w).
      { apply N.pow_le_mono_r; [lia|]. rewrite <- (bytesize_bits w Hw). lia. }
      lia. }
    destruct (N.le_gt_cases (2 ^ w) (0 + N.of_nat k)) as [G|G].
    + apply lim_read_many_zeros; auto. apply pow2_pos.
    + rewrite lim_read_zeros, lim_marker_read by auto.
      destruct (N.ltb_spec (bytesize w) (((0 + N.of_nat k) * 8 + i + 1) * 4)) as [_|?]; [reflexivity|lia].
Qed.

Lemma lim_index_spec : forall w a pos, lim_index w a pos = (a / 256 ^ N.of_nat pos) mod 256.
Proof.
  intros w a pos. unfold lim_index. rewrite land255. f_equal.
  induction pos as [|p IH].
  - change (N.of_nat 0) with 0. rewrite N.pow_0_r, N.div_1_r. reflexivity.
  - cbn [Nat.iter nat_rect]. change (nat_rect _ _ _ p) with (Nat.iter p (fun t => N.shiftr t 8) a). rewrite IH, shiftr8.
    rewrite N.div_div by (try apply N.pow_nonzero; lia).
    f_equal. rewrite Nat2N.inj_succ, N.pow_succ_r'. lia.
Qed.
