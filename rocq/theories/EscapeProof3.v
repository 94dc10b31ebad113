(** * Proofs about the escape layer: the reader. *)
From Verif Require Import Base FileModel EscapeModel EscapeProof EscapeSpec EscapeProof2.
Open Scope nat_scope.

(** a complete mark starts the list *)
Definition real_mark (s0 : N) (l : list N) : Prop :=
  exists t r, t <> seqt_not_a_sequence /\ l = fixed s0 ++ type2char t :: r.

(** ** removing the X of escaped data *)
Lemma bad_app : forall a b, ~ In Bad (a ++ b) -> ~ In Bad b.
Proof. intros a b H Q. apply H. apply in_or_app. auto. Qed.

Lemma remove_loop_spec : forall fuel s0 a ret delta rest, s0_ok s0 -> ret <= length a -> length a - ret < fuel ->
  ~ In Bad (parse s0 (skipn ret a ++ rest)) ->
  exists off delta' tail, remove_loop fuel s0 a ret delta = Ok (off, delta', tail) /\
    ret <= off <= length tail /\ length tail + delta' = length a + delta /\ delta <= delta' /\
    firstn ret tail = firstn ret a /\
    (forall v, parse s0 (skipn ret a ++ v) = map D (firstn (off - ret) (skipn ret tail)) ++ parse s0 (skipn off tail ++ v)) /\
    (off < length tail -> cmp5 s0 (skipn off tail) <> Mismatch /\ (off + 6 <= length tail -> real_mark s0 (skipn off tail))) /\
    (delta < delta' -> exists j, ret + j + 5 <= off /\ firstn 5 (skipn (ret + j) tail) = fixed s0).
Proof.
  induction fuel as [|k IH]; intros s0 a ret delta rest Hs Hr Hf Hb; [lia|].
  cbn [remove_loop]. rewrite trouve_amorce_spec. cbn [bind].
  set (i := find s0 (skipn ret a)) in *.
  assert (Hi : i <= length a - ret) by (unfold i; rewrite <- skipn_length; apply find_le).
  assert (P0 : forall v, parse s0 (skipn ret a ++ v) = map D (firstn i (skipn ret a)) ++ parse s0 (skipn (ret + i) a ++ v)).
  { intro v. rewrite parse_find. fold i. rewrite skipn_skipn. replace (i + ret) with (ret + i) by lia. reflexivity. }
  assert (Stop : (ret + i < length a -> cmp5 s0 (skipn (ret + i) a) <> Mismatch /\ (ret + i + 6 <= length a -> real_mark s0 (skipn (ret + i) a))) ->
    exists off delta' tail, Ok (ret + i, delta, a) = Ok (off, delta', tail) /\
    ret <= off <= length tail /\ length tail + delta' = length a + delta /\ delta <= delta' /\
    firstn ret tail = firstn ret a /\
    (forall v, parse s0 (skipn ret a ++ v) = map D (firstn (off - ret) (skipn ret tail)) ++ parse s0 (skipn off tail ++ v)) /\
    (off < length tail -> cmp5 s0 (skipn off tail) <> Mismatch /\ (off + 6 <= length tail -> real_mark s0 (skipn off tail))) /\
    (delta < delta' -> exists j, ret + j + 5 <= off /\ firstn 5 (skipn (ret + j) tail) = fixed s0)).
  { intro H. exists (ret + i), delta, a. split; [reflexivity|]. split; [lia|]. split; [lia|]. split; [lia|]. split; [reflexivity|].
    split; [|split; [exact H|lia]]. intro v. rewrite P0. replace (ret + i - ret) with i by lia. reflexivity. }
  destruct (Nat.ltb_spec (ret + i) (length a)) as [L|L]; [|apply Stop; lia].
  assert (C : cmp5 s0 (skipn (ret + i) a) <> Mismatch).
  { replace (ret + i) with (i + ret) by lia. rewrite <- skipn_skipn. apply find_at. rewrite skipn_length. fold i. lia. }
  unfold SEQ_LEN. destruct (Nat.leb_spec (ret + i + 6) (length a)) as [F|F].
  2:{ apply Stop. intros _. split; [exact C|lia]. }
  destruct (amorce_cases s0 (skipn (ret + i) a)) as [(r & Sk)|[S _]]; auto.
  { intro Q. apply (f_equal (@length N)) in Q. rewrite skipn_length in Q. cbn in Q. lia. }
  2:{ rewrite skipn_length in S. lia. }
  assert (exists c q, r = c :: q) as (c & q & ->).
  { destruct r as [|c q]; [|eauto]. apply (f_equal (@length N)) in Sk. rewrite skipn_length in Sk. cbn in Sk. lia. }
  assert (Nc : nth (ret + i + 5) a 0%N = c).
  { rewrite <- (firstn_skipn (ret + i) a), Sk. rewrite app_nth2 by (rewrite firstn_length; lia).
    rewrite firstn_length. replace (ret + i + 5 - Nat.min (ret + i) (length a)) with 5 by lia. reflexivity. }
  rewrite Nc. rewrite P0, Sk in Hb. apply bad_app in Hb.
  replace ((fixed s0 ++ c :: q) ++ rest) with (fixed s0 ++ c :: (q ++ rest)) in Hb by reflexivity.
  rewrite parse_seq in Hb. destruct (char2type c) as [t|e] eqn:Ct.
  2:{ exfalso. apply Hb. left. reflexivity. }
  cbn [bind]. unfold seqt_eqb. destruct (seqt_eq_dec t seqt_not_a_sequence) as [->|Ht].
  - (* escaped data *)
    set (a' := firstn (ret + i + 5) a ++ skipn (ret + i + 6) a).
    assert (Q5 : firstn (ret + i + 5) a = firstn (ret + i) a ++ fixed s0).
    { rewrite <- (firstn_skipn (ret + i) a) at 1. rewrite Sk. rewrite firstn_app.
      rewrite (firstn_all2 (firstn (ret + i) a)) by (rewrite firstn_length; lia). f_equal.
      rewrite firstn_length. replace (ret + i + 5 - Nat.min (ret + i) (length a)) with 5 by lia. reflexivity. }
    assert (Q6 : skipn (ret + i + 6) a = q).
    { replace (ret + i + 6) with (6 + (ret + i)) by lia. rewrite <- skipn_skipn, Sk. reflexivity. }
    assert (La : length a' = length a - 1) by (unfold a'; rewrite app_length, firstn_length, skipn_length; lia).
    assert (Sa : skipn (ret + i + 5) a' = q).
    { unfold a'. rewrite Q6. apply skipn_app_exact_n. rewrite firstn_length. lia. }
    destruct (IH s0 a' (ret + i + 5) (delta + 1) rest) as (off & delta' & tail & E & H1 & H2 & H3 & H4 & H5 & H6 & H7); auto; try lia.
    { rewrite Sa. apply bad_app in Hb. exact Hb. }
    exists off, delta', tail. split; [exact E|]. split; [lia|]. split; [lia|]. split; [lia|].
    assert (Fp : firstn (ret + i + 5) tail = firstn (ret + i) a ++ fixed s0).
    { rewrite H4. unfold a'. rewrite Q5. apply firstn_app_exact_n. rewrite app_length, firstn_length. cbn [fixed length]. lia. }
    split.
    { replace (firstn ret tail) with (firstn ret (firstn (ret + i + 5) tail)) by (rewrite firstn_firstn; f_equal; lia).
      rewrite Fp, firstn_app, firstn_firstn, firstn_length.
      replace (ret - Nat.min (ret + i) (length a)) with 0 by lia. cbn [firstn]. rewrite app_nil_r. f_equal. lia. }
    split.
    2:{ split; [exact H6|]. intros _. exists i. split; [lia|]. rewrite firstn_skipn_comm.
        replace (ret + i + 5) with (ret + i + 5) by lia. rewrite Fp. apply skipn_app_exact_n. rewrite firstn_length. lia. }
    intro v. rewrite P0, Sk. replace ((fixed s0 ++ c :: q) ++ v) with (fixed s0 ++ c :: (q ++ v)) by reflexivity.
    rewrite parse_seq, Ct. specialize (H5 v). rewrite Sa in H5. rewrite H5, !app_assoc. f_equal.
    rewrite <- !map_app. f_equal.
    rewrite <- (firstn_skipn (ret + i + 5) tail) at 2. rewrite Fp.
    assert (Lr : length (firstn (ret + i) a ++ fixed s0) = ret + i + 5) by (rewrite app_length, firstn_length; cbn [fixed length]; lia).
    rewrite skipn_app. replace (ret - length (firstn (ret + i) a ++ fixed s0)) with 0 by lia. cbn [skipn].
    rewrite firstn_app.
    assert (Lr2 : length (skipn ret (firstn (ret + i) a ++ fixed s0)) = i + 5) by (rewrite skipn_length; lia).
    rewrite Lr2. rewrite (firstn_all2 (skipn ret (firstn (ret + i) a ++ fixed s0))) by lia. replace (off - ret - (i + 5)) with (off - (ret + i + 5)) by lia. f_equal.
    rewrite skipn_app. rewrite firstn_length. replace (ret - Nat.min (ret + i) (length a)) with 0 by lia. cbn [skipn]. f_equal.
    rewrite firstn_skipn_comm. reflexivity.
  - apply Stop. intros _. split; [exact C|]. intros _. exists t, q. split; [exact Ht|]. rewrite Sk.
    apply char2type_inv in Ct. rewrite Ct. reflexivity.
Qed.

Lemma remove_spec : forall s0 a rest, s0_ok s0 -> ~ In Bad (parse s0 (a ++ rest)) ->
  exists off delta tail, remove_data_marks s0 a = Ok (off, delta, tail) /\
    off <= length tail /\ length tail + delta = length a /\
    (forall v, parse s0 (a ++ v) = map D (firstn off tail) ++ parse s0 (skipn off tail ++ v)) /\
    (off < length tail -> cmp5 s0 (skipn off tail) <> Mismatch /\ (off + 6 <= length tail -> real_mark s0 (skipn off tail))) /\
    (0 < delta -> 5 <= off) /\ (0 < delta -> length tail = 5 -> tail = fixed s0 /\ off = 5).
Proof.
  intros s0 a rest Hs Hb. unfold remove_data_marks.
  destruct (remove_loop_spec (S (length a)) s0 a 0 0 rest Hs) as (off & delta & tail & E & H1 & H2 & H3 & H4 & H5 & H6 & H7); auto; try lia.
  exists off, delta, tail. split; [exact E|]. split; [lia|]. split; [lia|]. split.
  2:{ split; [exact H6|]. split; [intro Q; destruct (H7 Q) as (j & Hj & _); lia|]. intros Q Q5. destruct (H7 Q) as (j & Hj & Ej).
      assert (j = 0) by lia. subst j. cbn [skipn Nat.add] in Ej. rewrite firstn_all2 in Ej by lia. split; [exact Ej|lia]. }
  intro v. specialize (H5 v). cbn [skipn] in H5. rewrite Nat.sub_0_r in H5. exact H5.
Qed.

(** ** the state of the reader seen as the items still to read *)
Definition rest_below (r : resc) : list N := skipn (fpos (r_below r)) (fdata (r_below r)).
Definition slice (i j : nat) (l : list N) : list N := firstn (j - i) (skipn i l).
Definition abs (s0 : N) (r : resc) : list item :=
  map D (slice (ar r) (eo r) (rb r)) ++ parse s0 (skipn (eo r) (rb r) ++ rest_below r).
Definition rinv (s0 : N) (r : resc) : Prop :=
  ar r <= eo r <= length (rb r) /\ 12 <= alloc r /\
  (eo r < length (rb r) -> cmp5 s0 (skipn (eo r) (rb r)) <> Mismatch) /\
  (reof r = true -> rest_below r = [] \/ real_mark s0 (skipn (eo r) (rb r))).
Definition Msr (r : resc) : nat := 2 * length (rest_below r) + (length (rb r) - ar r).

Lemma slice_same : forall i l, slice i i l = [].
Proof. intros. unfold slice. rewrite Nat.sub_diag. reflexivity. Qed.
Lemma slice_split : forall i k j l, i <= k <= j -> slice i j l = slice i k l ++ slice k j l.
Proof.
  intros i k j l H. unfold slice. rewrite <- (firstn_skipn (k - i) (firstn (j - i) (skipn i l))).
  rewrite firstn_firstn. replace (Nat.min (k - i) (j - i)) with (k - i) by lia. f_equal.
  rewrite skipn_firstn_comm, skipn_skipn. f_equal; [lia|]. f_equal. lia.
Qed.
Lemma slice_length : forall i j l, i <= j <= length l -> length (slice i j l) = j - i.
Proof. intros. unfold slice. rewrite firstn_length, skipn_length. lia. Qed.
Lemma slice_app : forall i j l m, i <= j <= length l -> slice i j (l ++ m) = slice i j l.
Proof.
  intros i j l m H. unfold slice. rewrite skipn_app. replace (i - length l) with 0 by lia. cbn [skipn].
  rewrite firstn_app, skipn_length. replace (j - i - (length l - i)) with 0 by lia. cbn [firstn]. apply app_nil_r.
Qed.

Lemma g_read_rest : forall n f, let '(got, f') := g_read n f in
  skipn (fpos f) (fdata f) = got ++ skipn (fpos f') (fdata f') /\ length got <= n /\
  (length got < n -> skipn (fpos f') (fdata f') = []) /\ fdata f' = fdata f.
Proof.
  intros n f. unfold g_read. cbn [fpos fdata]. set (l := skipn (fpos f) (fdata f)).
  assert (E : skipn (fpos f + length (firstn n l)) (fdata f) = skipn n l).
  { rewrite (Nat.add_comm (fpos f)), <- skipn_skipn. fold l. rewrite firstn_length. clearbody l.
    destruct (Nat.le_gt_cases n (length l)); [f_equal; lia|]. rewrite !skipn_all2 by lia. reflexivity. }
  rewrite E. split; [symmetry; apply firstn_skipn|]. split; [apply firstn_le_length|]. split; auto.
  rewrite firstn_length. intro H. apply skipn_all2. lia.
Qed.

Lemma real_mark_len : forall s0 l, real_mark s0 l -> 6 <= length l.
Proof. intros s0 l (t & r & _ & ->). rewrite app_length. cbn. lia. Qed.
Lemma real_mark_cmp : forall s0 l, real_mark s0 l -> cmp5 s0 l <> Mismatch.
Proof. intros s0 l (t & r & _ & ->). assert (cmp5 s0 (fixed s0 ++ type2char t :: r) = Full); [|congruence]. apply cmp_full. eauto. Qed.
Lemma real_mark_head : forall s0 l v, real_mark s0 l -> exists t its, t <> seqt_not_a_sequence /\ nth 5 l 0%N = type2char t /\ parse s0 (l ++ v) = M t :: its /\
   its = parse s0 (skipn 6 l ++ v).
Proof.
  intros s0 l v (t & r & Ht & ->). exists t, (parse s0 (r ++ v)). split; [exact Ht|]. split; [reflexivity|]. split; [|reflexivity].
  rewrite <- app_assoc. cbn [app]. apply parse_mark. exact Ht.
Qed.

(** ** mini_read_buffer *)
Lemma mini_read_spec : forall s0 r, s0_ok s0 -> rinv s0 r -> ar r = eo r -> ~ In Bad (abs s0 r) ->
  exists full r', mini_read s0 r = Ok (full, r') /\ rinv s0 r' /\ abs s0 r' = abs s0 r /\ alloc r' = alloc r /\
    Msr r' <= Msr r /\ (rb r = [] -> 0 < length (rb r') -> Msr r' < Msr r) /\
    (ar r < length (rb r) -> ar r' < length (rb r')) /\
    (ar r = 0 -> ar r' = 0) /\
    (full = true -> 5 <= length (rb r') - ar r' /\ (eo r' = ar r' -> real_mark s0 (skipn (ar r') (rb r'))) /\
       (eo r' + 6 <= length (rb r') -> real_mark s0 (skipn (eo r') (rb r'))) /\
       (length (rb r') - ar r' < 6 -> slice (ar r') (eo r') (rb r') = fixed s0)) /\
    (full = false -> rest_below r' = [] /\ reof r' = true /\ length (rb r') - ar r' <= 5) /\
    (reof r' = true -> reof r = true \/ full = false).
Proof.
  intros s0 r Hs (H1 & H2 & H3 & H4) He Hb. unfold mini_read.
  assert (Ab : abs s0 r = parse s0 (skipn (ar r) (rb r) ++ rest_below r)).
  { unfold abs. rewrite <- He, slice_same. reflexivity. }
  unfold SEQ_LEN.
  destruct (Nat.ltb_spec (length (rb r) - ar r) 6) as [L|L].
  - (* rebase if needed *)
    assert (Rb : exists r1, (if alloc r <=? ar r + 6 then
        if ar r <? 6 then Err Ebug
        else if eo r <? ar r then Err Ebug
        else Ok (mk_r (skipn (ar r) (rb r)) 0 (eo r - ar r) (reof r) (alloc r) (cnt r) (r_below r))
      else Ok r) = Ok r1 /\ skipn (ar r1) (rb r1) = skipn (ar r) (rb r) /\ length (rb r1) - ar r1 = length (rb r) - ar r /\
      ar r1 <= length (rb r1) /\ eo r1 = ar r1 /\ reof r1 = reof r /\ alloc r1 = alloc r /\ r_below r1 = r_below r /\
      (ar r = 0 -> ar r1 = 0)).
    { destruct (Nat.leb_spec (alloc r) (ar r + 6)).
      - destruct (Nat.ltb_spec (ar r) 6); [lia|]. destruct (Nat.ltb_spec (eo r) (ar r)); [lia|].
        eexists. split; [reflexivity|]. cbn [ar rb eo reof alloc r_below skipn]. rewrite skipn_length. repeat split; lia.
      - exists r. repeat split; auto; lia. }
    destruct Rb as (r1 & -> & S1 & L1 & A1 & E1 & R1 & Al1 & B1 & Z1). cbn [bind].
    destruct (Nat.ltb_spec (length (rb r1)) (eo r1)); [lia|].
    rewrite B1. pose proof (g_read_rest (6 - (length (rb r) - ar r)) (r_below r)) as G.
    destruct (g_read (6 - (length (rb r) - ar r)) (r_below r)) as [got below]. destruct G as (G1 & G2 & G3 & G4).
    rewrite E1, skipn_app. replace (ar r1 - length (rb r1)) with 0 by lia. cbn [skipn].
    assert (Ab1 : abs s0 r = parse s0 ((skipn (ar r1) (rb r1) ++ got) ++ skipn (fpos below) (fdata below))).
    { rewrite Ab, S1. unfold rest_below. rewrite G1, app_assoc. reflexivity. }
    destruct (remove_spec s0 (skipn (ar r1) (rb r1) ++ got) (skipn (fpos below) (fdata below)) Hs) as (off & delta & tail & -> & O1 & O2 & O3 & O4 & O5 & O6).
    { rewrite <- Ab1. exact Hb. }
    cbn [bind]. rewrite app_length in O2. rewrite S1, skipn_length in O2.
    set (r2 := mk_r (firstn (ar r1) (rb r1 ++ got) ++ tail) (ar r1) (ar r1 + off) (reof r1) (alloc r1) (cnt r1 + delta) below).
    assert (Lf : length (firstn (ar r1) (rb r1 ++ got)) = ar r1) by (rewrite firstn_length, app_length; lia).
    assert (Sk2 : forall k, skipn (ar r1 + k) (firstn (ar r1) (rb r1 ++ got) ++ tail) = skipn k tail).
    { intro k. rewrite Nat.add_comm, <- skipn_skipn. f_equal. apply skipn_app_exact_n. auto. }
    assert (Sk0 : skipn (ar r1) (firstn (ar r1) (rb r1 ++ got) ++ tail) = tail) by (apply skipn_app_exact_n; auto).
    assert (A2 : forall e al c, abs s0 (mk_r (firstn (ar r1) (rb r1 ++ got) ++ tail) (ar r1) (ar r1 + off) e al c below) = abs s0 r).
    { intros e al c. unfold abs at 1. cbn [ar eo rb]. unfold slice. rewrite Sk2, Sk0. unfold rest_below. cbn [r_below].
      replace (ar r1 + off - ar r1) with off by lia. rewrite Ab1, O3. reflexivity. }
    assert (Lt : length (firstn (ar r1) (rb r1 ++ got) ++ tail) = ar r1 + length tail) by (rewrite app_length; lia).
    assert (Rst : length (rest_below r) = length got + length (skipn (fpos below) (fdata below))).
    { unfold rest_below. rewrite G1, app_length. reflexivity. }
    assert (I2 : forall e, (e = true -> skipn (fpos below) (fdata below) = [] \/ (reof r = true)) ->
       rinv s0 (mk_r (firstn (ar r1) (rb r1 ++ got) ++ tail) (ar r1) (ar r1 + off) e (alloc r1) (cnt r1 + delta) below)).
    { intros e Hx. unfold rinv, rest_below. cbn [ar eo rb alloc reof r_below]. rewrite Lt, Sk2. split; [lia|]. split; [lia|].
      split; [intro; apply O4; lia|]. intro Q. destruct (Hx Q) as [Q1|Q1]; [auto|].
      destruct (H4 Q1) as [Q2|Q2].
      - left. unfold rest_below in Q2. rewrite G1 in Q2. apply app_eq_nil in Q2. tauto.
      - apply real_mark_len in Q2. rewrite skipn_length in Q2. lia. }
    assert (Av : length (rb r1 ++ got) - ar r1 = length (rb r) - ar r + length got) by (rewrite app_length; lia).
    rewrite Av.
    destruct (Nat.ltb_spec (length (rb r) - ar r + length got) 6) as [L6|L6].
    + eexists false, _. split; [reflexivity|]. unfold set_eof, r2. cbn [rb ar eo reof alloc cnt r_below].
      split; [apply I2; intros _; left; apply G3; lia|]. split; [apply A2|]. split; [exact Al1|].
      unfold Msr, rest_below. cbn [rb ar r_below]. fold (rest_below r). rewrite Lt, Rst.
      assert (skipn (fpos below) (fdata below) = []) as -> by (apply G3; lia). cbn [length].
      split; [lia|]. split; [intros Q1; rewrite Q1 in *; cbn [length] in *; lia|]. split; [intro; destruct (Nat.eq_dec delta 0); [lia|assert (5 <= off) by (apply O5; lia); lia]|].
      split; [auto|]. split; [discriminate|]. split; [|auto]. intros _. split; [reflexivity|]. split; [reflexivity|]. lia.
    + eexists true, _. split; [reflexivity|]. unfold r2. cbn [rb ar eo reof alloc cnt r_below].
      split; [apply I2; rewrite R1; auto|]. split; [apply A2|]. split; [exact Al1|].
      unfold Msr, rest_below. cbn [rb ar r_below]. fold (rest_below r). rewrite Lt, Rst.
      assert (Five : 5 <= length tail) by (destruct (Nat.eq_dec delta 0); [lia|assert (5 <= off) by (apply O5; lia); lia]).
      split; [lia|]. split; [intros Q1; rewrite Q1 in *; cbn [length] in *; lia|]. split; [lia|].
      split; [auto|]. split; [|split; [discriminate|rewrite R1; auto]]. intros _. split; [lia|].
      split; [|split; [rewrite Sk2; intro Q; apply O4; lia|]].
      2:{ intro Q. unfold slice. rewrite Sk0. destruct O6 as [O6 O7]; [lia|lia|]. rewrite O6, O7.
          replace (ar r1 + 5 - ar r1) with 5 by lia. reflexivity. }
      intro Q. assert (off = 0) by lia. subst off.
      assert (delta = 0) by (destruct (Nat.eq_dec delta 0); [auto|assert (5 <= 0) by (apply O5; lia); lia]).
      rewrite Sk0. apply (O4 ltac:(lia)). lia.
  - (* enough bytes already there *)
    destruct (Nat.eqb_spec (eo r) (ar r)) as [_|]; [|lia].
    assert (C : cmp5 s0 (skipn (eo r) (rb r)) <> Mismatch) by (apply H3; lia).
    destruct (amorce_cases s0 (skipn (eo r) (rb r))) as [(q & Sk)|[S _]]; auto.
    { intro Q. apply (f_equal (@length N)) in Q. rewrite skipn_length in Q. cbn in Q. lia. }
    2:{ rewrite skipn_length in S. lia. }
    assert (exists c z, q = c :: z) as (c & z & ->).
    { destruct q as [|c z]; [|eauto]. apply (f_equal (@length N)) in Sk. rewrite skipn_length in Sk. cbn in Sk. lia. }
    assert (Nc : nth (eo r + 5) (rb r) 0%N = c).
    { rewrite <- (firstn_skipn (eo r) (rb r)), Sk. rewrite app_nth2 by (rewrite firstn_length; lia).
      rewrite firstn_length. replace (eo r + 5 - Nat.min (eo r) (length (rb r))) with 5 by lia. reflexivity. }
    rewrite Nc. pose proof Hb as Hb'. rewrite Ab, He, Sk in Hb'.
    replace ((fixed s0 ++ c :: z) ++ rest_below r) with (fixed s0 ++ c :: (z ++ rest_below r)) in Hb' by reflexivity.
    rewrite parse_seq in Hb'. destruct (char2type c) as [t|e] eqn:Ct; [|exfalso; apply Hb'; left; reflexivity].
    cbn [bind]. unfold seqt_eqb. destruct (seqt_eq_dec t seqt_not_a_sequence) as [->|Ht].
    + destruct (remove_spec s0 (skipn (ar r) (rb r)) (rest_below r) Hs) as (off & delta & tail & E & O1 & O2 & O3 & O4 & O5 & O6).
      { rewrite <- Ab. exact Hb. }
      rewrite E. cbn [bind]. rewrite skipn_length in O2.
      assert (Hd : off <> 0).
      { intros ->. assert (delta = 0) by (destruct (Nat.eq_dec delta 0); [auto|assert (5 <= 0) by (apply O5; lia); lia]).
        destruct (O4 ltac:(lia)) as [_ Q]. specialize (Q ltac:(lia)). destruct Q as (t & q & Ht & Q).
        cbn [skipn] in Q. specialize (O3 []). rewrite !app_nil_r in O3. cbn [firstn map app skipn] in O3.
        rewrite Q in O3. rewrite parse_mark in O3 by auto. rewrite He, Sk, parse_seq, Ct in O3. cbn in O3. congruence. }
      assert (Lf : length (firstn (ar r) (rb r)) = ar r) by (rewrite firstn_length; lia).
      assert (Sk0 : skipn (ar r) (firstn (ar r) (rb r) ++ tail) = tail) by (apply skipn_app_exact_n; auto).
      assert (Sk2 : forall k, skipn (ar r + k) (firstn (ar r) (rb r) ++ tail) = skipn k tail).
      { intro k. rewrite Nat.add_comm, <- skipn_skipn, Sk0. reflexivity. }
      assert (Lt : length (firstn (ar r) (rb r) ++ tail) = ar r + length tail) by (rewrite app_length; lia).
      assert (Five : 5 <= length tail) by (destruct (Nat.eq_dec delta 0); [lia|assert (5 <= off) by (apply O5; lia); lia]).
      assert (Hreof : reof r = true -> rest_below r = []).
      { intro Q. destruct (H4 Q) as [Q1|(t & q & Ht & Q1)]; auto. rewrite Sk in Q1. cbn [fixed app] in Q1.
        injection Q1 as Q1 _. rewrite Q1, char2type_type2char in Ct. injection Ct as ->. congruence. }
      eexists true, _. split; [reflexivity|]. split.
      { unfold rinv, rest_below. cbn [ar eo rb alloc reof r_below]. fold (rest_below r). rewrite Lt, Sk2. split; [lia|]. split; [lia|].
        split; [intro; apply O4; lia|]. auto. }
      split. { rewrite Ab, O3. unfold abs, rest_below. cbn [ar eo rb r_below]. unfold slice. rewrite Sk2, Sk0.
               replace (ar r + off - ar r) with off by lia. reflexivity. }
      split; [reflexivity|]. unfold Msr, rest_below. cbn [ar rb eo reof r_below]. rewrite Lt.
      split; [lia|]. split; [intros Q1; rewrite Q1 in *; cbn [length] in *; lia|]. split; [lia|]. split; [auto|].
      split; [|split; [discriminate|auto]]. intros _. split; [lia|]. split; [lia|]. split; [rewrite Sk2; intro Q; apply O4; lia|].
      intro Q. unfold slice. rewrite Sk0. destruct O6 as [O6 O7]; [lia|lia|]. rewrite O6, O7.
      replace (ar r + 5 - ar r) with 5 by lia. reflexivity.
    + eexists true, _. split; [reflexivity|]. split; [split; [lia|]; auto|]. split; [reflexivity|]. split; [reflexivity|].
      split; [lia|]. split; [intros Q1; exfalso; rewrite Q1 in L; cbn [length] in L; lia|]. split; [lia|]. split; [auto|]. split; [|split; [discriminate|auto]].
      intros _. split; [lia|].
      assert (Rm : real_mark s0 (skipn (eo r) (rb r))) by (exists t, z; split; auto; rewrite Sk; apply char2type_inv in Ct; rewrite Ct; reflexivity).
      rewrite He. split; [auto|]. split; [auto|]. rewrite <- He. lia.
Qed.
