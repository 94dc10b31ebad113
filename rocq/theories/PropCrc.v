(** * Properties C07 and C08: checksums. *)
From Verif Require Import Base InfinintModel InfinintProof2 CrcModel CrcProof.
Open Scope nat_scope.

(** ** Specification: byte [i] of the checksum of width [w] is the XOR of the data bytes at the offsets congruent
    to [i] modulo [w]. *)
Definition xor_all (l : list N) : N := fold_right N.lxor 0%N l.
Definition column (w i : nat) (data : list N) : list N :=
  map (fun j => nth j data 0%N) (filter (fun j => j mod w =? i) (seq 0 (length data))).
Definition checksum (w : nat) (data : list N) : list N := map (fun i => xor_all (column w i data)) (seq 0 w).

Lemma col_column_gen : forall w i data j,
  col w i j data = xor_all (map (fun k => nth (k - j) data 0%N) (filter (fun k => k mod w =? i) (seq j (length data)))).
Proof.
  intros w i data. induction data as [|b r IH]; intro j; cbn [col length seq filter]; auto.
  assert (E : xor_all (map (fun k => nth (k - S j) r 0%N) (filter (fun k => k mod w =? i) (seq (S j) (length r)))) =
              xor_all (map (fun k => nth (k - j) (b :: r) 0%N) (filter (fun k => k mod w =? i) (seq (S j) (length r))))).
  { f_equal. apply map_ext_in. intros k Hk. apply filter_In in Hk. destruct Hk as [Hk _]. apply in_seq in Hk.
    replace (k - j) with (S (k - S j)) by lia. reflexivity. }
  destruct (j mod w =? i); cbn [map xor_all fold_right]; rewrite IH, E; [|reflexivity].
  rewrite Nat.sub_diag. reflexivity.
Qed.
Lemma checksum_spec : forall w data, checksum w data = crc_spec w data.
Proof.
  intros w data. unfold checksum, crc_spec. apply map_ext. intro i. unfold column. rewrite col_column_gen.
  f_equal. apply map_ext. intro k. rewrite Nat.sub_0_r. reflexivity.
Qed.

(** C07: however the stream is cut (chunks), wherever the buffers lie in memory (their addresses), and whichever of
    the two classes is used (narrow or wide CRC), the result is the checksum of the whole stream. *)
Theorem C07_checksum_independent_of_buffering : forall w (chunks : list (N * list N)), w <> 0 ->
  exists c0 c, crc_create w = Ok c0 /\ crc_feed chunks c0 = Ok c /\ cyclic c = checksum w (concat (map snd chunks)).
Proof.
  intros w chunks Hw. assert (E : crc_create w = Ok (mk_crc (repeat 0%N w) 0)).
  { unfold crc_create. destruct (Nat.eqb_spec w 0); [contradiction|reflexivity]. }
  destruct (crc_feed_create w chunks _ E) as (c & E1 & V). eexists. exists c. split; [exact E|].
  rewrite checksum_spec. auto.
Qed.
Print Assumptions C07_checksum_independent_of_buffering.

(** positioned computation (compute(offset, ...)): pieces may come in any order and overlap; every byte counts in the
    column of its absolute offset (a piece at offset [off] counts like the same piece after [off] zero bytes) *)
Definition placed (w i : nat) (chunk : N * N * list N) : N :=
  let '(off, _, buf) := chunk in xor_all (column w i (repeat 0%N (N.to_nat off) ++ buf)).
Theorem C07_checksum_any_order : forall w (chunks : list (N * N * list N)), w <> 0 ->
  exists c0 c, crc_create w = Ok c0 /\ crc_feed_at chunks c0 = Ok c /\
    forall i, i < w -> nth i (cyclic c) 0%N = xor_all (map (placed w i) chunks).
Proof.
  intros w chunks Hw. exists (mk_crc (repeat 0%N w) 0).
  destruct (crc_feed_at_spec chunks (mk_crc (repeat 0%N w) 0)) as (c & E & S & V).
  { unfold wf, crc_size. cbn. rewrite repeat_length. lia. }
  exists c. unfold crc_create. destruct (Nat.eqb_spec w 0); [contradiction|]. split; auto. split; auto.
  unfold crc_size in V. cbn [cyclic] in V. rewrite repeat_length in V.
  intros i Hi. rewrite V by auto. rewrite nth_repeat0, N.lxor_0_l.
  clear -Hw. induction chunks as [|[[off a] buf] r IH]; cbn [col_at map xor_all fold_right]; auto.
  rewrite IH. f_equal. unfold placed, column.
  replace (N.to_nat (off mod N.of_nat w)) with (N.to_nat off mod w) by (rewrite N2Nat.inj_mod, Nat2N.id; reflexivity).
  rewrite col_offset by auto. rewrite col_column_gen. f_equal. apply map_ext. intro k. rewrite Nat.sub_0_r. reflexivity.
Qed.
Print Assumptions C07_checksum_any_order.

Theorem C07_zero_width_rejected : crc_create 0 = Err Erange.
Proof. reflexivity. Qed.
Print Assumptions C07_zero_width_rejected.

(** C08: detection of every corruption lying in a window of [w] bytes *)
Theorem C08_burst_detected : forall w d1 d2 start chunks1 chunks2 c0 c1 c2, w <> 0 ->
  crc_create w = Ok c0 ->
  concat (map snd chunks1) = d1 -> concat (map snd chunks2) = d2 ->
  crc_feed chunks1 c0 = Ok c1 -> crc_feed chunks2 c0 = Ok c2 ->
  length d1 = length d2 -> d1 <> d2 ->
  (forall k, k < length d1 -> nth k d1 0%N <> nth k d2 0%N -> start <= k < start + w) ->
  crc_eq c1 c2 = false.
Proof.
  intros w d1 d2 start ch1 ch2 c0 c1 c2 Hw E0 <- <- F1 F2 Hl Hd Hwin.
  destruct (crc_feed_create w ch1 c0 E0) as (c1' & G1 & V1). destruct (crc_feed_create w ch2 c0 E0) as (c2' & G2 & V2).
  rewrite F1 in G1. rewrite F2 in G2. injection G1 as <-. injection G2 as <-.
  destruct (crc_eq c1 c2) eqn:Q; auto. apply crc_eq_spec in Q. rewrite V1, V2 in Q. exfalso.
  exact (crc_burst w _ _ start Hw Hl Hd Hwin Q).
Qed.
Print Assumptions C08_burst_detected.

(** no false alarm: the same data always compares equal, however it was cut *)
Theorem C08_no_false_alarm : forall w ch1 ch2 c0 c1 c2, crc_create w = Ok c0 ->
  concat (map snd ch1) = concat (map snd ch2) ->
  crc_feed ch1 c0 = Ok c1 -> crc_feed ch2 c0 = Ok c2 -> crc_eq c1 c2 = true.
Proof.
  intros w ch1 ch2 c0 c1 c2 E0 Hc F1 F2.
  destruct (crc_feed_create w ch1 c0 E0) as (c1' & G1 & V1). destruct (crc_feed_create w ch2 c0 E0) as (c2' & G2 & V2).
  rewrite F1 in G1. rewrite F2 in G2. injection G1 as <-. injection G2 as <-.
  apply crc_eq_spec. congruence.
Qed.
Print Assumptions C08_no_false_alarm.

Theorem C08_dump_read : forall c rest, exists c', crc_read (crc_dump c ++ rest) false = Ok (c', rest) /\ crc_eq c c' = true.
Proof.
  intros c rest. rewrite crc_read_dump. eexists. split; [reflexivity|]. apply crc_eq_spec. reflexivity.
Qed.
Print Assumptions C08_dump_read.

(** a truncated checksum record is not always reported: crc_n leaves uninitialised bytes *)
Theorem C08_truncated_refuted : exists c p q, crc_dump c = p ++ q /\ q <> [] /\ crc_read p false = Err UB.
Proof. exists (mk_crc [1%N; 2%N] 0), (dumpN 2 ++ [1%N]), [2%N]. split; [reflexivity|]. split; [discriminate|vm_compute; reflexivity]. Qed.
Print Assumptions C08_truncated_refuted.

Example C08_example :
  crc_feed [(0, [1; 2; 3; 4; 5]); (5, [6; 7; 8; 9; 10; 11; 12; 13; 14; 15; 16; 17])]%N (mk_crc (repeat 0%N 4) 0)
  = Ok (mk_crc (checksum 4 [1; 2; 3; 4; 5; 6; 7; 8; 9; 10; 11; 12; 13; 14; 15; 16; 17]%N) 1).
Proof. vm_compute. reflexivity. Qed.
