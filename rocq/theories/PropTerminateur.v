(** * Property C10: the terminator at the end of an archive always leads to the catalogue. *)
From Verif Require Import Base InfinintModel InfinintProof InfinintProof2 FileModel ElasticModel ElasticProof TerminateurModel TerminateurProof.
Open Scope N_scope.

(** [f] ends by a terminator written there by dump() *)
Definition appended (pos : N) (f : gfile) : gfile := term_dump pos (g_skip_eof f).

Lemma overwrite_eof : forall data w, overwrite data (length data) w = data ++ w.
Proof.
  intros data w. unfold overwrite. rewrite firstn_all, Nat.sub_diag. cbn [repeat app].
  rewrite skipn_all2 by lia. rewrite app_nil_r. reflexivity.
Qed.
Lemma appended_data : forall pos f, fdata (appended pos f) = fdata f ++ term_bytes pos.
Proof.
  intros pos f. unfold appended, term_dump, g_write, g_skip_eof. cbn [fdata fpos].
  destruct (term_bytes pos) eqn:E.
  - destruct (term_bytes_shape pos) as (pad & a & Sh & _). rewrite Sh in E.
    apply app_eq_nil in E. destruct E as [E _]. apply dumpN_ne in E. contradiction.
  - cbn [fdata]. apply overwrite_eof.
Qed.
Lemma blocks_small : forall pos, N.of_nat (length (dumpN pos)) <= 2 ^ 31 - 4 -> blocks pos < 2 ^ 29.
Proof. intros pos H. unfold blocks. change (2 ^ 31) with 2147483648 in H. change (2 ^ 29) with 536870912. lia. Qed.

(** Whatever the archive contains before, and wherever its file position is, the position given to dump() is
    returned, and the reported start of the terminator is where dump() started. The size bound is that of an
    int counting the bytes of the stored position: any position below 256^(2^30-6) satisfies it (next theorem
    gives 64-bit positions as an instance). *)
Theorem C10_terminator_found : forall f pos p, N.of_nat (length (dumpN pos)) <= 2 ^ 31 - 4 ->
  read_catalogue (g_skip p (appended pos f)) None 0 = Ok (pos, length (fdata f)).
Proof.
  intros f pos p H. unfold read_catalogue. change (0 =? 0) with true. cbn iota. cbn [bind].
  apply (read_after pos (fdata f) []).
  - apply blocks_small; auto.
  - unfold g_skip_eof, g_skip. cbn [fdata]. rewrite appended_data, app_nil_r. reflexivity.
  - unfold g_skip_eof, g_skip. cbn [fpos fdata]. rewrite appended_data, app_length. reflexivity.
Qed.
Print Assumptions C10_terminator_found.

Theorem C10_any_64bit_position : forall f pos p, pos < 2 ^ 64 ->
  read_catalogue (g_skip p (appended pos f)) None 0 = Ok (pos, length (fdata f)).
Proof.
  intros f pos p H. apply C10_terminator_found.
  assert (length (dumpN pos) <= 2 * 8 + 8)%nat by (apply dumpN_length; [exact H|lia]).
  change (2 ^ 31) with 2147483648. lia.
Qed.
Print Assumptions C10_any_64bit_position.

(** the same when reading starts at an intermediate place (where_from), whatever follows *)
Theorem C10_terminator_inside : forall pre pos post p, N.of_nat (length (dumpN pos)) <= 2 ^ 31 - 4 ->
  read_catalogue (mk_file (pre ++ term_bytes pos ++ post) p) None (N.of_nat (length pre + length (term_bytes pos)))
  = Ok (pos, length pre).
Proof.
  intros pre pos post p H. unfold read_catalogue.
  assert (Hl : length (term_bytes pos) <> 0%nat).
  { destruct (term_bytes_shape pos) as (pad & a & Sh & _). rewrite Sh, !app_length. cbn [length]. lia. }
  destruct (N.eqb_spec (N.of_nat (length pre + length (term_bytes pos))) 0); [lia|]. cbn [bind].
  apply (read_after pos pre post).
  - apply blocks_small; auto.
  - reflexivity.
  - unfold g_skip. cbn [fpos]. lia.
Qed.
Print Assumptions C10_terminator_inside.

(** encrypted archives: a final elastic buffer of any content is skipped *)
Theorem C10_terminator_before_elastic : forall pre pos p t size r draws e,
  N.of_nat (length (dumpN pos)) <= 2 ^ 31 - 4 ->
  elastic_create t = Ok t -> t < 2 ^ 31 -> elastic_dump t size r draws = Ok e ->
  read_catalogue (mk_file (pre ++ term_bytes pos ++ e) p) (Some false) 0 = Ok (pos, length pre).
Proof.
  intros pre pos p t size r draws e H C Ht D. unfold read_catalogue. change (0 =? 0) with true. cbn iota.
  pose proof (dump_shape _ _ _ _ _ C D) as S. pose proof (shape_length _ _ S) as L. change (2 ^ 31) with 2147483648 in Ht.
  unfold g_skip_eof. cbn [fdata].
  destruct (elastic_read_shape backward (mk_file (pre ++ term_bytes pos ++ e) (length (pre ++ term_bytes pos ++ e))) t e (rev (pre ++ term_bytes pos)))
    as (c & P & Q & _ & E); auto.
  - unfold in_file. cbn. lia.
  - unfold max_length. lia.
  - cbn [view fdata fpos oriented]. rewrite firstn_all, app_assoc, rev_app_distr. reflexivity.
  - rewrite E. cbn [bind]. rewrite final_skip_ok; [|lia|lia| |].
    + rewrite moved_moved. apply (read_after pos pre e); [apply blocks_small; auto|reflexivity|].
      unfold moved. cbn [fdata fpos]. rewrite !app_length. lia.
    + unfold in_file, moved. cbn [fdata fpos]. lia.
    + intros _. unfold moved. cbn [fpos fdata]. rewrite !app_length. lia.
Qed.
Print Assumptions C10_terminator_before_elastic.

(** ** damaged ends of archive *)
(** the last byte before the run of 0xFF, when written by dump(): [n] bits set, from the highest one *)
Definition unary (n : N) : N := 256 - 2 ^ (8 - n).
Lemma term_bits_err : forall k a o o' e, term_bits k a o = Err e -> term_bits k a o' = Err e.
Proof.
  induction k as [|k IH]; intros a o o' e H; cbn [term_bits] in *; [exact H|]. destruct (a =? 0); [discriminate|]. destruct (N.land a 128 =? 0); [exact H|]. eapply IH; exact H.
Qed.
Lemma term_bits_all : forall b, b < 255 -> (exists n, n < 8 /\ b = unary n /\ forall o, term_bits 9 b o = Ok (o + n)) \/ (forall n, n < 8 -> b <> unary n) /\ forall o, term_bits 9 b o = Err Erange.
Proof.
  intros b Hb. destruct (existsb (N.eqb b) (map unary [0; 1; 2; 3; 4; 5; 6; 7])) eqn:X.
  - left. apply existsb_exists in X. destruct X as (u & Hu & E). apply N.eqb_eq in E. subst u. apply in_map_iff in Hu. destruct Hu as (n & <- & Hn). exists n.
    assert (L : n < 8) by (cbn in Hn; intuition lia). split; [exact L|]. split; [reflexivity|]. intro o. cbn in Hn. repeat (destruct Hn as [<-|Hn]); try contradiction; lazy -[N.add]; f_equal; lia.
  - right. split.
    + intros n Hn ->. assert (In n [0; 1; 2; 3; 4; 5; 6; 7]) by (cbn; lia). assert (existsb (N.eqb (unary n)) (map unary [0; 1; 2; 3; 4; 5; 6; 7]) = true) by (apply existsb_exists; exists (unary n); split; [apply in_map; auto|apply N.eqb_refl]). congruence.
    + intro o. apply term_bits_err with (o := 0).
      assert (A : forallb (fun i => existsb (N.eqb (N.of_nat i)) (map unary [0; 1; 2; 3; 4; 5; 6; 7]) || match term_bits 9 (N.of_nat i) 0 with Err Erange => true | _ => false end) (seq 0 255) = true) by (vm_compute; reflexivity).
      rewrite forallb_forall in A. specialize (A (N.to_nat b) ltac:(apply in_seq; lia)). rewrite N2Nat.id in A. rewrite X in A. cbn [orb] in A.
      destruct (term_bits 9 b 0) as [?|[]]; try discriminate. reflexivity.
Qed.
Lemma rev_repeat : forall (A : Type) (x : A) q, rev (repeat x q) = repeat x q.
Proof. intros A x q. induction q as [|q IH]; cbn [repeat rev]; auto. rewrite IH. clear. induction q as [|q IH]; cbn; congruence. Qed.
Lemma scan_run : forall pre b q p, b <> 255 -> N.of_nat q < 2147483648 ->
  term_scan (S (length (pre ++ b :: repeat 255 q))) (g_skip_eof (mk_file (pre ++ b :: repeat 255 q) p)) 0 = Ok (N.of_nat q, b, mk_file (pre ++ b :: repeat 255 q) (length pre)).
Proof.
  intros pre b q p Hb Hq. unfold g_skip_eof. cbn [fdata]. set (l := pre ++ b :: repeat 255 q). assert (L : length l = (length pre + 1 + q)%nat) by (unfold l; rewrite app_length; cbn [length]; rewrite repeat_length; lia).
  destruct (term_scan_ok q (S (length l)) (mk_file l (length l)) 0 b (rev pre)) as (E & _).
  - unfold in_file. cbn. lia.
  - cbn [view fdata fpos]. rewrite firstn_all. unfold l. rewrite rev_app_distr. cbn [rev]. rewrite rev_repeat, <- app_assoc. reflexivity.
  - exact Hb.
  - lia.
  - lia.
  - rewrite E, N.add_0_l. unfold moved. cbn [fdata fpos]. do 3 f_equal. lia.
Qed.
(** An archive that ends otherwise than a terminator can is refused: the byte before the run of 0xFF is none of the eight
    possible ones, or the terminator would start before the beginning of the file. ([q] 0xFF bytes stand for 32 q bytes of
    catalogue position, the bound is that of the int counting them.) *)
Theorem C10_damaged_refused : forall pre b q p, b < 255 -> N.of_nat q < 2 ^ 25 ->
  (forall n, n < 8 -> b = unary n -> N.of_nat (length pre) < 4 * (8 * N.of_nat q + n)) ->
  read_catalogue (mk_file (pre ++ b :: repeat 255 q) p) None 0 = Err Erange.
Proof.
  intros pre b q p Hb Hq H. change (2 ^ 25) with 33554432 in Hq. unfold read_catalogue. change (0 =? 0) with true. cbn iota. cbn [bind]. change (fdata (g_skip_eof (mk_file (pre ++ b :: repeat 255 q) p))) with (pre ++ b :: repeat 255 q).
  rewrite scan_run by lia. cbn [bind]. unfold S_I_ok. replace (N.of_nat q * 8 <? 2147483648) with true by lia. cbn [bind].
  destruct (term_bits_all b Hb) as [(n & Hn & E & Hb')|(_ & Hb')]; rewrite Hb'; cbn [bind]; [|reflexivity].
  replace (N.of_nat q * 8 + n <? 2147483648) with true by lia. cbn [bind]. unfold BLOCK_SIZE. replace ((N.of_nat q * 8 + n) * 4 <? 2147483648) with true by lia. cbn [bind].
  unfold g_skip_relative. cbn [fpos fdata]. specialize (H n Hn E). replace (Z.of_nat (length pre) + - Z.of_N ((N.of_nat q * 8 + n) * 4) <? 0)%Z with true by lia. reflexivity.
Qed.
Print Assumptions C10_damaged_refused.
(** as is a file with nothing but 0xFF, or with nothing *)
Theorem C10_blank_refused : forall q p, N.of_nat q < 2 ^ 31 -> read_catalogue (mk_file (repeat 255 q) p) None 0 = Err Erange.
Proof.
  intros q p Hq. change (2 ^ 31) with 2147483648 in Hq. unfold read_catalogue, g_skip_eof. change (0 =? 0) with true. cbn iota. cbn [bind fdata].
  assert (K : forall k fuel d o, length d = q -> (forall i, (i < q)%nat -> nth_error d i = Some 255) -> (k <= q)%nat -> (k < fuel)%nat -> o + N.of_nat k < 2147483648 -> term_scan fuel (mk_file d k) o = Err Erange).
  { clear Hq. induction k as [|k IH]; intros fuel d o Ld Hd Hk Hf Ho; (destruct fuel as [|fuel]; [lia|]); cbn [term_scan]; unfold g_read_back, g_skip_relative; cbn [fpos fdata].
    - reflexivity.
    - replace (Z.of_nat (S k) + -1 <? 0)%Z with false by lia. replace (Z.to_nat (Z.of_nat (S k) + -1)) with k by lia. unfold g_read_forward. cbn [fdata fpos]. rewrite Hd by lia. cbn [fpos fdata].
      replace (Z.of_nat (S k) + -1 <? 0)%Z with false by lia. replace (Z.to_nat (Z.of_nat (S k) + -1)) with k by lia. cbn [snd]. change (255 =? 255) with true. cbn iota. unfold S_I_ok. replace (o + 1 <? 2147483648) with true by lia. cbn [bind]. apply IH; auto; lia. }
  rewrite K; auto; rewrite ?repeat_length; try lia. intros i Hi. rewrite nth_error_repeat; auto.
Qed.
Print Assumptions C10_blank_refused.
Example C10_damaged_ex : read_catalogue (mk_file [128; 0; 0; 3; 232; 0; 0; 0; 64] 0) None 0 = Err Erange /\ read_catalogue (mk_file [0; 3; 232; 0; 0; 0; 192] 0) None 0 = Err Erange.
Proof. vm_compute. auto. Qed.

Example C10_ex : term_bytes 1000 = [128; 0; 0; 3; 232; 0; 0; 0; 192].
Proof. vm_compute. reflexivity. Qed.
