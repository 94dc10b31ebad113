(** * Proofs about the terminator. *)
From Verif Require Import Base InfinintModel InfinintProof2 FileModel ElasticModel ElasticProof TerminateurModel.
Open Scope N_scope.

Lemma term_scan_ok : forall q fuel f offset a r, in_file f -> view backward f = repeat 255 q ++ a :: r -> a <> 255 ->
  (q < fuel)%nat -> offset + N.of_nat q < 2147483648 ->
  term_scan fuel f offset = Ok (offset + N.of_nat q, a, moved backward f (q + 1)) /\ (q + 1 <= fpos f)%nat.
Proof.
  induction q as [|q IH]; intros fuel f offset a r Hin V Ha Hf Ho; (destruct fuel as [|k]; [lia|]); cbn [repeat app] in V;
    destruct (g_step_cons backward f _ _ Hin V) as (St & V' & In' & Hp); cbn [g_step] in St; cbn [term_scan]; rewrite St.
  - destruct (N.eqb_spec a 255); [contradiction|]. rewrite N.add_0_r. split; [reflexivity|]. specialize (Hp eq_refl). lia.
  - change (255 =? 255) with true. cbn iota. unfold S_I_ok. destruct (N.ltb_spec (offset + 1) 2147483648); [|lia]. cbn [bind].
    destruct (IH k (moved backward f 1) (offset + 1) a r In' V' Ha ltac:(lia) ltac:(lia)) as (E & Hp2).
    rewrite E, moved_moved. specialize (Hp eq_refl). cbn [moved fpos] in Hp2. split; [|lia].
    replace (offset + 1 + N.of_nat q) with (offset + N.of_nat (S q)) by lia.
    replace (1 + (q + 1))%nat with (S q + 1)%nat by lia. reflexivity.
Qed.

Lemma ones_cases : forall last, last < 8 -> let a := ones (N.to_nat last) 0 in a <> 255 /\
  forall off, term_bits 9 a off = Ok (off + last).
Proof.
  intros last H.
  assert (C : last = 0 \/ last = 1 \/ last = 2 \/ last = 3 \/ last = 4 \/ last = 5 \/ last = 6 \/ last = 7) by lia.
  repeat (destruct C as [->|C]); [| | | | | | |subst last];
    (split; [vm_compute; discriminate|intro off; lazy -[N.add]; f_equal; lia]).
Qed.

(** number of 4-byte blocks of the stored position *)
Definition blocks (pos : N) : N := (N.of_nat (length (dumpN pos)) + 3) / 4.

Lemma term_bytes_shape : forall pos, exists pad a,
  term_bytes pos = dumpN pos ++ pad ++ [a] ++ repeat 255 (N.to_nat (blocks pos / 8)) /\
  N.of_nat (length (dumpN pos ++ pad)) = 4 * blocks pos /\ a <> 255 /\
  forall off, term_bits 9 a off = Ok (off + blocks pos mod 8).
Proof.
  intro pos. unfold term_bytes, blocks, BLOCK_SIZE. set (sz := N.of_nat (length (dumpN pos))) in *.
  assert (G : forall B, (if negb (B mod 8 =? 0) then ones (N.to_nat (B mod 8)) 0 else 0) = ones (N.to_nat (B mod 8)) 0).
  { intro B. destruct (N.eqb_spec (B mod 8) 0) as [->|]; reflexivity. }
  destruct (N.eqb_spec (sz mod 4) 0) as [Z|Z]; cbn [negb].
  - assert (Hb : (sz + 3) / 4 = sz / 4) by lia. rewrite Hb, G.
    destruct (ones_cases ((sz / 4) mod 8) ltac:(lia)) as [A B].
    exists [], (ones (N.to_nat ((sz / 4) mod 8)) 0). cbn [app]. repeat split; auto.
    rewrite app_nil_r. unfold sz in *. lia.
  - assert (Hb : (sz + 3) / 4 = sz / 4 + 1) by lia. rewrite Hb, G.
    destruct (ones_cases ((sz / 4 + 1) mod 8) ltac:(lia)) as [A B].
    eexists. exists (ones (N.to_nat ((sz / 4 + 1) mod 8)) 0). repeat split; eauto.
    rewrite app_length, repeat_length. unfold sz in *. lia.
Qed.

Lemma read_after : forall pos pre rest f, blocks pos < 2 ^ 29 -> fdata f = pre ++ term_bytes pos ++ rest ->
  fpos f = (length pre + length (term_bytes pos))%nat ->
  (let* '(offset, a, f) := term_scan (S (length (fdata f))) f 0 in
   let* offset := S_I_ok (offset * 8) in
   let* offset := term_bits 9 a offset in
   let* offset := S_I_ok offset in
   let* offset := S_I_ok (offset * BLOCK_SIZE) in
   let '(ok, f) := g_skip_relative (- Z.of_N offset) f in
   if negb ok then Err Erange
   else let* '(v, _) := readN (skipn (fpos f) (fdata f)) in Ok (v, fpos f)) = Ok (pos, length pre).
Proof.
  intros pos pre rest f Hb Hd Hp. change (2 ^ 29) with 536870912 in Hb.
  destruct (term_bytes_shape pos) as (pad & a & Sh & Ln & Ha & Hbits).
  set (q := N.to_nat (blocks pos / 8)) in *.
  assert (Hin : in_file f) by (unfold in_file; rewrite Hd, !app_length, Hp; lia).
  assert (V : view backward f = repeat 255 q ++ a :: rev (pre ++ dumpN pos ++ pad)).
  { unfold view. rewrite Hd, Hp, app_assoc, <- app_length, firstn_app_exact, Sh.
    replace (pre ++ dumpN pos ++ pad ++ [a] ++ repeat 255 q) with ((pre ++ dumpN pos ++ pad) ++ a :: repeat 255 q)
      by (rewrite <- !app_assoc; reflexivity).
    rewrite rev_app_distr. cbn [rev]. rewrite <- app_assoc. cbn [app]. f_equal.
    clear. induction q as [|q IH]; cbn [repeat rev]; auto. rewrite IH. clear. induction q as [|q IH]; cbn; congruence. }
  assert (Lt : length (term_bytes pos) = (length (dumpN pos ++ pad) + 1 + q)%nat).
  { rewrite Sh. rewrite !app_length, repeat_length. cbn [length]. lia. }
  destruct (term_scan_ok q (S (length (fdata f))) f 0 a _ Hin V Ha) as (E & Hq).
  { rewrite Hd, !app_length, Lt. lia. }
  { unfold q. lia. }
  rewrite E. cbn [bind]. unfold S_I_ok.
  assert (Hq2 : N.of_nat q = blocks pos / 8) by (unfold q; lia).
  destruct (N.ltb_spec ((0 + N.of_nat q) * 8) 2147483648); [|lia]. cbn [bind]. rewrite Hbits. cbn [bind].
  replace ((0 + N.of_nat q) * 8 + blocks pos mod 8) with (blocks pos) by lia.
  destruct (N.ltb_spec (blocks pos) 2147483648); [|lia]. cbn [bind]. unfold BLOCK_SIZE.
  destruct (N.ltb_spec (blocks pos * 4) 2147483648); [|lia]. cbn [bind].
  unfold g_skip_relative. unfold moved. cbn [fpos fdata]. rewrite Hp, Lt.
  replace (Z.of_nat (length pre + (length (dumpN pos ++ pad) + 1 + q) - (q + 1)) + - Z.of_N (blocks pos * 4))%Z with (Z.of_nat (length pre)) by lia.
  destruct (Z.ltb_spec (Z.of_nat (length pre)) 0); [lia|]. cbn [negb fpos fdata]. rewrite Nat2Z.id, Hd, skipn_app_exact.
  rewrite Sh, <- !app_assoc, readN_dumpN. reflexivity.
Qed.
