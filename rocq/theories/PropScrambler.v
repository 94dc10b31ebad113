(** * Property C13: scrambling is invertible at every position. *)
From Verif Require Import Base FileModel ClientSpec ScramblerModel.
Open Scope nat_scope.

Definition key_ok (key : list N) : Prop := key <> [] /\ bytes_ok key.
(** content of the hidden file for the clear content [d]: byte i is shifted by key byte (i mod length) *)
Fixpoint hide (key : list N) (i : nat) (d : list N) : list N :=
  match d with [] => [] | b :: r => ((b + nth (i mod length key) key 0) mod 256)%N :: hide key (S i) r end.

Lemma hide_length : forall key d i, length (hide key i d) = length d.
Proof. induction d; intros; cbn; auto. Qed.
Lemma hide_app : forall key a i b, hide key i (a ++ b) = hide key i a ++ hide key (i + length a) b.
Proof.
  induction a as [|x a IH]; intros i b; cbn [app hide length]; [rewrite Nat.add_0_r; reflexivity|].
  rewrite IH. do 3 f_equal. lia.
Qed.
Lemma hide_firstn : forall key n d i, firstn n (hide key i d) = hide key i (firstn n d).
Proof. induction n; intros [|x d] i; cbn; auto. rewrite IHn. reflexivity. Qed.
Lemma hide_skipn : forall key n d i, skipn n (hide key i d) = hide key (i + n) (skipn n d).
Proof.
  induction n as [|n IH]; intros d i; [rewrite Nat.add_0_r; reflexivity|]. destruct d as [|x d]; [reflexivity|].
  cbn [hide skipn]. rewrite IH. f_equal. lia.
Qed.

Lemma succ_mod : forall i l, l <> 0 -> (i mod l + 1) mod l = S i mod l.
Proof. intros i l H. rewrite Nat.add_mod_idemp_l by auto. f_equal. lia. Qed.
Lemma sc_enc_hide : forall key a i, key <> [] -> sc_loop sc_enc key (i mod length key) a = hide key i a.
Proof.
  intros key a. induction a as [|b a IH]; intros i H; cbn [sc_loop hide]; auto.
  assert (length key <> 0) by (destruct key; [congruence|discriminate]).
  rewrite succ_mod by auto. rewrite IH by auto. reflexivity.
Qed.
Lemma nth_byte : forall key i, bytes_ok key -> (nth i key 0 < 256)%N.
Proof.
  intros key i H. destruct (Nat.le_gt_cases (length key) i); [rewrite nth_overflow by auto; lia|].
  unfold bytes_ok in H. rewrite Forall_forall in H. apply H. apply nth_In. auto.
Qed.
Lemma dec_enc : forall b k, (b < 256)%N -> (k < 256)%N -> sc_dec ((b + k) mod 256) k = b.
Proof.
  intros b k Hb Hk. unfold sc_dec. rewrite N2Z.inj_mod, N2Z.inj_add. change (Z.of_N 256) with 256%Z.
  assert (B : (0 <= Z.of_N b < 256)%Z) by lia. assert (K : (0 <= Z.of_N k < 256)%Z) by lia.
  set (zb := Z.of_N b) in *. set (zk := Z.of_N k) in *.
  assert (Q : Z.rem ((zb + zk) mod 256 - zk) 256 = ((zb + zk) mod 256 - zk)%Z).
  { pose proof (Z.mod_pos_bound (zb + zk) 256 ltac:(lia)). 
    destruct (Z.le_gt_cases 0 ((zb + zk) mod 256 - zk)).
    - apply Z.rem_small. lia.
    - rewrite <- (Z.opp_involutive ((zb + zk) mod 256 - zk)), Z.rem_opp_l by lia. f_equal. apply Z.rem_small. lia. }
  rewrite Q. assert (((zb + zk) mod 256 - zk) mod 256 = zb)%Z as -> by lia. unfold zb. apply N2Z.id.
Qed.
Lemma sc_dec_hide : forall key a i, key_ok key -> bytes_ok a -> sc_loop sc_dec key (i mod length key) (hide key i a) = a.
Proof.
  intros key a. induction a as [|b a IH]; intros i [H1 H2] Ha; cbn [sc_loop hide]; auto.
  assert (length key <> 0) by (destruct key; [congruence|discriminate]).
  inversion Ha as [|? ? Hb Ha']; subst. rewrite succ_mod by auto. rewrite IH by (auto; split; auto).
  f_equal. apply dec_enc; [exact Hb|apply nth_byte; auto].
Qed.

(** the hidden file of a clear file *)
Definition hidden (key : list N) (f : gfile) : gfile := mk_file (hide key 0 (fdata f)) (fpos f).

Lemma bytes_ok_app2 : forall a b, bytes_ok a -> bytes_ok b -> bytes_ok (a ++ b).
Proof. intros a b Ha Hb. apply Forall_app. auto. Qed.
Lemma sc_op_spec : forall key o f, key_ok key -> bytes_ok (fdata f) -> op_bytes o ->
  (match o with GWrite a => a = [] \/ fpos f <= length (fdata f) | _ => True end) ->
  sc_op key o (hidden key f) = (fst (g_op o f), hidden key (snd (g_op o f))) /\ bytes_ok (fdata (snd (g_op o f))).
Proof.
  intros key o f Hk Hf Ho Hh. destruct o as [n|a|p| |x|]; cbn [sc_op g_op].
  - unfold sc_read, g_read. cbn [hidden fpos fdata fst snd].
    rewrite hide_skipn, hide_firstn. cbn [Nat.add]. rewrite sc_dec_hide, hide_length; auto.
    apply bytes_ok_firstn, bytes_ok_skipn. exact Hf.
  - unfold sc_write. cbn [hidden fpos fst snd]. rewrite sc_enc_hide by apply Hk.
    destruct a as [|b a].
    + cbn [hide g_write]. auto.
    + destruct Hh as [Hh|Hh]; [discriminate|].
      unfold g_write. cbn [hide fpos fdata]. unfold hidden. cbn [fdata fpos].
      assert (Q : forall w, overwrite (hide key 0 (fdata f)) (fpos f) (hide key (fpos f) w) = hide key 0 (overwrite (fdata f) (fpos f) w)).
      { intro w. unfold overwrite. rewrite !hide_length. replace (fpos f - length (fdata f)) with 0 by lia. cbn [repeat app].
        rewrite hide_app, hide_app, hide_firstn, hide_skipn. rewrite firstn_length. cbn [Nat.add].
        replace (Nat.min (fpos f) (length (fdata f))) with (fpos f) by lia. reflexivity. }
      specialize (Q (b :: a)). cbn [hide] in Q. rewrite Q. cbn [length]. rewrite hide_length. split; [reflexivity|].
      unfold overwrite. replace (fpos f - length (fdata f)) with 0 by lia. cbn [repeat app].
      apply bytes_ok_app2; [apply bytes_ok_firstn; auto|]. change (b :: a ++ ?z) with ((b :: a) ++ z).
      apply (bytes_ok_app2 (b :: a)); [exact Ho|apply bytes_ok_skipn; auto].
  - auto.
  - cbn [fst snd]. unfold g_skip_eof, hidden. cbn [fdata fpos]. rewrite hide_length. auto.
  - unfold g_skip_relative, hidden. cbn [fdata fpos]. destruct (Z.of_nat (fpos f) + x <? 0)%Z; auto.
  - auto.
Qed.

(** C13: whatever the key, a client of the scrambler sees exactly the plain file, for every sequence of reads, writes (cut
    in any way), and moves, starting from any content and position. *)
Theorem C13_scrambler_transparent : forall pass ops f key, sc_new pass = Ok key -> bytes_ok pass ->
  bytes_ok (fdata f) -> Forall op_bytes ops -> no_hole ops f ->
  sc_run key ops (hidden key f) = (fst (g_run ops f), hidden key (snd (g_run ops f))).
Proof.
  intros pass ops f key Hn Hp.
  assert (Hk : key_ok key).
  { destruct pass; [discriminate|]. injection Hn as <-. split; [discriminate|exact Hp]. }
  clear Hn. revert f. induction ops as [|o ops IH]; intros f Hf Ho Hh; [reflexivity|].
  inversion Ho as [|? ? Ho1 Ho2]; subst. destruct Hh as [Hh1 Hh2]. cbn [sc_run g_run].
  destruct (sc_op_spec key o f Hk Hf Ho1 Hh1) as [E Hb]. rewrite E.
  destruct (g_op o f) as [a f1]. cbn [fst snd] in *. rewrite (IH f1 Hb Ho2 Hh2).
  destruct (g_run ops f1) as [l f2]. reflexivity.
Qed.
Print Assumptions C13_scrambler_transparent.

(** in particular: what was written anywhere in the file is read back, whatever the key *)
Theorem C13_write_then_read : forall pass key f a, sc_new pass = Ok key -> bytes_ok pass -> bytes_ok (fdata f) -> bytes_ok a ->
  fpos f <= length (fdata f) ->
  fst (sc_run key [GWrite a; GSkip (fpos f); GRead (length a)] (hidden key f)) = [OUnit; OBool true; OData a].
Proof.
  intros pass key f a Hn Hp Hf Ha Hin.
  rewrite (C13_scrambler_transparent pass _ f key Hn Hp Hf); [|repeat constructor; auto|cbn; auto].
  cbn [fst g_run g_op]. unfold g_read, g_skip. cbn [fpos fdata fst]. do 4 f_equal.
  destruct a as [|b a]; [reflexivity|].
  unfold g_write. cbn [fdata]. unfold overwrite. replace (fpos f - length (fdata f)) with 0 by lia. cbn [repeat].
  rewrite app_nil_l, skipn_app, firstn_length. replace (Nat.min (fpos f) (length (fdata f))) with (fpos f) by lia.
  rewrite Nat.sub_diag, skipn_all2 by (rewrite firstn_length; lia). rewrite app_nil_l. cbn [skipn].
  apply firstn_app_exact.
Qed.
Print Assumptions C13_write_then_read.
Theorem C13_empty_key_refused : sc_new [] = Err Erange.
Proof. reflexivity. Qed.
(** after the end of file a hole appears, which the plain file fills with zeros: they are not the zeros of a clear file *)
Theorem C13_hole_refuted : exists key ops f, key_ok key /\ bytes_ok (fdata f) /\ Forall op_bytes ops /\
  fst (sc_run key ops (hidden key f)) <> fst (g_run ops f).
Proof.
  exists [1]%N, [GSkip 2; GWrite [5]%N; GSkip 0; GRead 3], (mk_file [] 0). split; [split; [discriminate|repeat constructor; reflexivity]|].
  split; [constructor|]. split; [repeat constructor; reflexivity|]. vm_compute. intro H. discriminate.
Qed.

Example C13_instance : let key := [200; 3; 7]%N in sc_new key = Ok key /\
  let ops := [GWrite [1; 2]%N; GWrite [255; 0; 4]%N; GSkip 1; GRead 3; GPos; GRel (-2); GRead 9] in
  let f := mk_file [9; 9; 9; 9]%N 1 in no_hole ops f /\ Forall op_bytes ops /\
  fst (sc_run key ops (hidden key f)) = [OUnit; OUnit; OBool true; OData [1; 2; 255]; OPos 4; OBool true; OData [2; 255; 0; 4]]%N.
Proof.
  cbn zeta. split; [reflexivity|]. split; [cbn; lia|]. split; [repeat constructor; reflexivity|]. reflexivity.
Qed.
