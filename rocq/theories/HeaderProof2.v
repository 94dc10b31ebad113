(** * Lemmas about the archive header: version, flags, strings, CRC. *)
From Verif Require Import Base NumModel InfinintModel InfinintProof InfinintProof2 CrcModel CrcProof SliceModel HeaderModel HeaderProof.
Open Scope N_scope.

(** ** archive version *)
Lemma to_digit_char : forall v, v < 256 -> to_digit (to_char v) = v.
Proof. intros v H. unfold to_digit, to_char. destruct (N.ltb_spec v 208); destruct (N.ltb_spec (v + 48) 48); destruct (N.ltb_spec (v - 208) 48); lia. Qed.
Lemma to_char_lt : forall v, v < 256 -> to_char v < 256.
Proof. intros v H. unfold to_char. destruct (N.ltb_spec v 208); lia. Qed.
Lemma av_read_dump : forall old v rest, av_version v < 65536 -> av_fix v < 256 ->
  av_read old (av_dump v ++ rest) = Ok (mk_aver (av_version v) (if 8 <=? av_version v then av_fix v else av_fix old), rest).
Proof.
  intros old [v x] rest Hv Hx. cbn [av_version av_fix] in *. unfold av_dump. cbn [av_version av_fix].
  destruct (N.leb_spec 8 v); cbn [app av_read].
  - rewrite !to_digit_char by lia. replace (v / 256 * 256 + v mod 256) with v by lia.
    replace (v <? 8) with false by (symmetry; apply N.ltb_ge; auto). reflexivity.
  - rewrite !to_digit_char by lia. replace (v / 256 * 256 + v mod 256) with v by lia.
    replace (v <? 8) with true by (symmetry; apply N.ltb_lt; auto). reflexivity.
Qed.
Lemma av_read_suffix : forall old f v r, av_read old f = Ok (v, r) -> exists enc, f = enc ++ r /\ enc <> [].
Proof.
  intros old f v r. unfold av_read. destruct f as [|a [|b [|c f]]]; try discriminate.
  destruct (_ <? 8).
  - destruct (c =? 0); [|discriminate]. intro E. assert (r = f) as -> by congruence. exists [a; b; c]. split; [reflexivity|discriminate].
  - destruct f as [|z f]; [discriminate|]. destruct (z =? 0); [|discriminate]. intro E. assert (r = f) as -> by congruence.
    exists [a; b; c; z]. split; [reflexivity|discriminate].
Qed.

(** ** flags *)
Lemma land254 : forall a, a < 256 -> N.land a 254 = a - a mod 2.
Proof.
  assert (H : forallb (fun a => N.land a 254 =? a - a mod 2) (map N.of_nat (seq 0 256)) = true) by (vm_compute; reflexivity).
  intros a Ha. apply N.eqb_eq. rewrite forallb_forall in H. apply H. apply in_map_iff. exists (N.to_nat a). split; [lia|].
  apply in_seq. lia.
Qed.
Lemma testbit0 : forall a, N.testbit a 0 = negb (a mod 2 =? 0).
Proof. intro a. rewrite N.bit0_odd, <- N.negb_even. f_equal. rewrite (N.div_mod a 2) at 1 by lia. rewrite N.add_comm, N.even_add_mul_2.
  assert (a mod 2 = 0 \/ a mod 2 = 1) as [->| ->] by lia; reflexivity. Qed.
Lemma lor_256 : forall x y, y < 256 -> N.lor (x * 256) y = x * 256 + y.
Proof. intros x y H. rewrite N.lor_comm. change 256 with (2 ^ 8). rewrite lor_disjoint by auto. lia. Qed.
Lemma flags_read_step : forall acc a f, acc < 2 ^ 56 -> a < 256 ->
  flags_read acc (a :: f) = let b := acc * 256 + (a - a mod 2) in if a mod 2 =? 0 then Ok (b, f) else flags_read b f.
Proof.
  intros acc a f Ha Hb. cbn [flags_read]. rewrite (N.mod_small (acc * 256)) by (change (2 ^ 64) with (2 ^ 56 * 256); lia).
  rewrite N.div_mul by discriminate. rewrite N.eqb_refl. rewrite testbit0, land254 by auto. rewrite lor_256 by lia.
  destruct (a mod 2 =? 0); reflexivity.
Qed.
Lemma lor_bit : forall x k, N.testbit x k = false -> N.lor x (N.shiftl 1 k) = x + 2 ^ k.
Proof.
  intros x k H. rewrite N.shiftl_1_l.
  assert (Z : N.land x (2 ^ k) = 0).
  { apply N.bits_inj. intro i. rewrite N.land_spec, N.bits_0, N.pow2_bits_eqb. destruct (N.eqb_spec k i); [subst; rewrite H; reflexivity|].
    apply andb_false_r. }
  rewrite <- N.lxor_lor by auto. symmetry. apply N.add_nocarry_lxor. auto.
Qed.
Definition flag_field_ok (bits : N) : Prop :=
  bits < 2 ^ 32 /\ N.testbit bits 0 = false /\ N.testbit bits 8 = false /\ N.testbit bits 16 = false /\ N.testbit bits 24 = false.
Lemma testbit_div : forall x k, N.testbit x k = false -> (x / 2 ^ k) mod 2 = 0.
Proof. intros x k H. pose proof (N.testbit_spec' x k) as T. rewrite H in T. cbn in T. auto. Qed.
Lemma flag_digits : forall bits, flag_field_ok bits -> exists a b c d, a < 128 /\ b < 128 /\ c < 128 /\ d < 128 /\
  bits = 2 * a + 512 * b + 131072 * c + 33554432 * d.
Proof.
  intros bits (H & H0 & H8 & H16 & H24).
  pose proof (testbit_div _ _ H0) as D0. pose proof (testbit_div _ _ H8) as D8. pose proof (testbit_div _ _ H16) as D16.
  pose proof (testbit_div _ _ H24) as D24. clear H0 H8 H16 H24.
  change (2 ^ 0) with 1 in D0. change (2 ^ 8) with 256 in D8. change (2 ^ 16) with 65536 in D16. change (2 ^ 24) with 16777216 in D24.
  change (2 ^ 32) with 4294967296 in H. rewrite N.div_1_r in D0.
  change 65536 with (256 * 256) in D16. rewrite <- N.div_div in D16 by discriminate.
  change 16777216 with (256 * 256 * 256) in D24. rewrite <- !N.div_div in D24 by discriminate.
  remember (bits / 256) as q1 eqn:Q1. remember (q1 / 256) as q2 eqn:Q2. remember (q2 / 256) as q3 eqn:Q3.
  exists (bits mod 256 / 2), (q1 mod 256 / 2), (q2 mod 256 / 2), (q3 / 2).
  assert (B0 : bits = 256 * q1 + 2 * (bits mod 256 / 2) /\ bits mod 256 / 2 < 128) by (clear - Q1 D0; lia).
  assert (B1 : q1 = 256 * q2 + 2 * (q1 mod 256 / 2) /\ q1 mod 256 / 2 < 128) by (clear - Q2 D8; lia).
  assert (B2 : q2 = 256 * q3 + 2 * (q2 mod 256 / 2) /\ q2 mod 256 / 2 < 128) by (clear - Q3 D16; lia).
  assert (B3 : q3 = 2 * (q3 / 2)) by (clear - D24; lia).
  revert B0 B1 B2 B3. generalize (bits mod 256 / 2) (q1 mod 256 / 2) (q2 mod 256 / 2) (q3 / 2). clear - H. intros. lia.
Qed.
Ltac shifts := rewrite ?N.shiftr_0_r, ?land255, ?N.shiftr_div_pow2; change (2 ^ 8) with 256; change (2 ^ 16) with 65536; change (2 ^ 24) with 16777216.
Lemma div_digit : forall x k q r, x = k * q + r -> r < k -> x / k = q.
Proof. intros. symmetry. eapply N.div_unique; eauto. Qed.
Lemma mod_digit : forall x k q r, x = k * q + r -> r < k -> x mod k = r.
Proof. intros. symmetry. eapply N.mod_unique; eauto. Qed.
Lemma even_mod : forall a, (2 * a) mod 2 = 0.
Proof. intros. lia. Qed.
Lemma odd_mod : forall a, (2 * a + 1) mod 2 = 1.
Proof. intros. lia. Qed.
Lemma small_56 : forall x, x < 4294967296 -> x < 2 ^ 56.
Proof. intros. apply N.lt_trans with (2 ^ 32); [assumption|]. apply N.pow_lt_mono_r; lia. Qed.
Lemma flags_read_dump : forall bits rest, flag_field_ok bits ->
  exists b, flags_dump bits = Ok b /\ flags_read 0 (b ++ rest) = Ok (bits, rest) /\ b <> [].
Proof.
  intros bits rest OK. destruct (flag_digits _ OK) as (a & b & c & d & Ha & Hb & Hc & Hd & E).
  destruct OK as (H & H0 & H8 & H16 & H24).
  unfold flags_dump. cbn [flags_width]. rewrite N.shiftr_div_pow2. change (2 ^ 8) with 256.
  rewrite (div_digit bits 256 (2 * b + 512 * c + 131072 * d) (2 * a)) by lia.
  destruct (N.eqb_spec (2 * b + 512 * c + 131072 * d) 0) as [Z|Z].
  { cbn [bind]. change (N.to_nat (8 / 8)) with 1%nat. cbn [flags_out N.of_nat N.mul]. shifts.
    rewrite (mod_digit bits 256 0 (2 * a)) by lia.
    eexists. split; [reflexivity|]. split; [|discriminate]. cbn [app]. rewrite flags_read_step by (try apply small_56; lia). cbn zeta.
    rewrite even_mod. cbn [N.eqb]. rewrite N.mul_0_l, N.add_0_l, N.sub_0_r. f_equal. f_equal. lia. }
  change (31 <=? 8) with false. cbn iota. rewrite lor_bit by auto. change (2 ^ 8) with 256. change (8 + 8) with 16.
  rewrite N.shiftr_div_pow2. change (2 ^ 16) with 65536.
  rewrite (div_digit (bits + 256) 65536 (2 * c + 512 * d) (2 * a + 512 * b + 256)) by lia.
  destruct (N.eqb_spec (2 * c + 512 * d) 0) as [Z2|Z2].
  { cbn [bind]. change (N.to_nat (16 / 8)) with 2%nat. cbn [flags_out]. change (8 * N.of_nat 1) with 8. change (8 * N.of_nat 0) with 0.
    shifts.
    rewrite (mod_digit (bits + 256) 256 (2 * b + 1) (2 * a)) by lia.
    rewrite (div_digit (bits + 256) 256 (2 * b + 1) (2 * a)) by lia.
    rewrite (mod_digit (2 * b + 1) 256 0 (2 * b + 1)) by lia.
    eexists. split; [reflexivity|]. split; [|discriminate]. cbn [app]. rewrite flags_read_step by (try apply small_56; lia). cbn zeta.
    rewrite odd_mod. cbn [N.eqb]. rewrite flags_read_step by (try apply small_56; lia). cbn zeta.
    rewrite even_mod. cbn [N.eqb]. f_equal. f_equal. lia. }
  change (31 <=? 16) with false. cbn iota. rewrite lor_bit.
  2: { rewrite N.testbit_eqb. change (2 ^ 16) with 65536.
       rewrite (div_digit (bits + 256) 65536 (2 * (c + 256 * d)) (2 * a + 512 * b + 256)) by lia. rewrite even_mod. reflexivity. }
  change (2 ^ 16) with 65536. change (16 + 8) with 24. rewrite N.shiftr_div_pow2. change (2 ^ 24) with 16777216.
  rewrite (div_digit (bits + 256 + 65536) 16777216 (2 * d) (2 * a + 512 * b + 256 + 65536 + 131072 * c)) by lia.
  destruct (N.eqb_spec (2 * d) 0) as [Z3|Z3].
  { cbn [bind]. change (N.to_nat (24 / 8)) with 3%nat. cbn [flags_out]. change (8 * N.of_nat 2) with 16. change (8 * N.of_nat 1) with 8. change (8 * N.of_nat 0) with 0.
    shifts.
    rewrite (mod_digit (bits + 256 + 65536) 256 (2 * b + 1 + 256 * (2 * c + 1)) (2 * a)) by lia.
    rewrite (div_digit (bits + 256 + 65536) 256 (2 * b + 1 + 256 * (2 * c + 1)) (2 * a)) by lia.
    rewrite (mod_digit (2 * b + 1 + 256 * (2 * c + 1)) 256 (2 * c + 1) (2 * b + 1)) by lia.
    rewrite (div_digit (bits + 256 + 65536) 65536 (2 * c + 1) (2 * a + 512 * b + 256)) by lia.
    rewrite (mod_digit (2 * c + 1) 256 0 (2 * c + 1)) by lia.
    eexists. split; [reflexivity|]. split; [|discriminate]. cbn [app]. rewrite flags_read_step by (try apply small_56; lia). cbn zeta.
    rewrite odd_mod. cbn [N.eqb]. rewrite flags_read_step by (try apply small_56; lia). cbn zeta.
    rewrite odd_mod. cbn [N.eqb]. rewrite flags_read_step by (try apply small_56; lia). cbn zeta.
    rewrite even_mod. cbn [N.eqb]. f_equal. f_equal. lia. }
  change (31 <=? 24) with false. cbn iota. rewrite lor_bit.
  2: { rewrite N.testbit_eqb. change (2 ^ 24) with 16777216.
       rewrite (div_digit (bits + 256 + 65536) 16777216 (2 * d) (2 * a + 512 * b + 256 + 65536 + 131072 * c)) by lia.
       rewrite even_mod. reflexivity. }
  change (2 ^ 24) with 16777216. change (24 + 8) with 32. rewrite N.shiftr_div_pow2. change (2 ^ 32) with 4294967296.
  set (y := bits + 256 + 65536 + 16777216).
  assert (Y : y = 2 * a + 256 * (2 * b + 1) + 65536 * (2 * c + 1) + 16777216 * (2 * d + 1)) by (subst y; lia). clearbody y.
  rewrite (div_digit y 4294967296 0 y) by lia. change (0 =? 0) with true. cbn iota.
  cbn [bind]. change (N.to_nat (32 / 8)) with 4%nat. cbn [flags_out]. change (8 * N.of_nat 3) with 24. change (8 * N.of_nat 2) with 16. change (8 * N.of_nat 1) with 8. change (8 * N.of_nat 0) with 0.
  shifts.
  rewrite (mod_digit y 256 (2 * b + 1 + 256 * (2 * c + 1) + 65536 * (2 * d + 1)) (2 * a)) by lia.
  rewrite (div_digit y 256 (2 * b + 1 + 256 * (2 * c + 1) + 65536 * (2 * d + 1)) (2 * a)) by lia.
  rewrite (mod_digit (2 * b + 1 + 256 * (2 * c + 1) + 65536 * (2 * d + 1)) 256 (2 * c + 1 + 256 * (2 * d + 1)) (2 * b + 1)) by lia.
  rewrite (div_digit y 65536 (2 * c + 1 + 256 * (2 * d + 1)) (2 * a + 256 * (2 * b + 1))) by lia.
  rewrite (mod_digit (2 * c + 1 + 256 * (2 * d + 1)) 256 (2 * d + 1) (2 * c + 1)) by lia.
  rewrite (div_digit y 16777216 (2 * d + 1) (2 * a + 256 * (2 * b + 1) + 65536 * (2 * c + 1))) by lia.
  rewrite (mod_digit (2 * d + 1) 256 0 (2 * d + 1)) by lia.
  eexists. split; [reflexivity|]. split; [|discriminate]. cbn [app]. rewrite flags_read_step by (try apply small_56; lia). cbn zeta.
  rewrite odd_mod. cbn [N.eqb]. rewrite flags_read_step by (try apply small_56; lia). cbn zeta.
  rewrite odd_mod. cbn [N.eqb]. rewrite flags_read_step by (try apply small_56; lia). cbn zeta.
  rewrite odd_mod. cbn [N.eqb]. rewrite flags_read_step by (try apply small_56; lia). cbn zeta.
  rewrite even_mod. cbn [N.eqb]. f_equal. f_equal. lia.
Qed.

(** ** strings *)
Lemma read_string_app : forall s rest, Forall (fun c => c <> 0) s -> read_string (write_string s ++ rest) = Ok (s, rest).
Proof.
  unfold write_string. induction s as [|a s IH]; intros rest H; [reflexivity|]. inversion H; subst.
  cbn [app read_string]. replace (a =? 0) with false by (symmetry; apply N.eqb_neq; auto).
  rewrite IH by auto. reflexivity.
Qed.
Lemma read_string_suffix : forall f s r, read_string f = Ok (s, r) -> exists enc, f = enc ++ r /\ enc <> [].
Proof.
  induction f as [|a f IH]; intros s r; cbn [read_string]; [discriminate|]. destruct (a =? 0).
  - intro E. assert (r = f) as -> by congruence. exists [a]. split; [reflexivity|discriminate].
  - destruct (read_string f) as [[s' r']|]; cbn [bind]; [|discriminate]. intro E. assert (r' = r) by congruence. subst.
    destruct (IH s' r eq_refl) as (enc & -> & _). exists (a :: enc). split; [reflexivity|discriminate].
Qed.
Lemma rss_loop_app : forall fuel small t acc s rest, small + t = N.of_nat (length s) -> small <= 65535 ->
  (length s + (if (0 <? small)%N then 1 else 2) <= fuel)%nat ->
  rss_loop fuel (small, t, acc, s ++ rest) = Ok (acc ++ s, rest).
Proof.
  induction fuel as [|k IH]; intros small t acc s rest Hs Hm Hf; [destruct (0 <? small); lia|].
  cbn [rss_loop rss_turn]. destruct (N.ltb_spec 0 small) as [G|G].
  - set (m := if 10240 <? small then 10240 else small).
    assert (Hmm : 1 <= m /\ m <= small) by (unfold m; destruct (N.ltb_spec 10240 small); lia). clearbody m.
    assert (Hl : (N.to_nat m <= length s)%nat) by lia.
    rewrite firstn_app, skipn_app. replace (N.to_nat m - length s)%nat with 0%nat by lia. cbn [firstn skipn]. rewrite app_nil_r.
    assert (L1 : length (firstn (N.to_nat m) s) = N.to_nat m) by (rewrite firstn_length; lia).
    assert (L2 : length (skipn (N.to_nat m) s) = (length s - N.to_nat m)%nat) by (rewrite skipn_length; lia).
    rewrite L1, N2Nat.id. cbn zeta beta iota.
    set (d := N.min (65535 - (small - m)) t).
    destruct (N.ltb_spec 0 (small - m + d)) as [G2|G2].
    + rewrite IH; [| rewrite L2; unfold d; lia | unfold d; lia | ].
      * rewrite <- app_assoc, firstn_skipn. reflexivity.
      * rewrite L2. replace (0 <? small - m + d) with true by (symmetry; apply N.ltb_lt; auto). lia.
    + assert (E : skipn (N.to_nat m) s = []) by (apply length_zero_iff_nil; unfold d in G2; lia).
      rewrite E. cbn [app]. rewrite <- (firstn_skipn (N.to_nat m) s) at 2. rewrite E, app_nil_r. reflexivity.
  - assert (small = 0) by lia. subst small. cbn zeta beta iota. set (d := N.min (65535 - 0) t).
    destruct (N.ltb_spec 0 (0 + d)) as [G2|G2].
    + rewrite IH; [reflexivity| unfold d; lia | unfold d; lia |].
      replace (0 <? 0 + d) with true by (symmetry; apply N.ltb_lt; auto). lia.
    + assert (E : s = []) by (apply length_zero_iff_nil; unfold d in G2; lia). subst s. rewrite app_nil_r. reflexivity.
Qed.
Lemma read_string_size_app : forall s rest fuel, (length s + 2 <= fuel)%nat ->
  read_string_size fuel (N.of_nat (length s)) (s ++ rest) = Ok (s, rest).
Proof. intros s rest fuel H. unfold read_string_size. rewrite rss_loop_app; auto; lia. Qed.
(** when the file is exhausted the loop turns forever *)
Lemma rss_hang : forall fuel small t acc, 0 < small -> rss_loop fuel (small, t, acc, []) = Err Fuel.
Proof.
  induction fuel as [|k IH]; intros small t acc H; auto. cbn [rss_loop rss_turn].
  replace (0 <? small) with true by (symmetry; apply N.ltb_lt; auto).
  rewrite firstn_nil, skipn_nil. cbn [length N.of_nat]. cbn zeta beta iota.
  replace (0 <? small - 0 + N.min (65535 - (small - 0)) t) with true by (symmetry; apply N.ltb_lt; lia).
  apply IH. lia.
Qed.
Lemma rss_short : forall fuel small t acc f, N.of_nat (length f) < small + t ->
  small <= 65535 -> rss_loop fuel (small, t, acc, f) = Err Fuel.
Proof.
  induction fuel as [|k IH]; intros small t acc f H Hs; auto. cbn [rss_loop rss_turn].
  destruct (N.ltb_spec 0 small) as [G|G]; cbn zeta beta iota.
  - set (m := if 10240 <? small then 10240 else small).
    assert (Hmm : 1 <= m /\ m <= small) by (unfold m; destruct (N.ltb_spec 10240 small); lia). clearbody m.
    rewrite firstn_length. set (l := Nat.min (N.to_nat m) (length f)). set (d := N.min (65535 - (small - N.of_nat l)) t).
    replace (0 <? small - N.of_nat l + d) with true by (symmetry; apply N.ltb_lt; lia).
    apply IH; [rewrite skipn_length|]; lia.
  - assert (small = 0) by lia. subst small. set (d := N.min (65535 - 0) t).
    replace (0 <? 0 + d) with true by (symmetry; apply N.ltb_lt; lia). apply IH; lia.
Qed.
Lemma rss_loop_suffix : forall fuel small t acc f s r, rss_loop fuel (small, t, acc, f) = Ok (s, r) -> exists enc, f = enc ++ r.
Proof.
  induction fuel as [|k IH]; intros small t acc f s r; [discriminate|]. cbn [rss_loop rss_turn].
  destruct (0 <? small); cbn zeta beta iota.
  - set (m := N.to_nat _). match goal with |- context[0 <? ?x] => destruct (0 <? x) end.
    + intro E. apply IH in E. destruct E as (enc & E). exists (firstn m f ++ enc). rewrite <- app_assoc, <- E, firstn_skipn. reflexivity.
    + intro E. exists (firstn m f). assert (r = skipn m f) as -> by congruence. symmetry. apply firstn_skipn.
  - match goal with |- context[0 <? ?x] => destruct (0 <? x) end.
    + apply IH.
    + intro E. exists []. assert (r = f) by congruence. subst. reflexivity.
Qed.

(** ** the letters *)
Lemma char_comp_char : forall c, char_comp (comp_char c) = Ok c.
Proof. destruct c; reflexivity. Qed.
Lemma char_crypto_char : forall c, char_crypto (crypto_char c) = Ok c.
Proof. destruct c; reflexivity. Qed.
Lemma char_hash_char : forall c, char_hash (hash_char c) = Ok c.
Proof. destruct c; reflexivity. Qed.

(** ** the flag field of a header *)
Definition mk_flags (bs salt sgn sym marks rver rhead key ioff : bool) : N :=
  set_if bs FLAG_HAS_COMPRESS_BS (set_if salt FLAG_HAS_KDF_PARAM (set_if sgn FLAG_ARCHIVE_IS_SIGNED (set_if sym FLAG_SCRAMBLED
  (set_if marks FLAG_SEQUENCE_MARK (set_if rver FLAG_HAS_REF_VERSION (set_if rhead FLAG_HAS_REF_HEADER (set_if key FLAG_HAS_CRYPTED_KEY
  (set_if ioff FLAG_INITIAL_OFFSET 0)))))))).
Lemma mk_flags_spec : forall bs salt sgn sym marks rver rhead key ioff,
  let b := mk_flags bs salt sgn sym marks rver rhead key ioff in
  flag_is_set b FLAG_HAS_COMPRESS_BS = bs /\ flag_is_set b FLAG_HAS_KDF_PARAM = salt /\ flag_is_set b FLAG_ARCHIVE_IS_SIGNED = sgn /\
  flag_is_set b FLAG_SCRAMBLED = sym /\ flag_is_set b FLAG_SEQUENCE_MARK = marks /\ flag_is_set b FLAG_HAS_REF_VERSION = rver /\
  flag_is_set b FLAG_HAS_REF_HEADER = rhead /\ flag_is_set b FLAG_HAS_CRYPTED_KEY = key /\ flag_is_set b FLAG_INITIAL_OFFSET = ioff /\
  flag_is_set b FLAG_HAS_REF_SLICING = false /\ all_flags_known b = true /\ flag_field_ok b.
Proof. intros [] [] [] [] [] [] [] [] []; repeat split. Qed.

(** ** round trip of the header *)
Definition sref_ok (s : slice_header) : Prop :=
  sh_magic s = SAUV_MAGIC /\ length (sh_name s) = LABEL_SIZE /\ length (sh_data s) = LABEL_SIZE /\ label_is_cleared (sh_data s) = false /\
  older_sar_than_v8 (sh_sly s) = false /\ first_slice_header (sh_sly s) <> 0 /\ other_slice_header (sh_sly s) <> 0 /\
  (first_size (sh_sly s) = 0 -> other_size (sh_sly s) = 0) /\
  (first_size (sh_sly s) <> 0 -> first_slice_header (sh_sly s) < first_size (sh_sly s)) /\
  (other_size (sh_sly s) <> 0 -> other_slice_header (sh_sly s) < other_size (sh_sly s)).
Definition wf0 (h : hver) : Prop :=
  9 <= av_version (hv_edition h) < 65536 /\ av_fix (hv_edition h) < 256 /\ av_value (hv_edition h) <> EMPTY_VALUE * 256 /\
  Forall (fun c => c <> 0) (hv_cmd h) /\ hv_ciphered h = negb (is_knone (hv_sym h)) /\
  match hv_rhead h with Some s => sref_ok s | None => True end /\ hv_only_layout h = false /\
  match hv_salt h with
  | [] => hv_has_kdf h = false /\ hv_iter h = PRE_FORMAT_10_ITERATION /\ hv_hash h = Hsha1
  | _ => hv_has_kdf h = true /\ is_hnone (hv_hash h) = false
  end.
Lemma sref_bytes : forall s, sref_ok s -> exists b, sh_bytes s true true = Ok b.
Proof.
  intros s (H1 & H2 & H3 & H4 & H5 & H6 & H7 & H8 & H9 & H10). unfold sh_bytes. cbn [negb andb]. rewrite H5. unfold build_tlv.
  replace (other_slice_header (sh_sly s) =? 0) with false by (symmetry; apply N.eqb_neq; auto).
  replace (first_slice_header (sh_sly s) =? 0) with false by (symmetry; apply N.eqb_neq; auto).
  cbn [andb orb bind]. eexists. reflexivity.
Qed.
Lemma sref_read : forall s b pause pos rest, sref_ok s -> sh_bytes s true true = Ok b ->
  sh_read None pause pos (b ++ rest) = Ok (s, rest).
Proof.
  intros s b pause pos rest (H1 & H2 & H3 & H4 & H5 & H6 & H7 & H8 & H9 & H10) Hb.
  rewrite (sh_read_tlv None pause pos s true true b rest H1 H2 H3 H5 Hb).
  - f_equal. f_equal. unfold eff_name. rewrite H4, <- H1. destruct s as [m nm d f [fs os fh oh old]]. cbn in *.
    subst old. f_equal. destruct (N.eqb_spec fs 0) as [Z|Z]; [rewrite H8 by auto; rewrite Z; reflexivity|reflexivity].
  - destruct (N.eqb_spec (first_size (sh_sly s)) 0) as [Z|Z]; [|auto]. rewrite H8 by auto. congruence.
  - auto.
Qed.

Lemma hv_body_eq : forall h, hv_body h =
  let bits := hv_flags h in
  if negb (all_flags_known bits) then Err Ebug
  else
    let* fl := flags_dump bits in
    let* rh := match hv_rhead h with
               | None => Ok []
               | Some s => if hv_only_layout h then Err Ebug else sh_bytes s true true
               end in
    let* rv := match hv_rver h with
               | None => Ok []
               | Some v => match hv_rver v with
                           | Some _ => Err Ebug
                           | None => let* b := hv_body v in Ok (b ++ dumpN (hv_rterm h))
                           end
               end in
    Ok (av_dump (hv_edition h) ++ [comp_char (hv_zip h)] ++ write_string (hv_cmd h) ++ fl ++
        (if hv_ioff h =? 0 then [] else dumpN (hv_ioff h)) ++
        (if is_knone (hv_sym h) then [] else [crypto_char (hv_sym h)]) ++
        (match hv_key h with None => [] | Some k => dumpN (N.of_nat (length k)) ++ k end) ++
        rh ++ rv ++
        (match hv_salt h with [] => [] | _ :: _ =>
           dumpN (N.of_nat (length (hv_salt h))) ++ hv_salt h ++ dumpN (hv_iter h) ++ [hash_char (hv_hash h)] end) ++
        (if 0 <? hv_bs h then dumpN (hv_bs h) else [])).
Proof. destruct h; reflexivity. Qed.

Lemma hv_inner_body : forall fuel pause pos h rv rest, wf0 h ->
  match hv_rver h with
  | None => rv = [] /\ hv_rterm h = 0
  | Some v => exists b, hv_body v = Ok b /\ rv = b ++ dumpN (hv_rterm h) /\ hv_rver v = None /\ hv_ioff v <> 0 /\
      av_value (hv_edition v) <> EMPTY_VALUE * 256 /\
      forall pos rest, hv_inner fuel pause pos (b ++ rest) = Ok (v, hv_flags v, rest)
  end ->
  exists b, hv_body h = Ok b /\ hv_inner (S fuel) pause pos (b ++ rest) = Ok (h, hv_flags h, rest).
Proof.
  intros fuel pause pos h rv rest (Hv & Hx & He & Hc & Hci & Hrh & Hol & Hk) Hrv.
  remember (hv_flags h) as fl eqn:Fe.
  assert (Fl : exists a2 a6 a7 a8, fl = mk_flags (0 <? hv_bs h) a2 (hv_signed h) (negb (is_knone (hv_sym h))) (hv_marks h) a6 a7 a8 (negb (hv_ioff h =? 0)) /\
     a2 = (0 <? N.of_nat (length (hv_salt h))) /\ a6 = match hv_rver h with Some _ => true | None => false end /\
     a7 = match hv_rhead h with Some _ => true | None => false end /\ a8 = match hv_key h with Some _ => true | None => false end).
  { rewrite Fe. do 4 eexists. split; [reflexivity|]. auto. }
  destruct Fl as (a2 & a6 & a7 & a8 & Fl & E2 & E6 & E7 & E8).
  pose proof (mk_flags_spec (0 <? hv_bs h) a2 (hv_signed h) (negb (is_knone (hv_sym h))) (hv_marks h) a6 a7 a8 (negb (hv_ioff h =? 0))) as S.
  cbn zeta in S. rewrite <- Fl in S. destruct S as (S1 & S2 & S3 & S4 & S5 & S6 & S7 & S8 & S9 & S10 & S11 & S12).
  clear Fl. rewrite hv_body_eq. rewrite <- Fe. cbn zeta. rewrite S11. cbn [negb].
  destruct (flags_read_dump fl [] S12) as (flb & Fd & _ & _). rewrite Fd. cbn [bind].
  assert (Fr : forall r, flags_read 0 (flb ++ r) = Ok (fl, r)).
  { intro r. destruct (flags_read_dump fl r S12) as (b' & Fd' & R & _). rewrite Fd in Fd'. injection Fd' as <-. exact R. }
  assert (RH : exists rh, (match hv_rhead h with None => Ok [] | Some s => if hv_only_layout h then Err Ebug else sh_bytes s true true end) = Ok rh /\
     match hv_rhead h with None => rh = [] | Some s => forall pause pos r, sh_read None pause pos (rh ++ r) = Ok (s, r) end).
  { destruct (hv_rhead h) as [sh|]; [|eauto]. rewrite Hol. destruct (sref_bytes sh Hrh) as (b & Eb). exists b. split; auto.
    intros. apply sref_read; auto. }
  destruct RH as (rh & RH1 & RH2). rewrite RH1. cbn [bind].
  assert (RV : (match hv_rver h with
               | None => Ok []
               | Some v => match hv_rver v with
                           | Some _ => Err Ebug
                           | None => let* b := hv_body v in Ok (b ++ dumpN (hv_rterm h))
                           end
               end) = Ok rv).
  { destruct (hv_rver h) as [v|]; [|destruct Hrv as [-> _]; reflexivity].
    destruct Hrv as (b & B1 & B2 & B3 & _). rewrite B3, B1, B2. reflexivity. }
  rewrite RV. cbn [bind]. eexists. split; [reflexivity|].
  rewrite <- !app_assoc.
  match goal with |- hv_inner _ _ _ ?x = _ => remember x as F0 eqn:EF end. cbn [hv_inner].
  match type of EF with F0 = _ ++ ?y => assert (AV : av_read (mk_aver 0 0) F0 =
     Ok (mk_aver (av_version (hv_edition h)) (av_fix (hv_edition h)), y)) end.
  { rewrite EF, av_read_dump by lia. replace (8 <=? av_version (hv_edition h)) with true by (symmetry; apply N.leb_le; lia). reflexivity. }
  rewrite AV. clear AV EF. cbn [bind app].
  rewrite char_comp_char. cbn [bind]. rewrite read_string_app by auto. cbn [bind].
  set (ed := mk_aver (av_version (hv_edition h)) (av_fix (hv_edition h))).
  assert (Eed : ed = hv_edition h) by (unfold ed; destruct (hv_edition h); reflexivity). clearbody ed. subst ed.
  replace (av_gt (hv_edition h) 1) with true by (symmetry; unfold av_gt, av_value; apply N.ltb_lt; lia).
  rewrite Fr. cbn [bind]. rewrite S9, S4, S5, S8, S10, S7, S6, S3, S2, S1.
  match goal with |- context[if negb (hv_ioff h =? 0) then readN (_ ++ ?t) else _] => assert (IO : (if negb (hv_ioff h =? 0) then readN ((if hv_ioff h =? 0 then [] else dumpN (hv_ioff h)) ++ t)
    else Ok (0, (if hv_ioff h =? 0 then [] else dumpN (hv_ioff h)) ++ t)) = Ok (hv_ioff h, t)) by (destruct (N.eqb_spec (hv_ioff h) 0) as [->|]; [reflexivity|cbn [negb]; apply readN_dumpN]) end.
  rewrite IO. cbn [bind]. clear IO.
  replace (av_ge (hv_edition h) 9) with true by (symmetry; unfold av_ge, av_value; apply N.leb_le; lia).
  replace (av_ge (hv_edition h) 8) with true by (symmetry; unfold av_ge, av_value; apply N.leb_le; lia). cbn [negb andb orb].
  (* crypto *)
  match goal with |- context[if negb (is_knone (hv_sym h)) then match (if is_knone (hv_sym h) then [] else [crypto_char (hv_sym h)]) ++ ?tl with _ => _ end else _] =>
    set (tail := tl) end.
  assert (CR : (if negb (is_knone (hv_sym h))
     then match (if is_knone (hv_sym h) then [] else [crypto_char (hv_sym h)]) ++ tail with
          | [] => Err Erange
          | a :: f => let* s := char_crypto a in Ok (true, s, f)
          end
     else Ok (false, Knone, (if is_knone (hv_sym h) then [] else [crypto_char (hv_sym h)]) ++ tail)) = Ok (hv_ciphered h, hv_sym h, tail)).
  { rewrite Hci. destruct (hv_sym h); reflexivity. }
  rewrite CR. cbn [bind]. unfold tail. clear tail CR.
  match goal with |- context[if a8 then _ else Ok (None, ?x)] => set (t1 := x) end.
  match goal with t1 := _ ++ rh ++ ?y |- _ => set (t2 := rh ++ y) in * end.
  assert (KY : (if a8 then let* '(n, f) := readN t1 in if N.of_nat (length f) <? n then Err Erange else Ok (Some (firstn (N.to_nat n) f), skipn (N.to_nat n) f)
                else Ok (None, t1)) = Ok (hv_key h, t2)).
  { unfold t1. subst a8. destruct (hv_key h) as [k|]; [|reflexivity]. rewrite <- app_assoc, readN_dumpN. cbn [bind].
    rewrite app_length. replace (_ <? _) with false by (symmetry; apply N.ltb_ge; lia).
    rewrite Nat2N.id, firstn_app_exact, skipn_app_exact. reflexivity. }
  rewrite KY. cbn [bind]. clear KY t1. unfold t2. clear t2.
  match goal with |- context[rh ++ ?y] => set (t3 := y) end.
  rewrite andb_false_r.
  match goal with |- bind ?m _ = _ => assert (RHE : m = Ok (hv_rhead h, false, t3)) end.
  { subst a7. destruct (hv_rhead h) as [sh|]; [|rewrite RH2; reflexivity]. rewrite RH2. reflexivity. }
  rewrite RHE. cbn [bind]. clear RHE. unfold t3. clear t3.
  match goal with |- context[rv ++ ?y] => set (t4 := y) end.
  match goal with |- bind ?m _ = _ => assert (RVE : m = Ok (hv_rver h, hv_rterm h, t4)) end.
  { subst a6. destruct (hv_rver h) as [v|].
    - destruct Hrv as (b & B1 & B2 & B3 & B4 & B5 & B6). rewrite B2, <- app_assoc, B6. cbn [bind].
      replace (hv_ioff v =? 0) with false by (symmetry; apply N.eqb_neq; auto).
      replace (_ =? EMPTY_VALUE * 256) with false by (symmetry; apply N.eqb_neq; auto).
      rewrite readN_dumpN. cbn [bind]. rewrite B3. reflexivity.
    - destruct Hrv as [-> ->]. reflexivity. }
  rewrite RVE. cbn [bind]. clear RVE. unfold t4. clear t4.
  match goal with |- context[?y ++ (if 0 <? hv_bs h then dumpN (hv_bs h) else []) ++ rest] => set (sb := y) end.
  set (t5 := (if 0 <? hv_bs h then dumpN (hv_bs h) else []) ++ rest).
  match goal with |- bind ?m _ = _ => assert (KE : m = Ok (hv_has_kdf h, hv_salt h, hv_iter h, hv_hash h, t5)) end.
  { unfold sb. subst a2. destruct (hv_salt h) as [|c sl] eqn:ES.
    - destruct Hk as (K1 & K2 & K3). rewrite K1, K2, K3. reflexivity.
    - destruct Hk as (K1 & K2). replace (0 <? N.of_nat (length (c :: sl))) with true by (symmetry; apply N.ltb_lt; cbn [length]; lia).
      rewrite <- !app_assoc, readN_dumpN. cbn [bind]. rewrite read_string_size_app.
      2: { rewrite !app_length. pose proof (dumpN_ne (hv_iter h)). destruct (dumpN (hv_iter h)); [congruence|]. cbn [length]. lia. }
      cbn [bind]. rewrite readN_dumpN. cbn [bind app]. rewrite char_hash_char. cbn [bind]. rewrite K1, K2. reflexivity. }
  rewrite KE. cbn [bind]. clear KE. unfold t5, sb. clear t5 sb.
  match goal with |- bind ?m _ = _ => assert (BE : m = Ok (hv_bs h, rest)) end.
  { destruct (N.ltb_spec 0 (hv_bs h)) as [G|G]; [apply readN_dumpN|]. replace (hv_bs h) with 0 by lia. reflexivity. }
  rewrite BE. cbn [bind]. rewrite <- Hol. destruct h; reflexivity.
Qed.

Definition wf_hv (h : hver) : Prop :=
  wf0 h /\ match hv_rver h with
           | None => hv_rterm h = 0
           | Some v => wf0 v /\ hv_ioff v <> 0 /\ hv_rver v = None /\ hv_rterm v = 0
           end.
Lemma hv_body_ok : forall h fuel pause, wf_hv h -> exists b, hv_body h = Ok b /\
  forall pos rest, hv_inner (S (S fuel)) pause pos (b ++ rest) = Ok (h, hv_flags h, rest).
Proof.
  intros h fuel pause [W R].
  assert (V : forall v, wf0 v -> hv_rver v = None -> hv_rterm v = 0 -> exists b, hv_body v = Ok b /\
     forall pos rest, hv_inner (S fuel) pause pos (b ++ rest) = Ok (v, hv_flags v, rest)).
  { intros v Wv Rv Tv. destruct (hv_inner_body fuel pause 0 v [] [] Wv) as (b & Eb & _); [rewrite Rv; auto|].
    exists b. split; auto. intros pos rest. destruct (hv_inner_body fuel pause pos v [] rest Wv) as (b' & Eb' & I); [rewrite Rv; auto|].
    rewrite Eb in Eb'. injection Eb' as <-. exact I. }
  destruct (hv_rver h) as [v|] eqn:Rh.
  - destruct R as (Wv & Iv' & Rv & Tv). destruct (V v Wv Rv Tv) as (bv & Ebv & Iv).
    assert (Q : forall pos rest, exists b, hv_body h = Ok b /\ hv_inner (S (S fuel)) pause pos (b ++ rest) = Ok (h, hv_flags h, rest)).
    { intros pos rest. apply (hv_inner_body (S fuel) pause pos h (bv ++ dumpN (hv_rterm h)) rest W). rewrite Rh. exists bv.
      destruct Wv as (_ & _ & Ev & _). auto 10. }
    destruct (Q 0 []) as (b & Eb & _). exists b. split; auto. intros pos rest. destruct (Q pos rest) as (b' & Eb' & I).
    rewrite Eb in Eb'. injection Eb' as <-. exact I.
  - assert (Q : forall pos rest, exists b, hv_body h = Ok b /\ hv_inner (S (S fuel)) pause pos (b ++ rest) = Ok (h, hv_flags h, rest)).
    { intros pos rest. apply (hv_inner_body (S fuel) pause pos h [] rest W). rewrite Rh. auto. }
    destruct (Q 0 []) as (b & Eb & _). exists b. split; auto. intros pos rest. destruct (Q pos rest) as (b' & Eb' & I).
    rewrite Eb in Eb'. injection Eb' as <-. exact I.
Qed.
