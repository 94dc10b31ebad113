(** * infinint, continued: shifts, products, division, serialisation. *)
From Verif Require Import Base InfinintModel InfinintProof.
Open Scope N_scope.

Lemma p256_pow2 : forall n, p256 n = 2 ^ (8 * N.of_nat n).
Proof. intro n. unfold p256. rewrite N.pow_mul_r. reflexivity. Qed.

Lemma pow2_pos : forall n, 0 < 2 ^ n.
Proof. intro. apply N.neq_0_lt_0, N.pow_nonzero. lia. Qed.

Lemma bytes_ok_zeros : forall n, bytes_ok (repeat 0 n).
Proof. intro. apply bytes_ok_repeat. unfold is_byte; lia. Qed.

Lemma app_ne_nil_l : forall (A : Type) (l r : list A), l <> [] -> l ++ r <> [].
Proof. intros A [|x l] r H; [congruence|discriminate]. Qed.

Lemma inf_value_app_zeros : forall a n, inf_value (a ++ repeat 0 n) = inf_value a * p256 n.
Proof. intros. rewrite inf_value_app, inf_value_repeat0, repeat_length. lia. Qed.

Lemma len_ne_nil : forall (A : Type) (l m : list A), length l = length m -> m <> [] -> l <> [].
Proof. intros A l m H Hm E. subst l. destruct m; [congruence|cbn in H; lia]. Qed.

Lemma inf_shl_spec : forall a n, inf_ok a ->
  inf_value (inf_shl a n) = inf_value a * 2 ^ n /\ inf_ok (inf_shl a n).
Proof.
  intros a n [Na Oa]. unfold inf_shl. rewrite is_zero_spec by auto.
  destruct (N.eqb_spec (inf_value a) 0) as [Z|Z].
  - rewrite Z. split; [lia|split; auto].
  - pose proof (N.div_mod n 8 ltac:(lia)) as D. set (q := n / 8) in *. set (b := n mod 8) in *.
    assert (Hb : b < 8) by (apply N.mod_lt; lia).
    destruct (N.eqb_spec b 0) as [B|B].
    + rewrite inf_value_app_zeros, p256_pow2, N2Nat.id.
      split; [f_equal; f_equal; lia|].
      split; [apply app_ne_nil_l; auto|apply bytes_ok_app; auto using bytes_ok_zeros].
    + rewrite low_mask_ones by lia.
      pose proof (shift_loop_spec (a ++ repeat 0 (N.to_nat (q + 1))) (8 - b) 0) as S.
      cbv zeta in S. rewrite !N.mul_0_l in S.
      replace (8 - (8 - b)) with b in S by lia.
      destruct S as (V & BO & L); try apply pow2_pos; try lia.
      { apply bytes_ok_app; auto using bytes_ok_zeros. }
      split.
      * rewrite V. rewrite N.add_0_l, inf_value_app_zeros, p256_pow2, N2Nat.id.
        replace (8 * (q + 1)) with (n + (8 - b)) by lia. rewrite N.pow_add_r, N.mul_assoc.
        apply N.div_mul. apply N.pow_nonzero; lia.
      * split; auto. eapply len_ne_nil; [exact L|]. apply app_ne_nil_l; auto.
Qed.

Lemma inf_shl_length8 : forall a, inf_ok a -> inf_value a <> 0 -> length (inf_shl a 8) = S (length a).
Proof.
  intros a [Na Oa] Hz. unfold inf_shl. rewrite is_zero_spec by auto.
  destruct (N.eqb_spec (inf_value a) 0); [contradiction|].
  change (8 mod 8) with 0. change (8 / 8) with 1. cbn [N.eqb].
  rewrite app_length, repeat_length. lia.
Qed.

Lemma inf_shl_shape8 : forall a, inf_ok a -> inf_value a <> 0 -> inf_shl a 8 = a ++ [0].
Proof.
  intros a [Na Oa] Hz. unfold inf_shl. rewrite is_zero_spec by auto.
  destruct (N.eqb_spec (inf_value a) 0); [contradiction|]. reflexivity.
Qed.

Lemma firstn_value : forall a k, bytes_ok a -> (k <= length a)%nat ->
  inf_value (firstn (length a - k) a) = inf_value a / p256 k.
Proof.
  intros a k H Hk. rewrite <- (firstn_skipn (length a - k) a) at 3.
  rewrite inf_value_app.
  assert (L : length (skipn (length a - k) a) = k) by (rewrite skipn_length; lia).
  rewrite L. pose proof (inf_value_bound _ (bytes_ok_skipn (length a - k) a H)) as B. rewrite L in B.
  rewrite N.div_add_l by (pose proof (p256_pos k); lia). rewrite N.div_small by exact B. lia.
Qed.

Lemma inf_shr_spec : forall a n, inf_ok a ->
  inf_value (inf_shr a n) = inf_value a / 2 ^ n /\ inf_ok (inf_shr a n).
Proof.
  intros a n [Na Oa]. unfold inf_shr.
  pose proof (N.div_mod n 8 ltac:(lia)) as D. set (q := n / 8) in *. set (b := n mod 8) in *.
  assert (Hb : b < 8) by (apply N.mod_lt; lia).
  destruct (N.leb_spec (N.of_nat (length a)) q) as [H|H].
  - split.
    + rewrite inf_value_single. symmetry. apply N.div_small.
      pose proof (inf_value_bound a Oa) as B. rewrite p256_pow2 in B.
      eapply N.lt_le_trans; [exact B|]. apply N.pow_le_mono_r; lia.
    + split; [discriminate|]. repeat constructor.
  - assert (Hf : inf_ok (firstn (length a - N.to_nat q) a)).
    { split; [|apply bytes_ok_firstn; auto].
      intro E. apply (f_equal (@length N)) in E. rewrite firstn_length in E. cbn [length] in E. lia. }
    pose proof (firstn_value a (N.to_nat q) Oa ltac:(lia)) as Vf.
    rewrite p256_pow2, N2Nat.id in Vf.
    destruct (N.eqb_spec b 0) as [B|B].
    + split; auto. rewrite Vf. f_equal. f_equal. lia.
    + rewrite low_mask_ones by lia. replace (8 - (8 - b)) with b by lia.
      pose proof (shift_loop_spec (firstn (length a - N.to_nat q) a) b 0) as S.
      cbv zeta in S. rewrite !N.mul_0_l in S.
      destruct S as (V & BO & L); try apply pow2_pos; try lia; try apply Hf.
      split.
      * rewrite V, N.add_0_l, Vf. rewrite N.div_div by (apply N.pow_nonzero; lia).
        f_equal. rewrite <- N.pow_add_r. f_equal. lia.
      * split; auto. eapply len_ne_nil; [exact L|apply Hf].
Qed.

(** ** product *)
Lemma inf_ok_0 : inf_ok [0].
Proof. split; [discriminate|]. repeat constructor. Qed.

Lemma inf_mul_spec : forall a b, inf_ok a -> inf_ok b ->
  inf_value (inf_mul a b) = inf_value a * inf_value b /\ inf_ok (inf_mul a b).
Proof.
  intros a b [_ Oa] Hb. unfold inf_mul.
  assert (G : forall l acc, bytes_ok l -> inf_ok acc ->
    inf_value (fold_left (fun ret x => inf_add (inf_shl ret 8) (inf_mulb b x)) l acc)
    = inf_value acc * p256 (length l) + inf_value l * inf_value b
    /\ inf_ok (fold_left (fun ret x => inf_add (inf_shl ret 8) (inf_mulb b x)) l acc)).
  { induction l as [|x l IH]; intros acc Ol Hacc; cbn [fold_left length].
    - rewrite p256_0, inf_value_nil. split; [lia|auto].
    - apply bytes_ok_cons in Ol. destruct Ol as [Ox Ol].
      destruct (inf_shl_spec acc 8 Hacc) as [V1 O1].
      destruct (inf_mulb_spec b x Hb Ox) as [V2 O2].
      destruct (inf_add_spec _ _ O1 O2) as [V3 O3].
      destruct (IH _ Ol O3) as [V4 O4]. split; auto.
      rewrite V4, V3, V1, V2, inf_value_cons, p256_S. change (2 ^ 8) with 256. lia. }
  destruct (G a [0] Oa inf_ok_0) as [V O]. split; auto.
Qed.

(** ** bitwise operators *)
Lemma byte_split_bits : forall (f : N -> N -> N),
  (forall x y k, f (x mod 2^k) (y mod 2^k) = f x y mod 2^k) ->
  (forall x y k, f (x / 2^k) (y / 2^k) = f x y / 2^k) ->
  forall r x R X, r < 256 -> x < 256 ->
  f (r + 256 * R) (x + 256 * X) = f r x + 256 * f R X.
Proof.
  intros f Hm Hd r x R X Hr Hx.
  rewrite (N.div_mod (f (r + 256 * R) (x + 256 * X)) (2 ^ 8)) by (apply N.pow_nonzero; lia).
  rewrite <- Hm, <- Hd. change (2 ^ 8) with 256.
  rewrite (N.mul_comm 256 R), (N.mul_comm 256 X).
  rewrite !N.mod_add by lia. rewrite !N.div_add by lia.
  rewrite (N.mod_small r), (N.mod_small x), (N.div_small r), (N.div_small x) by auto.
  rewrite !N.add_0_l. lia.
Qed.

Lemma bit_mod : forall (f : N -> N -> N) (g : bool -> bool -> bool),
  g false false = false ->
  (forall x y n, N.testbit (f x y) n = g (N.testbit x n) (N.testbit y n)) ->
  forall x y k, f (x mod 2^k) (y mod 2^k) = f x y mod 2^k.
Proof.
  intros f g G H x y k. apply N.bits_inj. intro n. rewrite H.
  destruct (N.ltb_spec n k) as [L|L].
  - rewrite !N.mod_pow2_bits_low by auto. rewrite H. reflexivity.
  - rewrite !N.mod_pow2_bits_high by auto. auto.
Qed.
Lemma bit_div : forall (f : N -> N -> N) (g : bool -> bool -> bool),
  (forall x y n, N.testbit (f x y) n = g (N.testbit x n) (N.testbit y n)) ->
  forall x y k, f (x / 2^k) (y / 2^k) = f x y / 2^k.
Proof.
  intros f g H x y k. apply N.bits_inj. intro n. rewrite H, !N.div_pow2_bits, H. reflexivity.
Qed.

Lemma zip_loop_spec : forall (f : N -> N -> N) (g : bool -> bool -> bool) rest,
  g false false = false ->
  (forall x y n, N.testbit (f x y) n = g (N.testbit x n) (N.testbit y n)) ->
  (forall r, f r 0 = rest r) ->
  forall res arg, bytes_ok res -> bytes_ok arg -> (length arg <= length res)%nat ->
  le_val (zip_loop f rest res arg) = f (le_val res) (le_val arg)
  /\ bytes_ok (zip_loop f rest res arg) /\ length (zip_loop f rest res arg) = length res.
Proof.
  intros f g rest G Hf Hrest.
  pose proof (bit_mod f g G Hf) as Hm. pose proof (bit_div f g Hf) as Hd.
  assert (Z0 : f 0 0 = 0).
  { apply N.bits_inj. intro n. rewrite Hf, !N.bits_0. auto. }
  assert (Hbyte : forall x y, x < 256 -> y < 256 -> f x y < 256).
  { intros x y Hx Hy. rewrite <- (N.mod_small x 256), <- (N.mod_small y 256) by auto.
    change 256 with (2 ^ 8). rewrite Hm. apply N.mod_lt. apply N.pow_nonzero; lia. }
  induction res as [|r rs IH]; intros arg Hr Ha Hl.
  - destruct arg; [|cbn in Hl; lia]. cbn [zip_loop le_val]. auto using bytes_ok_nil.
  - apply bytes_ok_cons in Hr. destruct Hr as [Hr Hrs]. cbn [zip_loop]. destruct arg as [|x xs].
    + cbn [le_val map]. rewrite <- (Hrest r).
      assert (IH' : le_val (map rest rs) = f (le_val rs) 0 /\ bytes_ok (map rest rs) /\ length (map rest rs) = length rs).
      { specialize (IH [] Hrs bytes_ok_nil). cbn [length] in IH. destruct rs as [|r' rs'].
        - cbn [map le_val length]. rewrite Z0. auto using bytes_ok_nil.
        - cbn [zip_loop] in IH. apply IH. lia. }
      destruct IH' as (V & B & L). rewrite V. split; [|split].
      * pose proof (byte_split_bits f Hm Hd r 0 (le_val rs) 0 Hr ltac:(lia)) as P.
        rewrite N.mul_0_r, N.add_0_r in P. symmetry. exact P.
      * apply bytes_ok_cons. split; auto. unfold is_byte. apply Hbyte; auto; lia.
      * cbn [length]. f_equal. exact L.
    + apply bytes_ok_cons in Ha. destruct Ha as [Hx Hxs]. cbn [length] in Hl.
      destruct (IH xs Hrs Hxs ltac:(lia)) as (V & B & L). cbn [le_val length]. rewrite V. split; [|split].
      * symmetry. apply byte_split_bits; auto.
      * apply bytes_ok_cons. split; auto. unfold is_byte. apply Hbyte; auto.
      * f_equal; auto.
Qed.

Lemma zip_bitop : forall (f : N -> N -> N) (g : bool -> bool -> bool) rest,
  g false false = false ->
  (forall x y n, N.testbit (f x y) n = g (N.testbit x n) (N.testbit y n)) ->
  (forall r, f r 0 = rest r) ->
  forall a b, inf_ok a -> inf_ok b ->
  inf_value (rev (zip_loop f rest (rev (widen a b)) (rev b))) = f (inf_value a) (inf_value b)
  /\ inf_ok (rev (zip_loop f rest (rev (widen a b)) (rev b))).
Proof.
  intros f g rest G Hf Hr a b Ha Hb.
  pose proof (widen_ok a b Ha) as [Nw Ow]. pose proof (widen_length a b) as L.
  destruct (zip_loop_spec f g rest G Hf Hr (rev (widen a b)) (rev b)) as (V & B & Le).
  - apply bytes_ok_rev; auto.
  - apply bytes_ok_rev; apply Hb.
  - rewrite !rev_length. lia.
  - rewrite inf_value_rev, V, !le_val_rev, widen_value. split; auto. split; [|apply bytes_ok_rev; auto].
    eapply len_ne_nil; [|exact Nw]. rewrite rev_length, Le, rev_length. reflexivity.
Qed.

Lemma inf_and_spec : forall a b, inf_ok a -> inf_ok b ->
  inf_value (inf_and a b) = N.land (inf_value a) (inf_value b) /\ inf_ok (inf_and a b).
Proof.
  intros a b Ha Hb. unfold inf_and.
  destruct (zip_bitop N.land andb (fun _ => 0) eq_refl N.land_spec N.land_0_r a b Ha Hb) as [V O].
  destruct (length b <? length (widen a b))%nat; auto.
  rewrite reduce_value. split; auto. apply reduce_ok. apply O.
Qed.
Lemma inf_or_spec : forall a b, inf_ok a -> inf_ok b ->
  inf_value (inf_or a b) = N.lor (inf_value a) (inf_value b) /\ inf_ok (inf_or a b).
Proof.
  intros a b Ha Hb. unfold inf_or.
  exact (zip_bitop N.lor orb (fun r => r) eq_refl N.lor_spec N.lor_0_r a b Ha Hb).
Qed.
Lemma inf_xor_spec : forall a b, inf_ok a -> inf_ok b ->
  inf_value (inf_xor a b) = N.lxor (inf_value a) (inf_value b) /\ inf_ok (inf_xor a b).
Proof.
  intros a b Ha Hb. unfold inf_xor.
  exact (zip_bitop N.lxor xorb (fun r => r) eq_refl N.lxor_spec N.lxor_0_r a b Ha Hb).
Qed.

(** ** conversion from a machine integer *)
Lemma be_bytes_spec : forall s a, a < p256 s ->
  inf_value (be_bytes s a) = a /\ bytes_ok (be_bytes s a) /\ length (be_bytes s a) = s.
Proof.
  induction s as [|s IH]; intros a H; cbn [be_bytes].
  - rewrite p256_0 in H. repeat split; auto using bytes_ok_nil. rewrite inf_value_nil. lia.
  - rewrite p256_S in H. destruct (IH (a / 256)) as (V & B & L).
    { apply N.div_lt_upper_bound; lia. }
    rewrite inf_value_snoc, V, app_length, L. cbn [length].
    repeat split; try lia. apply bytes_ok_app. split; auto.
    apply bytes_ok_cons. split; auto using bytes_ok_nil. unfold is_byte. lia.
Qed.

Lemma inf_from_spec : forall s a, a < p256 s -> inf_value (inf_from s a) = a /\ inf_ok (inf_from s a) /\ canon (inf_from s a).
Proof.
  intros s a H. destruct (be_bytes_spec s a H) as (V & B & L).
  change (inf_from s a) with (reduce (be_bytes s a)).
  rewrite reduce_value. split; auto. split; [apply reduce_ok; auto|apply reduce_canon].
Qed.

Lemma inf_of_spec : forall a, a < 2 ^ 64 -> inf_value (inf_of a) = a /\ inf_ok (inf_of a).
Proof. intros a H. destruct (inf_from_spec 8 a) as (V & O & _); auto. Qed.

(** ** Euclidean division *)
Lemma eu_sub_spec : forall fuel a r q,
  inf_ok a -> inf_ok r -> inf_ok q -> inf_value r <> 0 ->
  inf_value a < N.of_nat fuel * inf_value r ->
  exists a' q', eu_sub fuel a r q = Ok (a', q') /\ inf_ok a' /\ inf_ok q' /\
    inf_value a' < inf_value r /\
    inf_value a = (inf_value q' - inf_value q) * inf_value r + inf_value a' /\ inf_value q <= inf_value q'.
Proof.
  induction fuel as [|k IH]; intros a r q Ha Hr Hq Hz Hlt; [lia|].
  cbn [eu_sub]. rewrite inf_le_spec by auto.
  destruct (N.leb_spec (inf_value r) (inf_value a)) as [Hle|Hle].
  - destruct (inf_sub_ok a r Ha Hr Hle) as (c & E & V & O & _). rewrite E. cbn [bind].
    destruct (inf_of_spec 1 ltac:(reflexivity)) as [V1 O1].
    destruct (inf_add_spec q (inf_of 1) Hq O1) as [V2 O2].
    destruct (IH c r (inf_add q (inf_of 1)) O Hr O2 Hz) as (a' & q' & E' & Oa & Oq & L1 & L2 & L3).
    { rewrite V. nia. }
    exists a', q'. split; auto. split; auto. split; auto. split; auto. rewrite V2, V1 in *. split; [|lia].
    rewrite V in L2. nia.
  - exists a, q. split; auto. split; auto. split; auto. split; auto. split; [|lia]. rewrite N.sub_diag. lia.
Qed.

Lemma eu_loop_spec : forall fuel k a b r q,
  inf_ok a -> inf_ok b -> inf_ok r -> inf_ok q -> inf_value b <> 0 ->
  inf_value r = inf_value b * p256 k -> inf_value a < inf_value r -> (k < fuel)%nat ->
  exists q' a', eu_loop fuel a b r q = Ok (q', a') /\ inf_ok q' /\ inf_ok a' /\
    inf_value a' < inf_value b /\
    inf_value q * inf_value r + inf_value a = inf_value q' * inf_value b + inf_value a'.
Proof.
  induction fuel as [|f IH]; intros k a b r q Ha Hb Hr Hq Hz Hrv Hlt Hk; [lia|].
  cbn [eu_loop]. rewrite inf_lt_spec by auto.
  destruct k as [|k].
  - rewrite p256_0, N.mul_1_r in Hrv. rewrite Hrv. rewrite N.ltb_irrefl.
    exists q, a. split; auto. split; auto. split; auto. split; lia.
  - pose proof (p256_pos k) as Pk. rewrite p256_S in Hrv.
    destruct (N.ltb_spec (inf_value b) (inf_value r)) as [_|H]; [|nia].
    destruct (inf_shr_spec r 8 Hr) as [Vr Or]. destruct (inf_shl_spec q 8 Hq) as [Vq Oq].
    change (2 ^ 8) with 256 in *.
    assert (Vr' : inf_value (inf_shr r 8) = inf_value b * p256 k).
    { rewrite Vr, Hrv. replace (inf_value b * (256 * p256 k)) with (inf_value b * p256 k * 256) by lia.
      apply N.div_mul; lia. }
    destruct (eu_sub_spec 257 a (inf_shr r 8) (inf_shl q 8)) as (a' & q' & E & Oa' & Oq' & L1 & L2 & L3); auto.
    { rewrite Vr'. nia. }
    { rewrite Vr'. rewrite Hrv in Hlt. change (N.of_nat 257) with 257. lia. }
    rewrite E. cbn [bind].
    destruct (IH k a' b (inf_shr r 8) q') as (q2 & a2 & E2 & O1 & O2 & L4 & L5); auto; [lia|].
    exists q2, a2. split; auto. split; auto. split; auto. split; auto.
    rewrite <- L5, Vr', L2, Vr', Vq, Hrv. rewrite Vq in L3.
    clear - L3. generalize dependent (inf_value q'). intros vq' L3.
    replace vq' with (vq' - inf_value q * 256 + inf_value q * 256) at 2 by lia.
    lia.
Qed.

Lemma eu_grow_spec : forall fuel a r, inf_ok r -> inf_value r <> 0 ->
  (S (length a) - length r < fuel)%nat ->
  exists k, eu_grow fuel a r = Ok (r ++ repeat 0 k) /\ (length a < length r + k)%nat.
Proof.
  induction fuel as [|f IH]; intros a r Hr Hz Hf; [lia|].
  cbn [eu_grow]. destruct (Nat.leb_spec (length r) (length a)) as [H|H].
  - rewrite inf_shl_shape8 by auto.
    destruct (IH a (r ++ [0])) as [k [E L]].
    + split; [apply app_ne_nil_l; apply Hr|]. apply bytes_ok_app. split; [apply Hr|]. repeat constructor.
    + rewrite inf_value_snoc. lia.
    + rewrite app_length. cbn [length]. lia.
    + exists (S k). rewrite E. rewrite <- app_assoc. split; [reflexivity|]. rewrite app_length in L. cbn [length] in L. lia.
  - exists 0%nat. rewrite app_nil_r. split; [reflexivity|lia].
Qed.

Lemma euclide_spec : forall a b, inf_ok a -> inf_ok b -> inf_value b <> 0 ->
  exists q r, euclide a b = Ok (q, r) /\ inf_ok q /\ inf_ok r /\
    inf_value q = inf_value a / inf_value b /\ inf_value r = inf_value a mod inf_value b.
Proof.
  intros a b Ha Hb Hz. unfold euclide. rewrite is_zero_spec by apply Hb.
  destruct (N.eqb_spec (inf_value b) 0); [contradiction|].
  rewrite inf_lt_spec by auto. destruct (N.ltb_spec (inf_value a) (inf_value b)) as [H|H].
  - exists [0], a. split; auto. split; [apply inf_ok_0|]. split; auto.
    rewrite N.div_small, N.mod_small by auto. auto.
  - pose proof (reduce_if_ok a Ha) as Oa. pose proof (reduce_if_ok b Hb) as Ob.
    pose proof (reduce_if_value a) as Va. pose proof (reduce_if_value b) as Vb.
    pose proof (reduce_if_canon b (proj1 Hb)) as Cb.
    destruct (eu_grow_spec (S (length (reduce_if a))) (reduce_if a) (reduce_if b)) as [k [E L]]; auto; try lia.
    { destruct (reduce_if b) as [|x y] eqn:Eb; [exfalso; apply (proj1 Ob); auto|cbn [length]; lia]. }
    rewrite E. cbn [bind].
    assert (Or : inf_ok (reduce_if b ++ repeat 0 k)).
    { split; [apply app_ne_nil_l; apply Ob|]. apply bytes_ok_app. split; [apply Ob|apply bytes_ok_zeros]. }
    destruct (eu_loop_spec (S (length (reduce_if b ++ repeat 0 k))) k (reduce_if a) b (reduce_if b ++ repeat 0 k) [0])
      as (q & r & E2 & Oq & Orr & L1 & L2); auto using inf_ok_0.
    + rewrite inf_value_app_zeros, Vb. reflexivity.
    + rewrite inf_value_app_zeros.
      assert (Hb0 : reduce_if b <> [0]) by (intro Q; rewrite Q in Vb; rewrite <- Vb in Hz; apply Hz; reflexivity).
      pose proof (canon_lower _ Cb (proj2 Ob) Hb0) as Lb.
      pose proof (inf_value_bound _ (proj2 Oa)) as Ba.
      assert (P : p256 (length (reduce_if a)) <= p256 (length (reduce_if b) - 1 + k)) by (apply p256_mono; lia).
      rewrite p256_add in P. pose proof (p256_pos k). nia.
    + rewrite app_length, repeat_length. lia.
    + exists q, r. split; auto. split; auto. split; auto.
      rewrite inf_value_single in L2. rewrite Va in L2.
      split; [apply N.div_unique with (inf_value r)|apply N.mod_unique with (inf_value q)]; auto; lia.
Qed.

Lemma euclide_zero : forall a b, bytes_ok b -> inf_value b = 0 -> euclide a b = Err Einfinint.
Proof.
  intros a b Hb Hz. unfold euclide. rewrite is_zero_spec by auto. rewrite Hz. reflexivity.
Qed.

(** ** shifts by an infinint amount *)
Lemma shift_chunks_spec : forall (f : infinint -> N -> infinint) (g : N -> N -> N),
  (forall a n, inf_ok a -> inf_value (f a n) = g (inf_value a) n /\ inf_ok (f a n)) ->
  (forall v n m, g (g v n) m = g v (n + m)) ->
  forall fuel a n, inf_ok a -> n < N.of_nat fuel * U32_MAX ->
  exists r, shift_chunks f fuel a n = Ok r /\ inf_value r = g (inf_value a) n /\ inf_ok r.
Proof.
  intros f g Hf Hg. induction fuel as [|k IH]; intros a n Ha Hn; [lia|].
  cbn [shift_chunks]. destruct (Hf a (N.min n U32_MAX) Ha) as [V O].
  unfold U32_MAX in *.
  destruct (N.eqb_spec (N.min (n - N.min n 4294967295) 4294967295) 0) as [E|E].
  - eexists. split; [reflexivity|]. split; auto. rewrite V. f_equal. lia.
  - destruct (IH (f a (N.min n 4294967295)) (n - N.min n 4294967295) O) as (r & E1 & V1 & O1); [lia|].
    exists r. split; auto. split; auto. rewrite V1, V, Hg. f_equal. lia.
Qed.

Lemma inf_shl_inf_spec : forall a n, inf_ok a ->
  exists r, inf_shl_inf a n = Ok r /\ inf_value r = inf_value a * 2 ^ n /\ inf_ok r.
Proof.
  intros a n Ha. unfold inf_shl_inf.
  apply (shift_chunks_spec inf_shl (fun v n => v * 2 ^ n)); auto.
  - intros; apply inf_shl_spec; auto.
  - intros. rewrite N.pow_add_r. lia.
  - rewrite N2Nat.id. unfold U32_MAX. lia.
Qed.
Lemma inf_shr_inf_spec : forall a n, inf_ok a ->
  exists r, inf_shr_inf a n = Ok r /\ inf_value r = inf_value a / 2 ^ n /\ inf_ok r.
Proof.
  intros a n Ha. unfold inf_shr_inf.
  apply (shift_chunks_spec inf_shr (fun v n => v / 2 ^ n)); auto.
  - intros; apply inf_shr_spec; auto.
  - intros. rewrite N.pow_add_r. apply N.div_div; apply N.pow_nonzero; lia.
  - rewrite N2Nat.id. unfold U32_MAX. lia.
Qed.

(** ** unstack *)
Lemma canon_len_bound : forall a s, canon a -> bytes_ok a -> inf_value a < p256 s -> (1 <= s)%nat -> (length a <= s)%nat.
Proof.
  intros a s C O H Hs. destruct (list_eq_dec N.eq_dec a [0]) as [->|Hn]; [cbn; lia|].
  pose proof (canon_lower a C O Hn) as L. destruct (le_lt_dec (length a) s) as [|G]; auto.
  pose proof (p256_mono s (length a - 1) ltac:(lia)). lia.
Qed.

Lemma inf_unstack_spec : forall size maxT a v, inf_ok a -> v <= maxT -> maxT < 2 ^ 64 -> maxT < p256 size -> (1 <= size)%nat ->
  exists r v', inf_unstack size maxT a v = Ok (r, v') /\ inf_ok r /\
    v' = N.min (v + inf_value a) maxT /\ inf_value r = inf_value a - (v' - v).
Proof.
  intros size maxT a v Ha Hv HT Hs H1. unfold inf_unstack.
  destruct (N.ltb_spec maxT v) as [?|_]; [lia|].
  destruct (inf_of_spec (maxT - v) ltac:(lia)) as [Vs Os].
  rewrite inf_lt_spec by auto. rewrite Vs.
  destruct (N.ltb_spec (inf_value a) (maxT - v)) as [H|H].
  - pose proof (reduce_if_ok a Ha) as Oa.
    destruct (inf_sub_ok (reduce_if a) (reduce_if a) Oa Oa ltac:(lia)) as (z & E & V & O & _).
    rewrite E. cbn [bind]. exists z. eexists. split; [reflexivity|]. split; auto.
    assert (L : (length (reduce_if a) <= size)%nat).
    { apply canon_len_bound; auto. apply reduce_if_canon, Ha. apply Oa. rewrite reduce_if_value. lia. }
    replace (length (reduce_if a) - size)%nat with 0%nat by lia. cbn [skipn].
    change (fold_left (fun a0 b => a0 * 256 + b) (reduce_if a) 0) with (inf_value (reduce_if a)).
    rewrite V, reduce_if_value. split; lia.
  - destruct (inf_sub_ok a (inf_of (maxT - v)) Ha Os ltac:(lia)) as (z & E & V & O & _).
    rewrite E. cbn [bind]. exists z, maxT. split; [reflexivity|]. split; auto. rewrite V, Vs. split; lia.
Qed.

(** ** indexing, power *)
Lemma inf_index_spec : forall a pos, bytes_ok a -> inf_index a pos = (inf_value a / p256 pos) mod 256.
Proof.
  intros a pos H. unfold inf_index. rewrite <- le_val_rev. apply bytes_ok_rev in H.
  revert pos. induction (rev a) as [|b r IH]; intro pos.
  - cbn [le_val]. rewrite N.div_0_l by (pose proof (p256_pos pos); lia). destruct pos; reflexivity.
  - apply bytes_ok_cons in H. destruct H as [Hb Hr]. unfold is_byte in Hb. destruct pos as [|p]; cbn [nth le_val].
    + rewrite p256_0, N.div_1_r. rewrite (N.mul_comm 256), N.mod_add by lia. rewrite N.mod_small; auto.
    + rewrite p256_S, <- N.div_div by (pose proof (p256_pos p); lia).
      rewrite (N.mul_comm 256 (le_val r)), N.div_add by lia. rewrite (N.div_small b) by auto. rewrite N.add_0_l. auto.
Qed.

Lemma inf_power_spec : forall a e, inf_ok a ->
  inf_value (inf_power a e) = inf_value a ^ N.of_nat e /\ inf_ok (inf_power a e).
Proof.
  intros a e Ha. induction e as [|e [V O]]; cbn [inf_power].
  - apply inf_of_spec. reflexivity.
  - destruct (inf_mul_spec _ _ O Ha) as [V1 O1]. split; auto.
    rewrite V1, V, Nat2N.inj_succ, N.pow_succ_r'. lia.
Qed.

(** ** serialisation *)
Lemma inf_read_zeros : forall k f s, inf_read_from (repeat 0 k ++ f) s = inf_read_from f (s + N.of_nat k).
Proof.
  induction k as [|k IH]; intros f s; cbn [repeat app].
  - f_equal. lia.
  - cbn [inf_read_from N.eqb]. rewrite IH. f_equal. lia.
Qed.

(** the marker byte: exactly one bit set *)
Definition marker (i : N) : N := N.shiftr 128 i.

Lemma marker_read : forall i f s, i < 8 ->
  inf_read_from (marker i :: f) s =
  if N.of_nat (length f) <? (s * 8 + i + 1) * 4 then Err Erange
  else Ok (reduce (firstn (N.to_nat ((s * 8 + i + 1) * 4)) f), skipn (N.to_nat ((s * 8 + i + 1) * 4)) f).
Proof.
  intros i f s Hi.
  assert (G : forall m, inf_read_from (m :: f) s = 
     if m =? 0 then inf_read_from f (s + 1) else
     if negb (fold_left N.add (expand_byte m) 0 =? 1) then Err Erange else
     let len := (s * 8 + (first_one (expand_byte m) + 1)) * TG in
     if N.of_nat (length (firstn (N.to_nat len) f)) <? len then Err Erange
        else Ok (reduce (firstn (N.to_nat len) f), skipn (N.to_nat len) f)) by reflexivity.
  rewrite G. unfold marker.
  assert (M : N.shiftr 128 i =? 0 = false /\ negb (fold_left N.add (expand_byte (N.shiftr 128 i)) 0 =? 1) = false
              /\ first_one (expand_byte (N.shiftr 128 i)) = i).
  { assert (H : i = 0 \/ i = 1 \/ i = 2 \/ i = 3 \/ i = 4 \/ i = 5 \/ i = 6 \/ i = 7) by lia.
    destruct H as [->|[->|[->|[->|[->|[->|[->| ->]]]]]]]; repeat split; reflexivity. }
  destruct M as (M1 & M2 & M3). rewrite M1, M2, M3. cbv zeta. unfold TG.
  replace ((s * 8 + (i + 1)) * 4) with ((s * 8 + i + 1) * 4) by lia.
  rewrite firstn_length.
  destruct (N.ltb_spec (N.of_nat (Nat.min (N.to_nat ((s * 8 + i + 1) * 4)) (length f))) ((s * 8 + i + 1) * 4)) as [H|H];
  destruct (N.ltb_spec (N.of_nat (length f)) ((s * 8 + i + 1) * 4)) as [H'|H']; auto; lia.
Qed.

Lemma not_marker_read : forall m f s, m < 256 -> m <> 0 -> (forall i, i < 8 -> m <> marker i) ->
  inf_read_from (m :: f) s = Err Erange.
Proof.
  intros m f s Hm Hz Hn.
  assert (E : fold_left N.add (expand_byte m) 0 =? 1 = false).
  { assert (T : forallb (fun k => let m := N.of_nat k in
        (m =? 0) || existsb (fun i => m =? marker (N.of_nat i)) (seq 0 8) || negb (fold_left N.add (expand_byte m) 0 =? 1)) (seq 0 256) = true)
      by (vm_compute; reflexivity).
    rewrite forallb_forall in T. specialize (T (N.to_nat m)). rewrite in_seq in T. specialize (T ltac:(lia)).
    cbv zeta in T. rewrite N2Nat.id in T. apply orb_prop in T. destruct T as [T|T].
    - apply orb_prop in T. destruct T as [T|T]; [apply N.eqb_eq in T; contradiction|].
      rewrite existsb_exists in T. destruct T as (i & Hi & T). apply in_seq in Hi. apply N.eqb_eq in T.
      exfalso. apply (Hn (N.of_nat i)); auto; lia.
    - destruct (fold_left N.add (expand_byte m) 0 =? 1); auto. }
  cbn [inf_read_from]. apply N.eqb_neq in Hz. rewrite Hz, E. reflexivity.
Qed.

(** shape of a dump: [k] zero bytes, the marker of bit [i], then 4*(8k+i+1) bytes *)
Lemma inf_dump_shape : forall a, inf_ok a ->
  exists k i data, inf_dump a = repeat 0 k ++ marker i :: data /\ i < 8 /\
    N.of_nat (length data) = (8 * N.of_nat k + i + 1) * 4 /\
    exists z, data = repeat 0 z ++ reduce_if a /\ (z < 4)%nat.
Proof.
  intros a Ha. unfold inf_dump.
  pose proof (reduce_if_ok a Ha) as [Nr _].
  set (r := reduce_if a) in *. set (w := N.of_nat (length r)).
  assert (Hw : 1 <= w) by (unfold w; destruct r; [congruence|cbn [length]; lia]).
  cbv zeta. unfold TG.
  set (g := if w mod 4 =? 0 then w / 4 else w / 4 + 1).
  assert (Hg : 1 <= g /\ 4 * g = w + (if w mod 4 =? 0 then 0 else 4 - w mod 4)).
  { unfold g. destruct (N.eqb_spec (w mod 4) 0); lia. }
  set (zpad := if w mod 4 =? 0 then [] else repeat 0 (N.to_nat (4 - w mod 4))).
  assert (Hz : zpad = repeat 0 (N.to_nat (4 * g - w))).
  { unfold zpad. destruct (N.eqb_spec (w mod 4) 0).
    - replace (4 * g - w) with 0 by lia. reflexivity.
    - f_equal. lia. }
  rewrite Hz. 
  exists (N.to_nat ((g - 1) / 8)), ((g - 1) mod 8), (repeat 0 (N.to_nat (4 * g - w)) ++ r).
  assert (Hpad : 4 * g - w < 4) by (destruct (N.eqb_spec (w mod 4) 0); lia).
  split; [|split; [lia|split]].
  - destruct (N.eqb_spec (g mod 8) 0) as [E|E].
    + cbn [app]. replace ((g - 1) / 8) with (g / 8 - 1) by lia. f_equal. f_equal.
      unfold marker. f_equal. lia.
    + cbn [app]. replace ((g - 1) / 8) with (g / 8) by lia. f_equal. f_equal. unfold marker. f_equal. lia.
  - rewrite app_length, repeat_length, N2Nat.id. fold w. lia.
  - exists (N.to_nat (4 * g - w)). split; auto. lia.
Qed.

Lemma reduce_zeros_app : forall n l, l <> [] -> reduce (repeat 0 n ++ l) = reduce l.
Proof.
  intros n l Hl. unfold reduce. replace (strip0 (repeat 0 n ++ l)) with (strip0 l); auto.
  induction n as [|n IH]; cbn [repeat app strip0 N.eqb]; auto.
Qed.

Lemma canon_reduce : forall l, canon l -> reduce l = l.
Proof.
  intros l [->|(b & r & -> & Hb)]; [reflexivity|].
  unfold reduce. cbn [strip0]. apply N.eqb_neq in Hb. rewrite Hb. reflexivity.
Qed.

Lemma inf_read_dump : forall a rest, inf_ok a -> inf_read (inf_dump a ++ rest) = Ok (reduce_if a, rest).
Proof.
  intros a rest Ha. destruct (inf_dump_shape a Ha) as (k & i & data & E & Hi & Hl & z & Ez & Hz).
  rewrite E. unfold inf_read. rewrite <- app_assoc, inf_read_zeros. cbn [app]. rewrite marker_read by auto.
  rewrite app_length. destruct (N.ltb_spec (N.of_nat (length data + length rest)) ((((0 + N.of_nat k) * 8) + i + 1) * 4)) as [H|H]; [lia|].
  replace (N.to_nat ((((0 + N.of_nat k) * 8) + i + 1) * 4)) with (length data) by lia.
  rewrite firstn_app_exact, skipn_app_exact. f_equal. f_equal.
  rewrite Ez, reduce_zeros_app by (apply reduce_if_ok; auto).
  apply canon_reduce, reduce_if_canon, Ha.
Qed.

Lemma repeat_all0 : forall (p : list N) k q, p ++ q = repeat 0 k -> p = repeat 0 (length p).
Proof.
  induction p as [|x p IH]; intros k q E; cbn [length repeat]; auto.
  destruct k; cbn [repeat app] in E; [discriminate|]. injection E as -> E. f_equal. eauto.
Qed.

Lemma inf_read_prefix : forall a p q, inf_ok a -> inf_dump a = p ++ q -> q <> [] -> inf_read p = Err Erange.
Proof.
  intros a p q Ha E Hq. destruct (inf_dump_shape a Ha) as (k & i & data & E1 & Hi & Hl & _).
  rewrite E1 in E. unfold inf_read.
  destruct (le_lt_dec (length p) k) as [H|H].
  - assert (Hp : p = repeat 0 (length p)).
    { apply (repeat_all0 p k (skipn (length p) (repeat 0 k))).
      rewrite <- (firstn_skipn (length p) (repeat 0 k)) at 2. f_equal.
      apply (f_equal (firstn (length p))) in E. rewrite firstn_app_exact in E.
      rewrite firstn_app, repeat_length in E. replace (length p - k)%nat with 0%nat in E by lia.
      rewrite firstn_O, app_nil_r in E. symmetry. exact E. }
    rewrite Hp, <- (app_nil_r (repeat 0 _)), inf_read_zeros. reflexivity.
  - assert (Hp : p = repeat 0 k ++ marker i :: firstn (length p - k - 1) data).
    { apply (f_equal (firstn (length p))) in E. rewrite firstn_app_exact in E.
      rewrite firstn_app, repeat_length in E. rewrite firstn_all2 in E by (rewrite repeat_length; lia).
      replace (length p - k)%nat with (S (length p - k - 1)) in E by lia. cbn [firstn] in E. symmetry. exact E. }
    assert (Hlen : (length p - k - 1 < length data)%nat).
    { apply (f_equal (@length N)) in E. rewrite !app_length, repeat_length in E. cbn [length] in E.
      destruct q; [congruence|cbn [length] in E; lia]. }
    rewrite Hp, inf_read_zeros, marker_read by auto.
    rewrite firstn_length.
    destruct (N.ltb_spec (N.of_nat (Nat.min (length p - k - 1) (length data))) (((0 + N.of_nat k) * 8 + i + 1) * 4)) as [_|G]; [reflexivity|lia].
Qed.

(** the complete behaviour of the reader *)
Inductive well_formed_inf : list N -> N -> Prop :=
| wf_inf : forall k i data, i < 8 -> N.of_nat (length data) = (8 * N.of_nat k + i + 1) * 4 ->
    well_formed_inf (repeat 0 k ++ marker i :: data) (inf_value data).

Lemma split_zeros : forall f, exists k, f = repeat 0 k \/ exists b r, f = repeat 0 k ++ b :: r /\ b <> 0.
Proof.
  induction f as [|x f (k & IH)].
  - exists 0%nat. left. reflexivity.
  - destruct (N.eq_dec x 0) as [->|Hx].
    + exists (S k). destruct IH as [->|(b & r & -> & Hb)]; [left; reflexivity|right; exists b, r; split; auto].
    + exists 0%nat. right. exists x, f. split; auto.
Qed.

Lemma inf_read_sound : forall f v rest, bytes_ok f -> inf_read f = Ok (v, rest) ->
  exists enc, f = enc ++ rest /\ well_formed_inf enc (inf_value v) /\ inf_ok v.
Proof.
  intros f v rest Hf E. destruct (split_zeros f) as (k & [->|(b & r & -> & Hb)]).
  - unfold inf_read in E. rewrite <- (app_nil_r (repeat 0 k)), inf_read_zeros in E. discriminate.
  - unfold inf_read in E. rewrite inf_read_zeros in E.
    apply bytes_ok_app in Hf. destruct Hf as [_ Hf]. apply bytes_ok_cons in Hf. destruct Hf as [Hb2 Hr].
    destruct (existsb (fun i => b =? marker (N.of_nat i)) (seq 0 8)) eqn:Ex.
    + apply existsb_exists in Ex. destruct Ex as (i & Hi & Ei). apply in_seq in Hi. apply N.eqb_eq in Ei. subst b.
      rewrite marker_read in E by lia.
      set (len := ((0 + N.of_nat k) * 8 + N.of_nat i + 1) * 4) in *.
      destruct (N.ltb_spec (N.of_nat (length r)) len) as [G|G]; [discriminate|].
      injection E as <- <-. exists (repeat 0 k ++ marker (N.of_nat i) :: firstn (N.to_nat len) r). split; [|split].
      * rewrite <- app_assoc. cbn [app]. rewrite firstn_skipn. reflexivity.
      * rewrite reduce_value. constructor; [lia|]. rewrite firstn_length. unfold len in *. lia.
      * apply reduce_ok. apply bytes_ok_firstn; auto.
    + rewrite not_marker_read in E; auto; [discriminate|].
      intros i Hi Eb. assert (X : existsb (fun i => b =? marker (N.of_nat i)) (seq 0 8) = true).
      { apply existsb_exists. exists (N.to_nat i). split; [apply in_seq; lia|]. rewrite N2Nat.id. apply N.eqb_eq. exact Eb. }
      rewrite Ex in X. discriminate.
Qed.

Lemma inf_read_complete : forall enc n rest, well_formed_inf enc n ->
  exists v, inf_read (enc ++ rest) = Ok (v, rest) /\ inf_value v = n.
Proof.
  intros enc n rest [k i data Hi Hl]. unfold inf_read. rewrite <- app_assoc, inf_read_zeros. cbn [app].
  rewrite marker_read by auto. rewrite app_length.
  destruct (N.ltb_spec (N.of_nat (length data + length rest)) ((((0 + N.of_nat k) * 8) + i + 1) * 4)) as [H|H]; [lia|].
  replace (N.to_nat ((((0 + N.of_nat k) * 8) + i + 1) * 4)) with (length data) by lia.
  rewrite firstn_app_exact, skipn_app_exact. eexists. split; [reflexivity|]. apply reduce_value.
Qed.

Lemma inf_read_only_erange : forall f e, inf_read f = Err e -> e = Erange.
Proof.
  intro f. unfold inf_read. generalize 0. induction f as [|a f IH]; intros s e; cbn [inf_read_from].
  - congruence.
  - destruct (a =? 0); eauto. destruct (negb _); [congruence|]. cbv zeta.
    destruct (_ <? _); congruence.
Qed.

(** ** N-level interface *)
Lemma inf_of_N_loop_spec : forall fuel n acc, n < 2 ^ N.of_nat fuel -> bytes_ok acc ->
  (acc = [] \/ exists b r, acc = b :: r) ->
  inf_value (inf_of_N_loop fuel n acc) = n * p256 (length acc) + inf_value acc
  /\ bytes_ok (inf_of_N_loop fuel n acc)
  /\ (n = 0 -> inf_of_N_loop fuel n acc = acc)
  /\ (n <> 0 -> exists b r, inf_of_N_loop fuel n acc = b :: r /\ b <> 0).
Proof.
  induction fuel as [|k IH]; intros n acc Hn Ha Hs; cbn [inf_of_N_loop].
  - change (2 ^ N.of_nat 0) with 1 in Hn. replace n with 0 by lia. repeat split; auto; try lia.
  - destruct (N.eqb_spec n 0) as [->|Hz].
    + repeat split; auto; lia.
    + destruct (IH (n / 256) (n mod 256 :: acc)) as (V & B & Z & NZ).
      * rewrite Nat2N.inj_succ, N.pow_succ_r' in Hn. lia.
      * apply bytes_ok_cons. split; auto. unfold is_byte. lia.
      * right; eauto.
      * repeat split; auto; try lia.
        -- rewrite V. cbn [length]. rewrite inf_value_cons, p256_S. pose proof (N.div_mod n 256 ltac:(lia)). nia.
        -- intros _. destruct (N.eq_dec (n / 256) 0) as [E|E]; [|apply NZ; auto].
           exists (n mod 256), acc. split; [apply Z; auto|]. lia.
Qed.

Lemma inf_of_N_spec : forall n, inf_value (inf_of_N n) = n /\ inf_ok (inf_of_N n) /\ canon (inf_of_N n).
Proof.
  intro n. unfold inf_of_N.
  destruct (inf_of_N_loop_spec (N.to_nat (N.size n)) n []) as (V & B & Z & NZ); auto using bytes_ok_nil.
  { rewrite N2Nat.id. apply N.size_gt. }
  cbn [length] in V. rewrite p256_0, inf_value_nil in V.
  destruct (N.eq_dec n 0) as [->|Hn].
  - rewrite Z by auto. repeat split; try discriminate; auto. repeat constructor. left; reflexivity.
  - destruct (NZ Hn) as (b & r & E & Hb). rewrite E in *. repeat split; auto; try discriminate; try lia. right. eauto.
Qed.

Lemma inf_dump_canonical : forall a, inf_ok a -> inf_dump a = dumpN (inf_value a).
Proof.
  intros a Ha. unfold dumpN.
  assert (E : reduce_if a = inf_of_N (inf_value a)).
  { destruct (inf_of_N_spec (inf_value a)) as (V & O & C).
    apply canon_unique; auto. apply reduce_if_canon, Ha. apply reduce_if_ok; auto. apply O.
    rewrite reduce_if_value. auto. }
  assert (E2 : reduce_if (inf_of_N (inf_value a)) = inf_of_N (inf_value a)).
  { destruct (inf_of_N_spec (inf_value a)) as (V & O & C). destruct C as [->|(b & r & -> & Hb)]; auto.
    destruct b; [congruence|reflexivity]. }
  unfold inf_dump. rewrite E, E2. reflexivity.
Qed.

Lemma readN_dumpN : forall n rest, readN (dumpN n ++ rest) = Ok (n, rest).
Proof.
  intros n rest. unfold readN, dumpN. destruct (inf_of_N_spec n) as (V & O & C).
  rewrite inf_read_dump by auto. cbn [bind]. rewrite reduce_if_value, V. reflexivity.
Qed.

Lemma readN_prefix : forall n p q, dumpN n = p ++ q -> q <> [] -> readN p = Err Erange.
Proof.
  intros n p q E Hq. unfold readN. destruct (inf_of_N_spec n) as (V & O & C).
  rewrite (inf_read_prefix (inf_of_N n) p q); auto.
Qed.

Lemma dumpN_ok : forall n, bytes_ok (dumpN n).
Proof.
  intro n. unfold dumpN. destruct (inf_of_N_spec n) as (V & O & C).
  destruct (inf_dump_shape _ O) as (k & i & data & E & Hi & Hl & z & Ez & Hz). rewrite E.
  apply bytes_ok_app. split; [apply bytes_ok_zeros|]. apply bytes_ok_cons. split.
  - unfold is_byte, marker. rewrite N.shiftr_div_pow2. pose proof (pow2_pos i).
    apply N.div_lt_upper_bound; lia.
  - rewrite Ez. apply bytes_ok_app. split; [apply bytes_ok_zeros|]. apply reduce_if_ok; auto.
Qed.

Lemma dumpN_ne : forall n, dumpN n <> [].
Proof.
  intros n E. pose proof (readN_dumpN n []) as H. rewrite app_nil_r, E in H. discriminate.
Qed.

Lemma dumpN_inj : forall n m r s, dumpN n ++ r = dumpN m ++ s -> n = m /\ r = s.
Proof.
  intros n m r s E. pose proof (readN_dumpN n r) as H. rewrite E, readN_dumpN in H.
  injection H as -> ->. auto.
Qed.

Lemma readN_only_erange : forall f e, readN f = Err e -> e = Erange.
Proof.
  intros f e. unfold readN. destruct (inf_read f) as [[a r]|e'] eqn:E; cbn [bind]; [discriminate|].
  intro H. injection H as <-. eapply inf_read_only_erange; eauto.
Qed.

Lemma readN_sound : forall f n rest, bytes_ok f -> readN f = Ok (n, rest) ->
  exists enc, f = enc ++ rest /\ well_formed_inf enc n.
Proof.
  intros f n rest Hf. unfold readN. destruct (inf_read f) as [[a r]|e] eqn:E; cbn [bind]; [|discriminate].
  intro H. injection H as <- <-. destruct (inf_read_sound f a r Hf E) as (enc & E1 & W & _). eauto.
Qed.

(** ** draining through unstack *)
Lemma inf_drain_spec : forall fuel size maxT a, inf_ok a -> 1 <= maxT -> maxT < 2 ^ 64 -> maxT < p256 size -> (1 <= size)%nat ->
  inf_value a + maxT <= N.of_nat fuel * maxT ->
  exists l, inf_drain fuel size maxT a = Ok l /\ fold_right N.add 0 l = inf_value a
            /\ Forall (fun v => 0 < v /\ v <= maxT) l.
Proof.
  induction fuel as [|k IH]; intros size maxT a Ha H1 H2 H3 H4 Hf; [lia|].
  cbn [inf_drain]. destruct (inf_unstack_spec size maxT a 0) as (r & v & E & O & Ev & Er); auto; [lia|].
  rewrite E. cbn [bind]. destruct (N.eqb_spec v 0) as [Z|Z].
  - exists []. split; auto. split; [|constructor]. cbn [fold_right]. lia.
  - destruct (IH size maxT r O H1 H2 H3 H4) as (l & El & Sl & Fl).
    { rewrite Nat2N.inj_succ in Hf.
      destruct (N.le_gt_cases maxT (inf_value a)) as [G|G].
      - rewrite N.min_r in Ev by lia. lia.
      - rewrite N.min_l in Ev by lia. assert (k <> 0)%nat by (intro; subst k; lia). nia. }
    rewrite El. cbn [bind]. exists (v :: l). split; auto. cbn [fold_right]. split; [lia|].
    constructor; auto. lia.
Qed.

Lemma inf_drain_exists : forall size maxT a, inf_ok a -> 1 <= maxT -> maxT < 2 ^ 64 -> maxT < p256 size -> (1 <= size)%nat ->
  exists fuel l, inf_drain fuel size maxT a = Ok l /\ fold_right N.add 0 l = inf_value a
            /\ Forall (fun v => 0 < v /\ v <= maxT) l.
Proof.
  intros. exists (S (N.to_nat (inf_value a))).
  apply inf_drain_spec; auto. nia.
Qed.

(** length of a stored integer *)
Lemma dumpN_length : forall n s, n < p256 s -> (1 <= s)%nat -> (length (dumpN n) <= 2 * s + 8)%nat.
Proof.
  intros n s H Hs. unfold dumpN. destruct (inf_of_N_spec n) as (V & O & C).
  destruct (inf_dump_shape _ O) as (k & i & data & E & Hi & Hl & z & Ez & Hz). rewrite E.
  rewrite app_length, repeat_length. cbn [length].
  assert (L : (length (reduce_if (inf_of_N n)) <= s)%nat).
  { apply canon_len_bound; auto. apply reduce_if_canon, O. apply reduce_if_ok; auto. rewrite reduce_if_value, V. exact H. }
  assert (length data <= s + 3)%nat by (rewrite Ez, app_length, repeat_length; lia). lia.
Qed.
