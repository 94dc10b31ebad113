(** * Specification and proofs for the block encryption layer. *)
From Verif Require Import Base FileModel ClientSpec CacheProof CryptModel.
Open Scope nat_scope.

(** ** specification *)
(** number of blocks and layout of the encrypted data: block [i] holds the clear bytes from [i * B], encrypted with number [i] *)
Definition nblocks (B : nat) (D : list N) : nat := (length D + B - 1) / B.
Definition block (B : nat) (D : list N) (i : nat) : list N := firstn B (skipn (i * B) D).
Definition layout (C : crypto) (B : nat) (D : list N) : list N := flat_map (fun i => c_enc C i (block B D i)) (seq 0 (nblocks B D)).

(** what the layer expects of the cipher (crypto_module.hpp), plus: a shorter block gives a strictly shorter encrypted block *)
Record good_cipher (C : crypto) (B : nat) : Prop := mk_good {
  gc_B : 0 < B;
  gc_U32 : (N.of_nat B < 4294967296)%N;
  gc_len : forall n c, 0 < length c <= B -> length (c_enc C n c) = c_size C (length c);
  gc_inv : forall n c, 0 < length c <= B -> c_dec C n (c_enc C n c) = Ok c;
  gc_nil : forall n, c_dec C n [] = Ok [];
  gc_strict : forall r, 0 < r < B -> c_size C r < c_size C B;
  gc_pos : 0 < c_size C B;
  gc_alloc : B <= c_alloc C B }.

(** what is required of the trailing clear data [T] and of the function that finds it *)
Definition trailer_ok (C : crypto) (B shift : nat) (cb : option (list N -> res nat)) (D T : list N) : Prop :=
  let L := layout C B D in
  match cb with
  | None => T = []
  | Some f =>
    length T <= c_size C B /\
    (forall k, k <= length L -> f (skipn k (L ++ T)) = Ok (shift + length L)) /\
    (forall k, length L < k -> f (skipn k (L ++ T)) = Ok (shift + length L) \/ exists e, f (skipn k (L ++ T)) = Err e) /\
    (forall b, length L < (b + 1) * c_size C B -> (b + 1) * c_size C B <= length (L ++ T) ->
       c_dec C b (firstn (c_size C B) (skipn (b * c_size C B) (L ++ T))) = Err Erange)
  end.

(** the clear file as its client sees it: reading only, and a skip past the end goes to the end and reports it *)
Definition c_op (o : gop) (f : gfile) : gout * gfile :=
  let n := length (fdata f) in
  let skip p := if (p <? n) || (p =? fpos f) then (OBool true, g_skip p f) else (OBool false, g_skip n f) in
  match o with
  | GSkip p => skip p
  | GRel x => let y := (Z.of_nat (fpos f) + x)%Z in if (y <? 0)%Z then (OBool false, g_skip 0 f) else skip (Z.to_nat y)
  | _ => g_op o f
  end.
Fixpoint c_run (ops : list gop) (f : gfile) : list gout * gfile :=
  match ops with
  | [] => ([], f)
  | o :: r => let '(a, f1) := c_op o f in let '(l, f2) := c_run r f1 in (a :: l, f2)
  end.
(** a reading client; [far] bounds how far past the end of file it may ask to go; [inside] tells it never goes past the end *)
Fixpoint reading (far : N) (inside : bool) (ops : list gop) (f : gfile) : Prop :=
  match ops with
  | [] => True
  | o :: r =>
    let ok p := (N.of_nat p < N.of_nat (length (fdata f)) + far)%N /\ (inside = true -> p < length (fdata f) \/ p = fpos f) in
    (match o with
     | GWrite _ => False
     | GEof => inside = false
     | GSkip p => ok p
     | GRel x => (0 <= Z.of_nat (fpos f) + x)%Z -> ok (Z.to_nat (Z.of_nat (fpos f) + x))
     | _ => True
     end) /\ reading far inside r (snd (c_op o f))
  end.

(** ** layout *)
Lemma nb_bounds : forall B D, 0 < B -> (nblocks B D) * B < length D + B /\ length D <= nblocks B D * B.
Proof.
  intros B D H. unfold nblocks. pose proof (Nat.div_mod (length D + B - 1) B ltac:(lia)) as Q. pose proof (Nat.mod_upper_bound (length D + B - 1) B ltac:(lia)). nia.
Qed.
Lemma nb_ge : forall B D i, 0 < B -> (nblocks B D <= i <-> length D <= i * B).
Proof. intros B D i H. pose proof (nb_bounds B D H). split; intro; nia. Qed.
Lemma block_len : forall B D i, length (block B D i) = Nat.min B (length D - i * B).
Proof. intros. unfold block. rewrite firstn_length, skipn_length. reflexivity. Qed.
Lemma flat_len_full : forall C B D a k, good_cipher C B -> (a + k) * B <= length D ->
  length (flat_map (fun i => c_enc C i (block B D i)) (seq a k)) = k * c_size C B.
Proof.
  intros C B D a k G. pose proof (gc_B _ _ G) as HB. revert a. induction k as [|k IH]; intros a H; [reflexivity|]. cbn [seq flat_map]. rewrite app_length, IH by lia.
  rewrite (gc_len _ _ G) by (rewrite block_len; nia). rewrite block_len. replace (Nat.min B (length D - a * B)) with B by nia. lia.
Qed.
Lemma layout_split : forall C B D i, good_cipher C B -> i * B < length D ->
  exists P, layout C B D = P ++ c_enc C i (block B D i) ++ flat_map (fun i => c_enc C i (block B D i)) (seq (S i) (nblocks B D - S i)) /\ length P = i * c_size C B.
Proof.
  intros C B D i G H. pose proof (gc_B _ _ G) as HB. assert (L : i < nblocks B D) by (destruct (Nat.lt_ge_cases i (nblocks B D)) as [Q|Q]; [exact Q|apply nb_ge in Q; lia]).
  unfold layout. exists (flat_map (fun i => c_enc C i (block B D i)) (seq 0 i)). replace (nblocks B D) with (i + S (nblocks B D - S i)) at 1 by lia.
  rewrite seq_app, flat_map_app. cbn [seq flat_map]. split; [reflexivity|]. apply flat_len_full; [exact G|lia].
Qed.
Lemma size_le : forall C B r, good_cipher C B -> 0 < r <= B -> c_size C r <= c_size C B.
Proof. intros C B r G H. destruct (Nat.eq_dec r B) as [->|]; [lia|]. pose proof (gc_strict _ _ G r). lia. Qed.
(** length of the layout: [q] full blocks and the last one *)
Lemma layout_len : forall C B D, good_cipher C B ->
  length (layout C B D) = (length D / B) * c_size C B + (if length D mod B =? 0 then 0 else c_size C (length D mod B)).
Proof.
  intros C B D G. pose proof (gc_B _ _ G) as HB. set (q := length D / B). set (r := length D mod B).
  assert (Q : length D = q * B + r) by (pose proof (Nat.div_mod (length D) B ltac:(lia)); unfold q, r; lia).
  assert (R : r < B) by (apply Nat.mod_upper_bound; lia). destruct (Nat.eqb_spec r 0) as [Z|Z].
  - assert (NB : nblocks B D = q) by (apply Nat.le_antisymm; [apply nb_ge; lia|pose proof (nb_bounds B D HB); nia]).
    unfold layout. rewrite NB, flat_len_full by (try exact G; lia). lia.
  - destruct (layout_split C B D q G ltac:(lia)) as (P & EP & LP). assert (NB : nblocks B D = S q) by (apply Nat.le_antisymm; [apply nb_ge; lia|pose proof (nb_bounds B D HB); nia]).
    rewrite EP, NB, Nat.sub_diag. cbn [seq flat_map]. rewrite app_nil_r, app_length, LP, (gc_len _ _ G) by (rewrite block_len; lia). rewrite block_len. f_equal. f_equal. lia.
Qed.
Lemma layout_len_le : forall C B D i, good_cipher C B -> length D <= i * B -> length (layout C B D) <= i * c_size C B.
Proof.
  intros C B D i G H. pose proof (gc_B _ _ G) as HB. rewrite layout_len by exact G. pose proof (Nat.div_mod (length D) B ltac:(lia)) as Q. pose proof (Nat.mod_upper_bound (length D) B ltac:(lia)) as R.
  destruct (Nat.eqb_spec (length D mod B) 0) as [Z|Z]; [assert (length D / B <= i) by nia; nia|].
  assert (S (length D / B) <= i) by nia. pose proof (size_le C B (length D mod B) G ltac:(lia)). nia.
Qed.
Lemma layout_div : forall C B D, good_cipher C B -> length (layout C B D) / c_size C B = length D / B.
Proof.
  intros C B D G. pose proof (gc_pos _ _ G). rewrite layout_len by exact G. rewrite Nat.add_comm, Nat.div_add by lia.
  destruct (Nat.eqb_spec (length D mod B) 0) as [Z|Z]; [rewrite Nat.div_0_l; lia|].
  pose proof (gc_strict _ _ G (length D mod B)). pose proof (Nat.mod_upper_bound (length D) B ltac:(pose proof (gc_B _ _ G); lia)). rewrite Nat.div_small by lia. lia.
Qed.

(** ** loading a block *)
Section Read.
Variable C : crypto.
Variable B shift : nat.
Variable cb : option (list N -> res nat).
Variable pre D T : list N.
Hypothesis G : good_cipher C B.
Hypothesis Hpre : length pre = shift.
Hypothesis HT : trailer_ok C B shift cb D T.
Let L := layout C B D.
Let F := pre ++ L ++ T.
Let E := c_size C B.

Definition weak (s : rtron) : Prop := fdata (r_enc s) = F /\ r_extra s = [] /\ (exists k, r_off s = k * B) /\ (r_buf s = [] \/ r_buf s = block B D (r_off s / B)).

Lemma g_read_eq : forall n p f, fdata f = F -> g_read n (g_skip (p + shift) f) = (firstn n (skipn p (L ++ T)), mk_file F (p + shift + length (firstn n (skipn p (L ++ T))))).
Proof.
  intros n p f Hf. unfold g_read, g_skip. cbn [fdata fpos]. rewrite Hf. unfold F. rewrite (skipn_app (p + shift)), Hpre, (skipn_all2 pre) by lia. replace (p + shift - shift) with p by lia. reflexivity.
Qed.

Lemma load_spec : forall s, weak s -> r_reof s = false ->
  exists enc' reof' eoff', load C B shift cb s = Ok (r_cur s mod B, mk_r enc' (r_cur s / B * B) (block B D (r_cur s / B)) (r_cur s) reof' [] eoff') /\
    fdata enc' = F /\ (reof' = true -> length D <= r_cur s / B * B + length (block B D (r_cur s / B))).
Proof.
  intros s (Hf & Hx & _) Hr. pose proof (gc_B _ _ G) as HB. pose proof (gc_pos _ _ G) as HE. unfold load. unfold CryptModel.E. fold E. rewrite Hr, Hx. set (b := r_cur s / B).
  cbn [length]. replace ((r_eoff s <=? b * E) && (b * E <? r_eoff s + 0)) with false by lia.
  rewrite g_read_eq by exact Hf. set (ebuf := firstn E (skipn (b * E) (L ++ T))).
  assert (BL : length (block B D b) <= c_alloc C B) by (rewrite block_len; pose proof (gc_alloc _ _ G); lia).
  destruct (Nat.lt_ge_cases (b * B) (length D)) as [A|A].
  - (* the block exists *)
    destruct (layout_split C B D b G A) as (P & EP & LP). fold L in EP. fold E in LP. set (c := block B D b) in *. set (R := flat_map _ (seq (S b) _)) in EP.
    assert (Lc : length c = Nat.min B (length D - b * B)) by apply block_len.
    assert (Lm : length (c_enc C b c) = c_size C (length c)) by (apply (gc_len _ _ G); lia).
    assert (Dc : c_dec C b (c_enc C b c) = Ok c) by (apply (gc_inv _ _ G); lia).
    assert (SK : skipn (b * E) (L ++ T) = c_enc C b c ++ R ++ T) by (rewrite EP, <- app_assoc, <- LP, skipn_app, skipn_all, Nat.sub_diag, <- app_assoc; reflexivity).
    unfold ebuf. rewrite SK. destruct (Nat.eq_dec (length c) B) as [Q|Q].
    + assert (length (c_enc C b c) = E) as LE by (rewrite Lm, Q; reflexivity). assert (FE : firstn E (c_enc C b c ++ R ++ T) = c_enc C b c) by (rewrite <- LE; apply firstn_app_exact). rewrite FE, LE. replace (E <? E) with false by lia. cbn [bind]. rewrite Dc. cbn [bind].
      replace (c_alloc C B <? length c) with false by lia. eexists _, _, _. split; [reflexivity|]. split; [reflexivity|discriminate].
    + (* last block, partial *)
      assert (R0 : R = []). { unfold R. replace (nblocks B D - S b) with 0; [reflexivity|]. enough (nblocks B D <= S b) by lia. apply nb_ge; lia. }
      rewrite R0 in *. cbn [app]. assert (LS : length L = b * E + length (c_enc C b c)) by (rewrite EP, app_nil_r, app_length, LP; reflexivity).
      assert (SM : length (c_enc C b c) < E) by (rewrite Lm; apply (gc_strict _ _ G); lia).
      assert (LAST : length D <= b * B + length c) by lia.
      unfold trailer_ok in HT. cbv zeta in HT. fold L E in HT. unfold remove_clear. destruct cb as [f|].
      2:{ assert (T = []) as -> by exact HT. rewrite app_nil_r. rewrite (firstn_all2 (c_enc C b c)) by lia. replace (length (c_enc C b c) <? E) with true by lia. cbn [bind]. rewrite Dc. cbn [bind]. replace (c_alloc C B <? length c) with false by lia. eexists _, _, _. split; [reflexivity|]. split; [reflexivity|]. intros _. exact LAST. }
      destruct HT as (T1 & T2 & T3 & T4). specialize (T2 (b * E) ltac:(lia)). rewrite SK in T2. cbn [app] in T2.
      destruct (Nat.lt_ge_cases (length (c_enc C b c) + length T) E) as [K|K].
      * rewrite (firstn_all2 (c_enc C b c ++ T)) by (rewrite app_length; lia). replace (length (c_enc C b c ++ T) <? E) with true by (rewrite app_length; lia).
        change (0 <? length (@nil N)) with false. cbv iota. rewrite app_nil_r, T2. replace (shift + length L <? shift) with false by lia. cbv zeta. replace (shift + length L - shift <=? b * E) with (length (c_enc C b c) =? 0) by lia.
        destruct (Nat.eqb_spec (length (c_enc C b c)) 0) as [Z|Z].
        -- destruct (c_enc C b c) as [|? ?]; [|discriminate Z]. cbn [bind]. rewrite Dc. cbn [bind]. replace (c_alloc C B <? length c) with false by lia. eexists _, _, _. split; [reflexivity|]. split; [reflexivity|]. intros _. exact LAST.
        -- replace (shift + length L - shift - b * E) with (length (c_enc C b c)) by lia. replace (length (c_enc C b c) <=? length (c_enc C b c ++ T)) with true by (rewrite app_length; lia).
           rewrite firstn_app_exact. cbn [bind]. rewrite Dc. cbn [bind]. replace (c_alloc C B <? length c) with false by lia. eexists _, _, _. split; [reflexivity|]. split; [reflexivity|]. intros _. exact LAST.
      * set (eb := firstn E (c_enc C b c ++ T)). assert (LB : length eb = E) by (unfold eb; rewrite firstn_length, app_length; lia). replace (length eb <? E) with false by lia. cbn [bind].
        specialize (T4 b ltac:(lia) ltac:(rewrite app_length; lia)). rewrite SK in T4. cbn [app] in T4. fold eb in T4. rewrite T4. change (0 <? length (@nil N)) with false. cbv iota. unfold g_read. cbn [fpos fdata].
        assert (X : firstn E (skipn (b * E + shift + length eb) F) = skipn E (c_enc C b c ++ T)).
        { unfold F. rewrite (skipn_app _ pre), Hpre, (skipn_all2 pre) by lia. cbn [app]. replace (b * E + shift + length eb - shift) with (E + b * E) by lia. rewrite <- skipn_skipn, SK. cbn [app]. apply firstn_all2. rewrite skipn_length, app_length. lia. }
        unfold CryptModel.E. fold E. rewrite X. replace (eb ++ skipn E (c_enc C b c ++ T)) with (c_enc C b c ++ T) by (unfold eb; rewrite firstn_skipn; reflexivity). rewrite T2.
        replace (shift + length L <? shift) with false by lia. cbv zeta. replace (shift + length L - shift <=? b * E) with (length (c_enc C b c) =? 0) by lia.
        destruct (Nat.eqb_spec (length (c_enc C b c)) 0) as [Z|Z].
        -- destruct (c_enc C b c) as [|? ?]; [|discriminate Z]. rewrite Dc. cbn [bind]. replace (c_alloc C B <? length c) with false by lia. eexists _, _, _. split; [reflexivity|]. split; [reflexivity|]. intros _. exact LAST.
        -- replace (shift + length L - shift - b * E) with (length (c_enc C b c)) by lia. replace (length (c_enc C b c) <=? length eb) with true by lia.
           replace (firstn (length (c_enc C b c)) eb) with (c_enc C b c) by (unfold eb; rewrite firstn_firstn, Nat.min_l by lia; rewrite firstn_app_exact; reflexivity).
           rewrite Dc. cbn [bind]. replace (c_alloc C B <? length c) with false by lia. eexists _, _, _. split; [reflexivity|]. split; [reflexivity|]. intros _. exact LAST.
  - (* past the end *)
    assert (c0 : block B D b = []) by (unfold block; rewrite skipn_all2 by lia; apply firstn_nil). rewrite c0 in *.
    pose proof (layout_len_le C B D b G A) as LL. fold L E in LL.
    assert (Dn : c_dec C b [] = Ok []) by apply (gc_nil _ _ G).
    assert (LAST : length D <= b * B + length (@nil N)) by (cbn; lia).
    assert (SK : skipn (b * E) (L ++ T) = skipn (b * E - length L) T) by (rewrite skipn_app, skipn_all2 by lia; reflexivity).
    unfold trailer_ok in HT. cbv zeta in HT. fold L E in HT. unfold remove_clear. destruct cb as [f|].
    2:{ assert (T = []) as T0 by exact HT. assert (ebuf = []) as -> by (unfold ebuf; rewrite SK, T0, skipn_nil, firstn_nil; reflexivity). cbn [length]. replace (0 <? E) with true by lia. cbn [bind]. rewrite Dn. cbn [bind length]. replace (c_alloc C B <? 0) with false by lia. eexists _, _, _. split; [reflexivity|]. split; [reflexivity|]. intros _. exact LAST. }
    destruct HT as (T1 & T2 & T3 & T4). change (0 <? length (@nil N)) with false. cbv iota.
    assert (FS : f (skipn (b * E) (L ++ T)) = Ok (shift + length L) \/ exists e, f (skipn (b * E) (L ++ T)) = Err e).
    { destruct (Nat.eq_dec (b * E) (length L)) as [Q|Q]; [left; apply T2; lia|apply T3; lia]. }
    assert (LS : length (skipn (b * E) (L ++ T)) <= E) by (rewrite SK, skipn_length; lia).
    assert (EB : ebuf = skipn (b * E) (L ++ T)) by (unfold ebuf; apply firstn_all2; exact LS).
    destruct (Nat.ltb_spec (length ebuf) E) as [K|K].
    + rewrite app_nil_r, EB. destruct FS as [->|[e ->]].
      * replace (shift + length L <? shift) with false by lia. cbv zeta. replace (shift + length L - shift <=? b * E) with true by lia. cbn [bind]. rewrite Dn. cbn [bind length]. replace (c_alloc C B <? 0) with false by lia. eexists _, _, _. split; [reflexivity|]. split; [reflexivity|]. intros _. exact LAST.
      * cbn [bind]. rewrite Dn. cbn [bind length]. replace (c_alloc C B <? 0) with false by lia. eexists _, _, _. split; [reflexivity|]. split; [reflexivity|]. intros _. exact LAST.
    + cbn [bind]. assert (length T = E /\ b * E = length L) as [TE BE] by (rewrite EB, SK, skipn_length in K; lia).
      specialize (T4 b ltac:(lia) ltac:(rewrite app_length; lia)). fold ebuf in T4. rewrite T4. change (0 <? length (@nil N)) with false. cbv iota. unfold g_read. cbn [fdata fpos]. rewrite (skipn_all2 F) by (unfold F; rewrite !app_length, Hpre; lia). rewrite firstn_nil, app_nil_r, EB, T2 by lia.
      replace (shift + length L <? shift) with false by lia. cbv zeta. replace (shift + length L - shift <=? b * E) with true by lia. rewrite Dn. cbn [bind length]. replace (c_alloc C B <? 0) with false by lia. eexists _, _, _. split; [reflexivity|]. split; [reflexivity|]. intros _. exact LAST.
Qed.

(** ** fill_buf *)
Lemma off_div : forall k, k * B / B = k.
Proof. intro k. apply Nat.div_mul. pose proof (gc_B _ _ G). lia. Qed.
Lemma fill_false : forall s, weak s -> r_reof s = false ->
  exists s', fill_buf C B shift cb s = Ok (r_cur s mod B, s') /\ weak s' /\ r_off s' = r_cur s / B * B /\ r_buf s' = block B D (r_cur s / B) /\ r_cur s' = r_cur s /\
    (r_reof s' = true -> length D <= r_off s' + length (r_buf s')).
Proof.
  intros s W Hr. pose proof (gc_B _ _ G) as HB. unfold fill_buf. rewrite Hr, andb_true_r.
  destruct ((r_cur s <? r_off s) || (r_off s + length (r_buf s) <=? r_cur s)) eqn:Q.
  - destruct (load_spec s W Hr) as (enc' & reof' & eoff' & -> & H1 & H2). eexists. split; [reflexivity|]. unfold weak. cbn [r_enc r_off r_buf r_cur r_reof r_extra].
    repeat split; auto. + eexists; reflexivity. + rewrite off_div. right. reflexivity.
  - destruct W as (W1 & W2 & [k W3] & W4). destruct W4 as [W4|W4]; [rewrite W4 in Q; cbn [length] in Q; lia|].
    rewrite W3, off_div in W4. pose proof (block_len B D k) as BL. rewrite <- W4 in BL.
    assert (K : r_cur s / B = k) by (symmetry; apply (Nat.div_unique (r_cur s) B k (r_cur s - k * B)); lia).
    assert (M : r_cur s mod B = r_cur s - k * B) by (symmetry; apply (Nat.mod_unique (r_cur s) B k (r_cur s - k * B)); lia).
    pose proof (gc_U32 _ _ G). replace (4294967296 <=? N.of_nat (r_cur s - r_off s))%N with false by lia.
    exists s. rewrite K, M, W3. repeat split; auto; try (rewrite Hr; discriminate). + exists k. exact W3. + rewrite W3, off_div. auto.
Qed.
Lemma fill_true : forall s, r_reof s = true -> r_off s <= r_cur s -> (N.of_nat (r_cur s - r_off s) < 4294967296)%N -> fill_buf C B shift cb s = Ok (r_cur s - r_off s, s).
Proof.
  intros s Hr H1 H2. unfold fill_buf. rewrite Hr, andb_false_r, orb_false_r. replace (r_cur s <? r_off s) with false by lia. replace (4294967296 <=? N.of_nat (r_cur s - r_off s))%N with false by lia. reflexivity.
Qed.

Definition rinv (s : rtron) : Prop :=
  weak s /\ r_off s <= r_cur s <= length D /\ (r_reof s = true -> r_buf s = block B D (r_off s / B) /\ r_off s + length (r_buf s) = length D).

Lemma fill_inv : forall s, rinv s -> exists pos s', fill_buf C B shift cb s = Ok (pos, s') /\ rinv s' /\ r_cur s' = r_cur s /\ r_off s' + pos = r_cur s /\ r_buf s' = block B D (r_off s' / B) /\
  (length (r_buf s') <= pos -> r_cur s = length D).
Proof.
  intros s (W & H1 & H2). pose proof (gc_B _ _ G) as HB. destruct (r_reof s) eqn:Hr.
  - destruct (H2 eq_refl) as [H3 H4]. pose proof (gc_U32 _ _ G). pose proof (block_len B D (r_off s / B)) as BL. rewrite <- H3 in BL. rewrite fill_true by (auto; lia). exists (r_cur s - r_off s), s. split; [reflexivity|]. split; [split; [exact W|]; split; [lia|]; auto|]. repeat split; auto; lia.
  - destruct (fill_false s W Hr) as (s' & -> & W' & E1 & E2 & E3 & E4). pose proof (Nat.div_mod (r_cur s) B ltac:(lia)) as DM. exists (r_cur s mod B), s'. split; [reflexivity|].
    assert (LB : length (r_buf s') = Nat.min B (length D - r_off s')) by (rewrite E2, E1, block_len; reflexivity).
    assert (E5 : r_buf s' = block B D (r_off s' / B)) by (rewrite E1, off_div; exact E2). pose proof (Nat.mod_upper_bound (r_cur s) B ltac:(lia)) as MB.
    unfold rinv. rewrite E3. split; [split; [exact W'|]; split; [lia|]; intro R; specialize (E4 R); split; [exact E5|lia]|]. repeat split; auto; lia.
Qed.

Lemma block_tail : forall o pos, (exists k, o = k * B) -> skipn pos (block B D (o / B)) = firstn (B - pos) (skipn (o + pos) D).
Proof. intros o pos [k ->]. rewrite off_div. unfold block. rewrite skipn_firstn_comm, skipn_skipn. f_equal. f_equal. lia. Qed.

Lemma tr_read_loop_spec : forall n fuel got s, rinv s -> length got <= n -> n - length got < fuel ->
  let want := firstn (n - length got) (skipn (r_cur s) D) in
  exists s', tr_read_loop C B shift cb fuel n got s = Ok (got ++ want, s') /\ rinv s' /\ r_cur s' = r_cur s + length want.
Proof.
  intros n. induction fuel as [|k IH]; intros got s I Hg Hf want; [lia|]. cbn [tr_read_loop]. destruct (Nat.ltb_spec (length got) n) as [Q|Q].
  2:{ assert (want = []) as -> by (unfold want; replace (n - length got) with 0 by lia; reflexivity). rewrite app_nil_r. exists s. cbn [length]. rewrite Nat.add_0_r. auto. }
  destruct (fill_inv s I) as (pos & s' & -> & I' & E1 & E2 & E3 & E4). cbn [bind]. destruct (Nat.leb_spec (length (r_buf s')) pos) as [K|K].
  - assert (want = []) as -> by (unfold want; rewrite skipn_all2 by (rewrite E4 by exact K; lia); apply firstn_nil). rewrite app_nil_r. exists s'. cbn [length]. rewrite Nat.add_0_r. auto.
  - set (d := firstn (n - length got) (skipn pos (r_buf s'))). destruct I' as ((W1 & W2 & W3 & W4) & I2 & I3).
    pose proof (block_len B D (r_off s' / B)) as BL. rewrite <- E3 in BL. destruct W3 as [k0 W3]. rewrite W3, off_div in BL. rewrite <- W3 in BL.
    assert (Ld : length d = Nat.min (n - length got) (length (r_buf s') - pos)) by (unfold d; rewrite firstn_length, skipn_length; reflexivity).
    assert (T1 : skipn pos (r_buf s') = firstn (B - pos) (skipn (r_cur s) D)) by (rewrite E3, block_tail by (exists k0; exact W3); rewrite E2; reflexivity).
    destruct (IH (got ++ d) (at_cur s' (r_off s' + pos + length d))) as (s2 & -> & I'' & C2).
    + unfold rinv, weak, at_cur. cbn [r_enc r_off r_buf r_cur r_reof r_extra]. repeat split; eauto; try lia; intros; apply I3; assumption.
    + rewrite app_length. lia.
    + rewrite app_length. lia.
    + unfold at_cur in C2. cbn [r_enc r_off r_buf r_cur r_reof r_extra at_cur] in *. rewrite E2 in *.
      assert (WW : want = d ++ firstn (n - length (got ++ d)) (skipn (r_cur s + length d) D)).
      { assert (DD : d = firstn (length d) (skipn (r_cur s) D)).
        { rewrite Ld. unfold d. rewrite T1, firstn_firstn. destruct (Nat.le_gt_cases (n - length got) (length (r_buf s') - pos)) as [X|X]; [f_equal; lia|].
          destruct (Nat.le_gt_cases B (length D - r_off s')) as [Y|Y]; [f_equal; lia|]. rewrite (firstn_all2 (skipn (r_cur s) D)) by (rewrite skipn_length; lia). symmetry. apply firstn_all2. rewrite skipn_length. lia. }
        unfold want. rewrite app_length. replace (n - length got) with (length d + (n - (length got + length d))) by lia. rewrite firstn_add, skipn_skipn, (Nat.add_comm (length d)). rewrite <- DD. f_equal. }
      exists s2. rewrite WW at 1. rewrite <- app_assoc. split; [reflexivity|]. split; [exact I''|]. rewrite C2. rewrite WW. set (X := firstn _ (skipn (r_cur s + length d) D)). rewrite (app_length d X). lia.
Qed.

(** ** skips *)
Lemma tr_skip_eof_spec : forall s, (length L + length T) / E = length D / B -> weak s ->
  exists s', tr_skip_eof C B shift cb s = Ok s' /\ rinv s' /\ r_cur s' = length D.
Proof.
  intros s X W. pose proof (gc_B _ _ G) as HB. unfold tr_skip_eof, g_skip_eof. cbn [fpos]. unfold CryptModel.E. fold E.
  destruct W as (W1 & W2 & W3 & W4). rewrite W1. assert (LF : length F = shift + (length L + length T)) by (unfold F; rewrite !app_length, Hpre; lia). rewrite LF.
  replace (shift + (length L + length T) <? shift) with false by lia. replace (shift + (length L + length T) - shift) with (length L + length T) by lia. rewrite X.
  match goal with |- context [fill_buf C B shift cb ?s0] => destruct (fill_false s0) as (s' & -> & W' & E1 & E2 & E3 & E4) end.
  - unfold weak, with_reof, at_cur, with_enc. cbn [r_enc r_off r_buf r_cur r_reof r_extra fdata]. auto.
  - reflexivity.
  - cbn [bind]. unfold with_enc, at_cur, with_reof in *. cbn [r_enc r_off r_buf r_cur r_reof r_extra fdata] in *. rewrite off_div in *.
    pose proof (Nat.div_mod (length D) B ltac:(lia)) as DM. pose proof (Nat.mod_upper_bound (length D) B ltac:(lia)) as MB. pose proof (block_len B D (length D / B)) as BL. rewrite <- E2 in BL.
    eexists. split; [reflexivity|]. unfold rinv, weak. cbn [r_enc r_off r_buf r_cur r_reof r_extra fdata]. destruct W' as (V1 & V2 & V3 & V4). rewrite V1.
    assert (r_buf s' = block B D (r_off s' / B)) by (rewrite E1, off_div; exact E2). repeat split; auto; try lia.
Qed.

Definition sees (s : rtron) : gfile := mk_file D (r_cur s).
Lemma tr_skip_spec : forall p s, rinv s -> (N.of_nat p < N.of_nat (length D) + (4294967296 - N.of_nat B))%N ->
  (length L + length T) / E = length D / B \/ (p < length D \/ p = r_cur s) ->
  exists s', tr_skip C B shift cb p s = Ok ((p <? length D) || (p =? r_cur s), s') /\ rinv s' /\
    r_cur s' = if (p <? length D) || (p =? r_cur s) then p else length D.
Proof.
  intros p s I Far X. pose proof (gc_B _ _ G) as HB. pose proof (gc_U32 _ _ G) as G32. unfold tr_skip. rewrite (Nat.eqb_sym p). destruct (Nat.eqb_spec (r_cur s) p) as [Q|Q].
  { exists s. rewrite orb_true_r. auto. }
  rewrite orb_false_r. set (s1 := if p <? r_off s then with_reof s false else s). destruct I as (W & I2 & I3).
  assert (W1 : weak (at_cur s1 p)) by (unfold s1; destruct (p <? r_off s); exact W).
  assert (FB : exists pos s2, fill_buf C B shift cb (at_cur s1 p) = Ok (pos, s2) /\ weak s2 /\ r_cur s2 = p /\ ((pos <? length (r_buf s2)) = (p <? length D)) /\ (p < length D -> rinv s2)).
  { destruct (r_reof (at_cur s1 p)) eqn:R.
    - assert (R' : r_reof s = true /\ r_off s <= p) by (unfold s1, at_cur, with_reof in R; destruct (Nat.ltb_spec p (r_off s)); cbn [r_reof] in R; [discriminate|auto]). destruct R' as [R1 R2]. destruct (I3 R1) as [I4 I5].
      assert (S1 : s1 = s) by (unfold s1; replace (p <? r_off s) with false by lia; reflexivity). rewrite S1 in *. pose proof (block_len B D (r_off s / B)) as BL. rewrite <- I4 in BL.
      rewrite fill_true by (cbn [at_cur r_reof r_off r_cur]; auto; lia). cbn [at_cur r_off r_cur]. eexists _, _. split; [reflexivity|]. split; [exact W1|]. split; [reflexivity|]. cbn [at_cur r_buf]. split; [destruct (Nat.ltb_spec p (length D)), (Nat.ltb_spec (p - r_off s) (length (r_buf s))); auto; lia|].
      intro PL. split; [exact W1|]. cbn [at_cur r_off r_cur r_reof r_buf]. split; [lia|]. auto.
    - destruct (fill_false _ W1 R) as (s2 & -> & W2 & E1 & E2 & E3 & E4). cbn [at_cur r_cur] in *. pose proof (Nat.div_mod p B ltac:(lia)) as DM. pose proof (Nat.mod_upper_bound p B ltac:(lia)) as MB. pose proof (block_len B D (p / B)) as BL. rewrite <- E2 in BL.
      eexists _, _. split; [reflexivity|]. split; [exact W2|]. split; [exact E3|]. split; [destruct (Nat.ltb_spec p (length D)), (Nat.ltb_spec (p mod B) (length (r_buf s2))); auto; lia|].
      intro PL. split; [exact W2|]. split; [lia|]. intro R2. specialize (E4 R2). rewrite E1, off_div. split; [exact E2|]. lia. }
  destruct FB as (pos & s2 & -> & W2 & E3 & PB & RI). cbn [bind]. rewrite PB. destruct (Nat.ltb_spec p (length D)) as [PL|PL].
  - exists s2. auto.
  - destruct X as [X|X]; [|lia]. destruct (tr_skip_eof_spec s2 X W2) as (s3 & -> & I4 & C3). cbn [bind]. exists s3. auto.
Qed.

Lemma tr_op_spec : forall o s inside, rinv s -> (inside = true \/ (length L + length T) / E = length D / B) ->
  (match o with
   | GWrite _ => False
   | GEof => inside = false
   | GSkip p => (N.of_nat p < N.of_nat (length D) + (4294967296 - N.of_nat B))%N /\ (inside = true -> p < length D \/ p = r_cur s)
   | GRel x => (0 <= Z.of_nat (r_cur s) + x)%Z -> (N.of_nat (Z.to_nat (Z.of_nat (r_cur s) + x)) < N.of_nat (length D) + (4294967296 - N.of_nat B))%N /\ (inside = true -> Z.to_nat (Z.of_nat (r_cur s) + x) < length D \/ Z.to_nat (Z.of_nat (r_cur s) + x) = r_cur s)
   | _ => True
   end) ->
  exists s', tr_op C B shift cb o s = Ok (fst (c_op o (sees s)), s') /\ rinv s' /\ sees s' = snd (c_op o (sees s)).
Proof.
  intros o s inside I X Ho. pose proof (gc_U32 _ _ G) as G32. unfold sees. destruct o as [n|a|p| |x|]; cbn [tr_op c_op g_op fst snd fdata fpos]; try contradiction.
  - unfold tr_read. destruct (tr_read_loop_spec n (S n) [] s I ltac:(cbn; lia) ltac:(cbn; lia)) as (s' & -> & I' & C'). cbn [length app bind] in *. rewrite Nat.sub_0_r in *. unfold g_read. cbn [fst snd fdata fpos]. exists s'. rewrite C'. auto.
  - destruct Ho as [Ho1 Ho2]. destruct (tr_skip_spec p s I Ho1) as (s' & -> & I' & C'); [destruct X; auto|]. cbn [bind]. exists s'. destruct ((p <? length D) || (p =? r_cur s)); cbn [fst snd g_skip fdata]; rewrite C'; auto.
  - destruct X as [X|X]; [congruence|]. destruct (tr_skip_eof_spec s X (proj1 I)) as (s' & -> & I' & C'). cbn [bind]. exists s'. rewrite C'. auto.
  - unfold tr_skip_relative. destruct (Z.ltb_spec (Z.of_nat (r_cur s) + x) 0) as [Q|Q].
    + replace (0 <=? x)%Z with false by lia. replace (- x <=? Z.of_nat (r_cur s))%Z with false by lia.
      assert (CD : r_cur s <= length D) by apply I.
      destruct (tr_skip_spec 0 s I ltac:(lia)) as (s' & -> & I' & C'); [lia|]. cbn [bind fst snd g_skip fdata]. exists s'. rewrite C'. split; [reflexivity|]. split; [exact I'|]. f_equal. destruct (Nat.ltb_spec 0 (length D)); cbn [orb]; [reflexivity|]. replace (0 =? r_cur s) with true by lia. reflexivity.
    + specialize (Ho Q). destruct Ho as [Ho1 Ho2]. set (y := Z.to_nat (Z.of_nat (r_cur s) + x)) in *.
      assert (R : (if (0 <=? x)%Z then tr_skip C B shift cb (r_cur s + Z.to_nat x) s else if (- x <=? Z.of_nat (r_cur s))%Z then tr_skip C B shift cb (r_cur s - Z.to_nat (- x)) s else let* '(_, s0) := tr_skip C B shift cb 0 s in Ok (false, s0)) = tr_skip C B shift cb y s).
      { destruct (Z.leb_spec 0 x); [f_equal; unfold y; lia|]. replace (- x <=? Z.of_nat (r_cur s))%Z with true by lia. f_equal. unfold y. lia. }
      rewrite R. destruct (tr_skip_spec y s I Ho1) as (s' & -> & I' & C'); [destruct X; auto|]. cbn [bind]. exists s'. destruct ((y <? length D) || (y =? r_cur s)); cbn [fst snd g_skip fdata]; rewrite C'; auto.
  - exists s. auto.
Qed.
Lemma tr_run_spec : forall inside ops s, (inside = true \/ (length L + length T) / E = length D / B) -> rinv s ->
  reading (4294967296 - N.of_nat B) inside ops (sees s) ->
  exists s', tr_run C B shift cb ops s = Ok (fst (c_run ops (sees s)), s') /\ rinv s' /\ sees s' = snd (c_run ops (sees s)).
Proof.
  intros inside. induction ops as [|o r IH]; intros s X I H; cbn [tr_run c_run]; [exists s; auto|]. destruct H as [H1 H2].
  destruct (tr_op_spec o s inside I X) as (s1 & -> & I1 & V1); [destruct o; exact H1|]. cbn [bind]. destruct (c_op o (sees s)) as [a f1] eqn:Ec. cbn [fst snd] in *. rewrite <- V1 in *.
  destruct (IH s1 X I1 H2) as (s2 & -> & I2 & V2). cbn [bind]. destruct (c_run r (sees s1)) as [l f2]. cbn [fst snd] in *. exists s2. auto.
Qed.
Lemma tr_open_inv : forall pos, exists s, tr_open B (mk_file F pos) = Ok s /\ rinv s /\ sees s = mk_file D 0.
Proof.
  intro pos. pose proof (gc_B _ _ G). unfold tr_open. replace (B =? 0) with false by lia. eexists. split; [reflexivity|]. split; [|reflexivity].
  unfold rinv, weak. cbn [r_enc r_off r_buf r_cur r_reof r_extra fdata]. repeat split; auto; try lia; try discriminate. exists 0. reflexivity.
Qed.
End Read.
