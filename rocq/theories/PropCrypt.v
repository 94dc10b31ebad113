(** * C29: the block encryption layer stores and gives back the clear data at any position.
    The specification ([layout], [good_cipher], [trailer_ok], [c_run], [reading]) is at the top of CryptProof.v. *)
From Verif Require Import Base FileModel ClientSpec CacheProof ElasticModel PropElastic CryptModel CryptProof.
Open Scope nat_scope.

(** ** writing *)
Section Write.
Variable C : crypto.
Variable B : nat.
Variable pre : list N.
Hypothesis G : good_cipher C B.
Definition full (D : list N) (q : nat) : list N := flat_map (fun i => c_enc C i (block B D i)) (seq 0 q).
Lemma block_app : forall D a i, (i + 1) * B <= length D -> block B (D ++ a) i = block B D i.
Proof. intros D a i H. unfold block. rewrite skipn_app, firstn_app, skipn_length. replace (B - (length D - i * B)) with 0 by lia. rewrite firstn_O, app_nil_r. reflexivity. Qed.
Lemma full_app : forall D a q, q * B <= length D -> full (D ++ a) q = full D q.
Proof.
  intros D a q H. unfold full. rewrite !flat_map_concat_map. f_equal. apply map_ext_in. intros i Hi. apply in_seq in Hi. rewrite block_app by nia. reflexivity.
Qed.
Definition winv (D : list N) (s : wtron) : Prop :=
  w_enc s = mk_file (pre ++ full D (length D / B)) (length (pre ++ full D (length D / B))) /\ w_buf s = skipn (length D / B * B) D /\ w_num s = length D / B /\ w_weof s = false.
Lemma g_write_end : forall f d, g_write d (mk_file f (length f)) = mk_file (f ++ d) (length (f ++ d)).
Proof.
  intros f [|b d]; cbn [g_write]; [rewrite app_nil_r; reflexivity|]. cbn [fdata fpos]. unfold overwrite. rewrite firstn_all, Nat.sub_diag, skipn_all2 by lia. cbn [repeat app]. rewrite app_nil_r, app_length. reflexivity.
Qed.
Lemma flush_ok : forall s, w_weof s = false -> 0 < length (w_buf s) <= B ->
  tw_flush C B true s = Ok (mk_w (g_write (c_enc C (w_num s) (w_buf s)) (w_enc s)) [] (w_num s) false (w_cur s)).
Proof.
  intros s H1 H2. unfold tw_flush. cbn [negb]. rewrite H1. replace (0 <? length (w_buf s)) with true by lia. pose proof (size_le C B (length (w_buf s)) G H2). replace (c_size C B <? c_size C (length (w_buf s))) with false by lia. reflexivity.
Qed.
Lemma write_loop_ok : forall fuel a D s, winv D s -> length a < fuel -> exists s', tw_write_loop C B true fuel a s = Ok s' /\ winv (D ++ a) s' /\ w_cur s' = w_cur s.
Proof.
  pose proof (gc_B _ _ G) as HB. induction fuel as [|k IH]; intros a D s I Hf; [lia|]. cbn [tw_write_loop]. destruct a as [|x a']; [exists s; rewrite app_nil_r; auto|].
  remember (x :: a') as a eqn:Ea. assert (La : 0 < length a) by (subst; cbn; lia). clear Ea x a'. destruct I as (I1 & I2 & I3 & I4).
  pose proof (Nat.div_mod (length D) B ltac:(lia)) as DM. pose proof (Nat.mod_upper_bound (length D) B ltac:(lia)) as MB. set (q := length D / B) in *.
  assert (Lb : length (w_buf s) = length D - q * B) by (rewrite I2, skipn_length; reflexivity). set (n := Nat.min (length a) (B - length (w_buf s))).
  cbn [w_buf w_enc w_num w_weof w_cur]. assert (Ln : length (firstn n a) = n) by (rewrite firstn_length; lia).
  assert (BUF : w_buf s ++ firstn n a = skipn (q * B) (D ++ firstn n a)) by (rewrite I2, skipn_app; replace (q * B - length D) with 0 by lia; reflexivity).
  assert (LD : length (D ++ firstn n a) = length D + n) by (rewrite app_length; lia).
  destruct (Nat.leb_spec B (length (w_buf s ++ firstn n a))) as [Q|Q]; rewrite app_length in Q.
  - rewrite flush_ok by (cbn [w_weof w_buf]; rewrite ?app_length; auto; lia). cbn [bind w_buf w_enc w_num w_weof w_cur].
    assert (DQ : (length D + n) / B = S q) by (symmetry; apply (Nat.div_unique (length D + n) B (S q) 0); lia).
    match goal with |- context [tw_write_loop C B true k (skipn n a) ?s0] => destruct (IH (skipn n a) (D ++ firstn n a) s0) as (s' & -> & I' & C') end.
    + unfold winv. cbn [w_buf w_enc w_num w_weof]. rewrite LD, DQ, I3. repeat split; auto.
      * rewrite I1, g_write_end, <- app_assoc. unfold full. rewrite seq_S, flat_map_app. cbn [flat_map plus]. rewrite app_nil_r. fold (full (D ++ firstn n a) q). rewrite full_app by lia.
        assert (BE : block B (D ++ firstn n a) q = w_buf s ++ firstn n a) by (unfold block; rewrite BUF; apply firstn_all2; rewrite skipn_length, LD; lia). rewrite BE. reflexivity.
      * symmetry. apply skipn_all2. lia.
    + rewrite skipn_length. lia.
    + exists s'. rewrite <- app_assoc, firstn_skipn in I'. auto.
  - cbn [bind]. assert (DQ : (length D + n) / B = q) by (symmetry; apply (Nat.div_unique (length D + n) B q (length D + n - q * B)); lia).
    match goal with |- context [tw_write_loop C B true k (skipn n a) ?s0] => destruct (IH (skipn n a) (D ++ firstn n a) s0) as (s' & -> & I' & C') end.
    + unfold winv. cbn [w_buf w_enc w_num w_weof]. rewrite LD, DQ, full_app by lia. auto.
    + rewrite skipn_length. lia.
    + exists s'. rewrite <- app_assoc, firstn_skipn in I'. auto.
Qed.
Lemma write_run_ok : forall l D s, winv D s -> w_cur s = length D -> exists s', tw_run C B true (map WWrite l) s = Ok s' /\ winv (D ++ concat l) s' /\ w_cur s' = length (D ++ concat l).
Proof.
  induction l as [|a l IH]; intros D s I Hc; cbn [map tw_run concat]; [exists s; rewrite app_nil_r; auto|]. cbn [tw_op]. unfold tw_write. replace (w_weof s) with false by (symmetry; apply I).
  destruct (write_loop_ok (S (length a)) a D s I ltac:(lia)) as (s1 & -> & I1 & C1). cbn [bind].
  match goal with |- context [tw_run C B true _ ?s0] => destruct (IH (D ++ a) s0) as (s' & -> & I' & C') end.
  - exact I1.
  - cbn [w_cur]. rewrite app_length. lia.
  - exists s'. rewrite <- app_assoc in I', C'. auto.
Qed.
Lemma end_ok : forall D s, winv D s -> exists s', (let* s := tw_end C B true s in tw_flush C B true s) = Ok s' /\ w_enc s' = mk_file (pre ++ layout C B D) (length (pre ++ layout C B D)).
Proof.
  intros D s (I1 & I2 & I3 & I4). pose proof (gc_B _ _ G) as HB. pose proof (Nat.div_mod (length D) B ltac:(lia)) as DM. pose proof (Nat.mod_upper_bound (length D) B ltac:(lia)) as MB. set (q := length D / B) in *.
  assert (Lb : length (w_buf s) = length D - q * B) by (rewrite I2, skipn_length; reflexivity). unfold tw_end. destruct (Nat.eq_dec (length D - q * B) 0) as [Z|Z].
  - assert (FN : tw_flush C B true s = Ok s) by (unfold tw_flush; cbn [negb]; rewrite I4, Lb, Z; reflexivity). rewrite FN. cbn [bind]. unfold tw_flush. cbn [negb w_weof bind]. eexists. split; [reflexivity|]. cbn [w_enc]. rewrite I1.
    assert (NB : nblocks B D = q) by (apply Nat.le_antisymm; [apply nb_ge; lia|pose proof (nb_bounds B D HB); nia]). unfold layout. rewrite NB. reflexivity.
  - rewrite flush_ok by (auto; lia). cbn [bind]. unfold tw_flush. cbn [negb w_weof bind]. eexists. split; [reflexivity|]. cbn [w_enc]. rewrite I1, g_write_end, <- app_assoc.
    assert (NB : nblocks B D = S q) by (apply Nat.le_antisymm; [apply nb_ge; lia|pose proof (nb_bounds B D HB); nia]). unfold layout. rewrite NB, seq_S, flat_map_app. cbn [flat_map plus]. rewrite app_nil_r, I2, I3. fold (full D q).
    assert (BE : block B D q = skipn (q * B) D) by (unfold block; apply firstn_all2; rewrite skipn_length; lia). rewrite BE. reflexivity.
Qed.
End Write.

(** the file produced below is exactly the blocks of the clear data, in order, whatever the sizes of the writes *)
Theorem C29_encrypted_image : forall C B pre writes, good_cipher C B ->
  let out := pre ++ layout C B (concat writes) in
  tw_session C B true (map WWrite writes) (mk_file pre (length pre)) = Ok (mk_file out (length out)).
Proof.
  intros C B pre writes G out. pose proof (gc_B _ _ G) as HB. unfold tw_session, tw_open. replace (B =? 0) with false by lia. cbn [bind].
  destruct (write_run_ok C B pre G writes [] (mk_w (mk_file pre (length pre)) [] 0 false 0)) as (s & -> & I & _).
  - unfold winv. cbn [length]. rewrite Nat.div_0_l by lia. cbn [full seq flat_map w_enc w_buf w_num w_weof skipn Nat.mul]. unfold full. cbn [seq flat_map]. rewrite app_nil_r. auto.
  - reflexivity.
  - cbn [bind app] in *. destruct (end_ok C B pre G (concat writes) s I) as (s' & E1 & E2). unfold out. rewrite <- E2.
    destruct (tw_end C B true s) as [s1|] eqn:Q1; cbn [bind] in *; [|discriminate]. rewrite E1. reflexivity.
Qed.
Print Assumptions C29_encrypted_image.

(** reading the blocks back, at any position, in any order of reads and seeks, gives the clear data; [T] is the clear data that
    follows the encrypted one. A client that goes to the end of file (or past it) is served right if that clear data does not
    start a new block *)
Theorem C29_reads_any_position : forall C B shift cb pre D T pos inside ops, good_cipher C B -> length pre = shift -> trailer_ok C B shift cb D T ->
  inside = true \/ (length (layout C B D) + length T) / c_size C B = length D / B ->
  reading (4294967296 - N.of_nat B) inside ops (mk_file D 0) ->
  exists s s', tr_open B (mk_file (pre ++ layout C B D ++ T) pos) = Ok s /\ tr_run C B shift cb ops s = Ok (fst (c_run ops (mk_file D 0)), s').
Proof.
  intros C B shift cb pre D T pos inside ops G Hp HT X R. destruct (tr_open_inv C B shift pre D T G Hp pos) as (s & Es & I & V). exists s.
  destruct (tr_run_spec C B shift cb pre D T G Hp HT inside ops s X I) as (s' & Er & _ & _); [rewrite V; exact R|]. exists s'. rewrite V in Er. auto.
Qed.
Print Assumptions C29_reads_any_position.

(** end to end, without trailing clear data *)
Theorem C29_write_then_read : forall C B pre writes ops, good_cipher C B ->
  reading (4294967296 - N.of_nat B) false ops (mk_file (concat writes) 0) ->
  exists f s s', tw_session C B true (map WWrite writes) (mk_file pre (length pre)) = Ok f /\
    tr_open B f = Ok s /\ tr_run C B (length pre) None ops s = Ok (fst (c_run ops (mk_file (concat writes) 0)), s').
Proof.
  intros C B pre writes ops G R. pose proof (C29_encrypted_image C B pre writes G) as W. cbv zeta in W. eexists.
  destruct (C29_reads_any_position C B (length pre) None pre (concat writes) [] (length (pre ++ layout C B (concat writes))) false ops G eq_refl eq_refl) as (s & s' & E1 & E2).
  - right. cbn [length]. rewrite Nat.add_0_r. apply layout_div. exact G.
  - exact R.
  - rewrite app_nil_r in E1. exists s, s'. split; [exact W|]. split; [exact E1|]. exact E2.
Qed.
Print Assumptions C29_write_then_read.

(** the symmetric cipher module fulfils the requirements as soon as the block size is a multiple of the algorithm block size *)
Definition elastic_unpad (l : list N) : res nat := let* n := elastic_read_buffer backward false l in Ok (N.to_nat n).
Definition elastic_pad (algo : nat) (pad : nat -> nat -> list N) : Prop :=
  forall num k, 0 < k <= algo -> exists size r draws, elastic_dump (N.of_nat k) size r draws = Ok (pad num k).
Theorem C29_symmetric_ciphers : forall algo enc dec pad B, 0 < algo -> 0 < B -> B mod algo = 0 -> (N.of_nat (B + algo) < 4294967295)%N ->
  elastic_pad algo pad ->
  (forall num l, length (enc num l) = length l) -> (forall num l, dec num (enc num l) = l) ->
  (N.of_nat algo <= max_length)%N ->
  good_cipher (crypto_sym algo enc dec pad elastic_unpad) B.
Proof.
  intros algo enc dec pad B Ha HB Hm H32 Hp Hl Hi Hx.
  assert (SZ : forall n, n < sym_size algo n <= n + algo) by (intro n; unfold sym_size; pose proof (Nat.div_mod n algo ltac:(lia)); pose proof (Nat.mod_upper_bound n algo ltac:(lia)); nia).
  assert (CR : forall k, 0 < k <= algo -> elastic_create (N.of_nat k) = Ok (N.of_nat k)).
  { intros k Hk. unfold elastic_create. replace (N.of_nat k =? 0)%N with false by lia. replace (max_length <? N.of_nat k)%N with false by lia. reflexivity. }
  assert (PL : forall num k, 0 < k <= algo -> length (pad num k) = k).
  { intros num k Hk. destruct (Hp num k Hk) as (size & r & draws & Hd). pose proof (C09_exact_size _ _ _ _ _ (CR k Hk) Hd). lia. }
  assert (EB : sym_size algo B = B + algo) by (unfold sym_size; pose proof (Nat.div_mod B algo ltac:(lia)); nia).
  constructor; cbn [crypto_sym c_size c_alloc c_enc c_dec].
  - exact HB.
  - lia.
  - intros n c Hc. unfold sym_enc. specialize (SZ (length c)). rewrite Hl, app_length, PL by lia. lia.
  - intros n c Hc. unfold sym_dec. pose proof (SZ (length c)) as SZc. set (k := sym_size algo (length c) - length c) in *. assert (LE : length (sym_enc algo enc pad n c) = length c + k) by (unfold sym_enc; fold k; rewrite Hl, app_length, PL by lia; reflexivity).
    destruct (sym_enc algo enc pad n c) as [|x y] eqn:Q; [cbn in LE; lia|]. rewrite <- Q in *. clear x y Q. unfold sym_enc. fold k. rewrite Hi. unfold elastic_unpad.
    destruct (Hp n k ltac:(lia)) as (size & r & draws & Hd). rewrite (C09_buffer_backward _ _ _ _ _ c (CR k ltac:(lia)) Hd).
    + cbn [bind]. rewrite Nat2N.id, Hl, app_length, PL by lia. replace (length c + k <? k) with false by lia. replace (length c + k - k) with (length c) by lia. rewrite firstn_app_exact. reflexivity.
    + rewrite app_length, PL by lia. change (2 ^ 32 - 1)%N with 4294967295%N. lia.
  - reflexivity.
  - intros r Hr. rewrite EB. unfold sym_size. assert (r / algo < B / algo) by (pose proof (Nat.div_mod B algo ltac:(lia)); apply Nat.div_lt_upper_bound; nia). pose proof (Nat.div_mod B algo ltac:(lia)). nia.
  - lia.
  - lia.
Qed.
Print Assumptions C29_symmetric_ciphers.

(** ** a concrete case: algorithm block of 2 bytes, encryption adds the block number *)
Definition toy_enc (num : nat) (l : list N) : list N := map (fun b => (b + N.of_nat num)%N) l.
Definition toy_dec (num : nat) (l : list N) : list N := map (fun b => (b - N.of_nat num)%N) l.
Definition toy_pad (num k : nat) : list N := match k with 1 => [88%N] | _ => [255%N; 254%N] end.
Definition toy : crypto := crypto_sym 2 toy_enc toy_dec toy_pad elastic_unpad.
Lemma toy_pad_ok : elastic_pad 2 toy_pad.
Proof. intros num [|[|[|k]]] H; try lia; exists 2%N, 0%N, []; reflexivity. Qed.
Example C29_toy_is_good : good_cipher toy 4.
Proof.
  apply C29_symmetric_ciphers; [lia|lia|reflexivity|cbn; lia|apply toy_pad_ok| | |vm_compute; discriminate].
  - intros num l. unfold toy_enc. apply map_length.
  - intros num l. unfold toy_enc, toy_dec. rewrite map_map. rewrite <- (map_id l) at 2. apply map_ext. intro b. lia.
Qed.
Definition toy_data : list N := [10; 11; 12; 13; 14; 15; 16; 17; 18; 19]%N.
Example C29_toy_session : exists s s',
  tw_session toy 4 true (map WWrite [[10; 11; 12]; [13; 14; 15; 16; 17; 18]; []; [19]]%N) (mk_file [7%N] 1)
    = Ok (mk_file [7; 10; 11; 12; 13; 255; 254; 15; 16; 17; 18; 256; 255; 20; 21; 257; 256]%N 17) /\
  tr_open 4 (mk_file [7; 10; 11; 12; 13; 255; 254; 15; 16; 17; 18; 256; 255; 20; 21; 257; 256]%N 0) = Ok s /\
  tr_run toy 4 1 None [GRead 5; GSkip 2; GRead 4; GEof; GPos; GRel (-3)%Z; GRead 9; GSkip 40; GPos] s
    = Ok ([OData [10; 11; 12; 13; 14]%N; OBool true; OData [12; 13; 14; 15]%N; OBool true; OPos 10; OBool true; OData [17; 18; 19]%N; OBool false; OPos 10], s').
Proof. eexists _, _. split; [vm_compute; reflexivity|]. split; [vm_compute; reflexivity|]. vm_compute. reflexivity. Qed.
Example C29_toy_reading : reading (4294967296 - N.of_nat 4) false [GRead 5; GSkip 2; GRead 4; GEof; GPos; GRel (-3)%Z; GRead 9; GSkip 40; GPos] (mk_file toy_data 0).
Proof. cbn. repeat split; intros; try lia; discriminate. Qed.
(** with trailing clear data found by a callback *)
Definition toy_cb (off : nat) (l : list N) : res nat := match rev l with 99%N :: _ => Ok off | _ => Err Erange end.
Example C29_toy_trailer : trailer_ok toy 4 1 (Some (toy_cb 17)) toy_data [90; 99]%N.
Proof.
  unfold trailer_ok. cbv zeta. replace (length (layout toy 4 toy_data)) with 16 by (vm_compute; reflexivity). split; [cbn; lia|].
  assert (R : forall k, k <= 16 -> exists m, skipn k (layout toy 4 toy_data ++ [90; 99]%N) = m ++ [99%N]).
  { intros k Hk. change (layout toy 4 toy_data ++ [90; 99]%N) with ((layout toy 4 toy_data ++ [90]%N) ++ [99]%N) || (replace (layout toy 4 toy_data ++ [90; 99]%N) with ((layout toy 4 toy_data ++ [90]%N) ++ [99]%N) by (rewrite <- app_assoc; reflexivity)).
    rewrite skipn_app. replace (k - length (layout toy 4 toy_data ++ [90%N])) with 0 by (vm_compute (layout toy 4 toy_data ++ [90%N]); cbn [length]; lia). eexists. reflexivity. }
  split; [|split].
  - intros k Hk. destruct (R k Hk) as [m ->]. unfold toy_cb. rewrite rev_app_distr. reflexivity.
  - intros k Hk. unfold toy_cb. destruct (rev _) as [|b r]; [right; eexists; reflexivity|]. destruct b as [|p]; [right; eexists; reflexivity|]. repeat (destruct p as [p|p|]; try (right; eexists; reflexivity)). left. reflexivity.
  - intros b H1 H2. rewrite app_length in H2. replace (length (layout toy 4 toy_data)) with 16 in H2 by (vm_compute; reflexivity). change (c_size toy 4) with 6 in *. cbn [length] in H2. assert (b = 2) as -> by lia. vm_compute. reflexivity.
Qed.

(** ** what does not hold *)
(** a block size that is not a multiple of the algorithm block: the end of file is misplaced *)
Example C29_unaligned_block_refuted : exists s s',
  tw_session toy 3 true [WWrite [10; 11]%N] (mk_file [] 0) = Ok (mk_file [10; 11; 255; 254]%N 4) /\
  tr_open 3 (mk_file [10; 11; 255; 254]%N 0) = Ok s /\
  tr_run toy 3 0 None [GRead 9; GSkip 0; GEof; GPos] s = Ok ([OData [10; 11]%N; OBool true; OBool true; OPos 3], s').
Proof. eexists _, _. split; [vm_compute; reflexivity|]. split; [vm_compute; reflexivity|]. vm_compute. reflexivity. Qed.
(** trailing clear data that reaches the next block: the end of file is misplaced too *)
Example C29_trailer_next_block_refuted : exists s s',
  tr_open 2 (mk_file ([10; 11; 255; 254; 13; 89] ++ [0; 0; 99])%N 0) = Ok s /\
  layout toy 2 [10; 11; 12]%N = [10; 11; 255; 254; 13; 89]%N /\
  tr_run toy 2 0 (Some (toy_cb 6)) [GRead 9; GEof; GPos; GRel (-1)%Z] s = Ok ([OData [10; 11; 12]%N; OBool true; OPos 4; OBool false], s').
Proof. eexists _, _. split; [vm_compute; reflexivity|]. split; [vm_compute; reflexivity|]. vm_compute. reflexivity. Qed.
(** the padding check of the cipher module may accept a block completed by trailing clear data: bytes that were never written are read *)
Example C29_trailer_read_as_data_refuted : exists s s',
  layout toy 4 toy_data = [10; 11; 12; 13; 255; 254; 15; 16; 17; 18; 256; 255; 20; 21; 257; 256]%N /\ tr_open 4 (mk_file (layout toy 4 toy_data ++ [0; 99])%N 0) = Ok s /\ tr_run toy 4 0 (Some (toy_cb 16)) [GRead 99] s = Ok ([OData [10; 11; 12; 13; 14; 15; 16; 17; 18; 19; 255; 254]%N], s').
Proof. eexists _, _. split; [vm_compute; reflexivity|]. split; [vm_compute; reflexivity|]. vm_compute. reflexivity. Qed.
(** sync_write in the middle of a block: what is read back is not what was written *)
Example C29_sync_write_refuted : exists f s s' d,
  tw_session toy 4 true [WWrite [10]%N; WSync; WWrite [11; 12]%N] (mk_file [] 0) = Ok f /\ tr_open 4 f = Ok s /\
  tr_run toy 4 0 None [GRead 9] s = Ok ([OData d], s') /\ d <> [10; 11; 12]%N.
Proof. eexists _, _, _, _. split; [vm_compute; reflexivity|]. split; [vm_compute; reflexivity|]. split; [vm_compute; reflexivity|]. discriminate. Qed.
(** over a file opened for both reading and writing, writing one block never ends *)
Theorem C29_read_write_below_refuted : forall C B a enc fuel, 0 < B -> B < length a -> tw_write C B false fuel a (mk_w enc [] 0 false 0) = Err Fuel.
Proof.
  intros C B a enc fuel HB Ha. unfold tw_write. cbn [w_weof].
  assert (K : forall fuel a s, length (w_buf s) = B -> 0 < length a -> tw_write_loop C B false fuel a s = Err Fuel).
  { induction fuel0 as [|k IH]; intros b s H1 H2; [reflexivity|]. cbn [tw_write_loop]. destruct b as [|x b]; [cbn in H2; lia|]. rewrite H1, Nat.sub_diag, Nat.min_0_r. cbn [firstn skipn]. rewrite app_nil_r. cbn [w_buf]. replace (B <=? length (w_buf s)) with true by lia.
    unfold tw_flush. cbn [negb bind]. apply IH; [exact H1|exact H2]. }
  destruct fuel as [|fuel]; [reflexivity|]. cbn [tw_write_loop]. destruct a as [|x a]; [cbn in Ha; lia|]. remember (x :: a) as b. clear Heqb x a. cbn [w_buf length app]. rewrite Nat.sub_0_r. replace (Nat.min (length b) B) with B by lia.
  assert (LB : length (firstn B b) = B) by (rewrite firstn_length; lia). rewrite LB. replace (B <=? B) with true by lia. unfold tw_flush. cbn [negb bind w_buf w_enc w_num w_weof w_cur]. rewrite K; [reflexivity|exact LB|rewrite skipn_length; lia].
Qed.
Print Assumptions C29_read_write_below_refuted.
(** once the end of file has been reached, seeking 4 GiB past it is reported as an internal bug *)
Theorem C29_far_seek_refuted : forall C B D p, good_cipher C B -> (N.of_nat (length D) + 4294967296 <= N.of_nat p)%N ->
  exists s, tr_open B (mk_file (layout C B D) 0) = Ok s /\ tr_run C B 0 None [GEof; GSkip p] s = Err Ebug.
Proof.
  intros C B D p G Hp. destruct (tr_open_inv C B 0 [] D [] G eq_refl 0) as (s & Es & I & V). rewrite app_nil_r in Es. exists s. split; [exact Es|]. cbn [tr_run tr_op].
  destruct (tr_skip_eof_spec C B 0 None [] D [] G eq_refl eq_refl s) as (s' & E1 & I' & C').
  - cbn [length]. rewrite Nat.add_0_r. apply layout_div. exact G.
  - apply I.
  - assert (Q : r_reof s' = true).
    { unfold tr_skip_eof in E1. destruct (_ <? _) in E1; [discriminate|]. destruct (fill_buf _ _ _ _ _) as [[? s0]|] in E1; cbn [bind] in E1; [|discriminate]. injection E1 as <-. reflexivity. }
    rewrite E1. cbn [bind]. unfold tr_skip. destruct I' as (W & I2 & I3). replace (r_cur s' =? p) with false by lia. replace (p <? r_off s') with false by lia. unfold fill_buf, at_cur. cbn [r_enc r_off r_buf r_cur r_reof]. rewrite Q, andb_false_r, orb_false_r. replace (p <? r_off s') with false by lia.
    replace (4294967296 <=? N.of_nat (p - r_off s'))%N with true by lia. reflexivity.
Qed.
Print Assumptions C29_far_seek_refuted.
(** after the end of file has been reached, dropping the read cache makes the last block unreadable *)
Example C29_flush_read_refuted : exists s s' s'',
  tr_open 4 (mk_file [10; 11; 255; 254]%N 0) = Ok s /\
  tr_run toy 4 0 None [GRead 9] s = Ok ([OData [10; 11]%N], s') /\
  tr_run toy 4 0 None [GSkip 0; GRead 9] (tr_flush_read s') = Ok ([OBool false; OData []], s'').
Proof. eexists _, _, _. split; [vm_compute; reflexivity|]. split; [vm_compute; reflexivity|]. vm_compute. reflexivity. Qed.
