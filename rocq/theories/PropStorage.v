(** * C28: storage and memory_file are byte arrays. *)
From Verif Require Import Base FileModel ClientSpec CacheProof CacheProof2 StorageModel StorageProof.
Open Scope nat_scope.

(** The bytes of a storage are those of its cells one after the other, [concat s]; [rel s 0 it p] (StorageProof.v): the iterator [it] designates the byte number [p]
    (the last byte plus one when it is the end). *)
Theorem C28_size : forall s, st_size s = length (concat s).
Proof. exact st_size_concat. Qed.
Theorem C28_dump : forall s, st_dump s = concat s.
Proof. exact st_dump_concat. Qed.
Theorem C28_clear : forall v s, concat (st_clear v s) = repeat v (length (concat s)).
Proof. intros v. induction s as [|c s IH]; cbn [st_clear map concat length]; [reflexivity|]. unfold st_clear in IH. rewrite IH, app_length, repeat_app. reflexivity. Qed.
(** reading and writing through an iterator: as many bytes as exist from there, and the iterator moves by that many *)
Theorem C28_read : forall s it p n, rel s 0 it p -> exists it', st_read s it n = Ok (firstn n (skipn p (concat s)), it') /\ rel s 0 it' (p + Nat.min n (length (concat s) - p)).
Proof. exact st_read_spec. Qed.
Theorem C28_write : forall s it p a, rel s 0 it p -> p <= length (concat s) -> let n := Nat.min (length (concat s) - p) (length a) in
  exists s' it', st_write s it a = Ok (s', n, it') /\ (n = 0 \/ concat s' = overwrite (concat s) p (firstn n a)) /\ (n = 0 -> concat s' = concat s) /\ rel s' 0 it' (p + n).
Proof.
  intros s it p a R Hp n. destruct (st_write_spec s it p a R) as (s' & it' & E & C & L & R'). exists s', it'. split; [exact E|].
  assert (C' : concat s' = firstn p (concat s) ++ firstn n a ++ skipn (p + n) (concat s)).
  { rewrite C. f_equal. destruct (Nat.le_gt_cases (length a) (length (concat s) - p)) as [Q|Q].
    - unfold n. rewrite Nat.min_r by exact Q. rewrite !firstn_all2 by lia. reflexivity.
    - unfold n. rewrite Nat.min_l by lia. f_equal. rewrite !skipn_all2 by lia. reflexivity. }
  split; [|split; [|exact R']].
  - destruct (Nat.eq_dec n 0) as [Z|Z]; [left; exact Z|right]. rewrite C'. unfold overwrite. replace (p - length (concat s)) with 0 by lia. cbn [repeat app]. rewrite firstn_length. replace (Nat.min n (length a)) with n by lia. reflexivity.
  - intro Z. rewrite C', Z, Nat.add_0_r. cbn [firstn app]. apply firstn_skipn.
Qed.
(** inserting and removing at an iterator, whatever the sizes of the blocks the allocator delivers and whatever it refuses while cells are being merged *)
Theorem C28_insert : forall M orc lay s it p a, rel s 0 it p -> (forall n, fold_right Nat.add 0 (lay n) = n) ->
  exists s', st_insert M orc lay s it a = Ok s' /\ concat s' = firstn p (concat s) ++ a ++ skipn p (concat s).
Proof. exact st_insert_concat. Qed.
Theorem C28_remove : forall M orc s it p n, rel s 0 it p -> concat (st_remove M orc s it n) = firstn p (concat s) ++ skipn (p + n) (concat s).
Proof. exact st_remove_concat. Qed.
Theorem C28_truncate : forall M orc s p, concat (st_truncate M orc s p) = firstn p (concat s).
Proof.
  intros M orc s p. unfold st_truncate. rewrite st_size_concat. destruct (Nat.ltb_spec p (length (concat s))) as [Q|Q]; [|rewrite firstn_all2 by lia; reflexivity].
  pose proof (st_skip_to_spec s p) as R. rewrite Nat.min_l in R by lia. rewrite (st_remove_concat M orc s _ p _ R), skipn_all2, app_nil_r by lia. reflexivity.
Qed.
Theorem C28_insert_const : forall M orc lay s it p v n, rel s 0 it p -> (forall n, fold_right Nat.add 0 (lay n) = n) ->
  exists s', st_insert_const M orc lay s it v n = Ok s' /\ concat s' = firstn p (concat s) ++ repeat v n ++ skipn p (concat s).
Proof.
  intros M orc lay s it p v n R Hl. unfold st_insert_const. destruct (Nat.eqb_spec n 0) as [Z|Z].
  { subst n. exists s. split; [reflexivity|]. cbn [repeat app]. rewrite firstn_skipn. reflexivity. }
  assert (B : forall k, concat (st_clear v (blank (lay k))) = repeat v k) by (intro k; rewrite C28_clear, blank_concat, Hl; reflexivity). destruct it as [i off| |]; [| |destruct R].
  - destruct (rel_cut _ _ _ _ R) as (pre & c & post & Es & Ei & H & Ep & E1 & E2 & E3 & E4). rewrite E1, E3, E4. set (t0 := st_clear v _). assert (C0 : concat t0 = repeat v (n + length c)) by apply B. assert (L0 : length (concat t0) = n + length c) by (rewrite C0; apply repeat_length).
    destruct (st_write_spec t0 (st_begin t0) 0 (firstn off c) (rel_begin t0)) as (t1 & g1 & -> & C1 & S1 & R1). cbn [bind]. rewrite Nat.sub_0_r, firstn_length in *. cbn [firstn app] in C1.
    rewrite (firstn_all2 (firstn off c)) in C1 by (rewrite firstn_length; lia). replace (0 + Nat.min (length (concat t0)) (Nat.min off (length c))) with off in R1 by lia. replace (0 + Nat.min off (length c)) with off in C1 by lia.
    assert (L1 : length (concat t1) = n + length c) by (rewrite C1, app_length, firstn_length, skipn_length; lia).
    pose proof (st_rel_fwd t1 _ _ (n / 2 + n mod 2) (st_rel_fwd t1 _ _ (n / 2) R1)) as R2. replace (Nat.min (Nat.min (off + n / 2) (length (concat t1)) + (n / 2 + n mod 2)) (length (concat t1))) with (off + n) in R2 by (rewrite L1; pose proof (Nat.div_mod n 2 ltac:(lia)); lia).
    destruct (st_write_spec t1 _ _ (skipn off c) R2) as (t3 & g3 & -> & C3 & _ & _). cbn [bind]. rewrite skipn_length in C3. rewrite (firstn_all2 (n := length (concat t1) - (off + n)) (skipn off c)) in C3 by (rewrite skipn_length; lia).
    rewrite (skipn_all2 (concat t1)) in C3 by lia. rewrite app_nil_r in C3. rewrite C1, C0 in C3. rewrite firstn_app, (firstn_all2 (firstn off c)) in C3 by (rewrite firstn_length; lia). rewrite firstn_length in C3. replace (off + n - Nat.min off (length c)) with n in C3 by lia.
    replace (n + length c) with (off + (n + (length c - off))) in C3 by lia. rewrite repeat_app, skipn_app, (skipn_all2 (repeat v off)) in C3 by (rewrite repeat_length; lia). rewrite repeat_length, Nat.sub_diag in C3. cbn [skipn app] in C3. rewrite repeat_app, firstn_app, (firstn_all2 (repeat v n)) in C3 by (rewrite repeat_length; lia). rewrite repeat_length, Nat.sub_diag in C3. cbn [firstn] in C3. rewrite app_nil_r in C3.
    destruct t3 as [|d t3]; [apply (f_equal (@length N)) in C3; rewrite !app_length, repeat_length in C3; cbn in C3; lia|]. eexists. split; [reflexivity|]. rewrite st_reduce_concat, !concat_app, C3. subst s. rewrite Ep, (firstn_concat_cut pre c post off H), (skipn_concat_cut pre). cbn [concat]. rewrite skipn_app. replace (off - length c) with 0 by lia. cbn [skipn]. rewrite <- !app_assoc. reflexivity.
  - specialize (B n). set (t0 := st_clear v _) in *. destruct t0 as [|d t1]; [apply (f_equal (@length N)) in B; rewrite repeat_length in B; cbn in B; lia|]. eexists. split; [reflexivity|]. cbn [rel] in R. rewrite st_reduce_concat, concat_app, B, R, firstn_all, skipn_all, app_nil_r. reflexivity.
Qed.
(** a storage read from a file holds the bytes which follow, or fails when they are too few *)
Theorem C28_load : forall l f, let n := fold_right Nat.add 0 l in
  if fpos f + n <=? Nat.max (fpos f) (length (fdata f)) then exists s, load_go l f = Ok (s, mk_file (fdata f) (fpos f + n)) /\ concat s = firstn n (skipn (fpos f) (fdata f)) else load_go l f = Err Erange.
Proof.
  induction l as [|k l IH]; intros f n; unfold n; cbn [fold_right load_go].
  - replace (fpos f + 0 <=? _) with true by lia. exists []. rewrite Nat.add_0_r. destruct f. split; reflexivity.
  - unfold g_read. set (d := firstn k (skipn (fpos f) (fdata f))). assert (Ld : length d = Nat.min k (length (fdata f) - fpos f)) by (unfold d; rewrite firstn_length, skipn_length; reflexivity). set (m := fold_right Nat.add 0 l) in *.
    destruct (Nat.ltb_spec (length d) k) as [Q|Q]; [replace (fpos f + (k + m) <=? _) with false by lia; reflexivity|]. specialize (IH (mk_file (fdata f) (fpos f + length d))). cbn zeta in IH. cbn [fdata fpos] in IH. replace (length d) with k in * by lia.
    destruct (Nat.leb_spec (fpos f + k + m) (Nat.max (fpos f + k) (length (fdata f)))) as [L|L].
    + destruct IH as (s & -> & C). cbn [bind]. replace (fpos f + (k + m) <=? Nat.max (fpos f) (length (fdata f))) with true by lia. exists (d :: s). split; [unfold m; do 3 f_equal; lia|]. cbn [concat]. rewrite C. fold m. rewrite (firstn_add _ k m). fold d. f_equal. rewrite skipn_skipn. do 2 f_equal. lia.
    + rewrite IH. replace (fpos f + (k + m) <=? Nat.max (fpos f) (length (fdata f))) with false by lia. reflexivity.
Qed.
(** positioning *)
Theorem C28_skip_to : forall s v, rel s 0 (st_skip_to s v) (Nat.min v (length (concat s))).
Proof. exact st_skip_to_spec. Qed.
Theorem C28_skip_forward : forall s it p v, rel s 0 it p -> rel s 0 (st_rel s it (Z.of_nat v)) (Nat.min (p + v) (length (concat s))).
Proof. exact st_rel_fwd. Qed.
Theorem C28_skip_backward : forall s i off p v, rel s 0 (It i off) p -> 0 < v -> if v <=? p then rel s 0 (st_rel s (It i off) (- Z.of_nat v)) (p - v) else st_rel s (It i off) (- Z.of_nat v) = IBeg.
Proof.
  intros s i off p v R Hv. destruct (rel_cut _ _ _ _ R) as (pre & c & post & Es & Ei & H & Ep & E1 & _). unfold st_rel. replace (0 <=? - Z.of_nat v)%Z with false by lia. rewrite E1. replace (Z.to_nat (- - Z.of_nat v)) with v by lia.
  pose proof (bwd_go_spec (rev pre) c post off v H) as B. cbn zeta in B. rewrite rev_involutive, rev_length in B. subst s i p. exact B.
Qed.
Theorem C28_get_position : forall s i off p, rel s 0 (It i off) p -> st_pos s (It i off) = Ok p.
Proof.
  intros s i off p R. destruct (rel_cut _ _ _ _ R) as (pre & c & post & Es & Ei & H & Ep & E1 & _). unfold st_pos. destruct s as [|x s]; [destruct pre; discriminate|]. rewrite E1, st_size_concat, Ep. reflexivity.
Qed.
Theorem C28_deref : forall s i off p, rel s 0 (It i off) p -> off < length (nth i s []) -> st_deref s (It i off) = Ok (nth p (concat s) 0%N) /\ p < length (concat s).
Proof.
  intros s i off p R Ho. destruct (rel_cut _ _ _ _ R) as (pre & c & post & Es & Ei & H & Ep & E1 & E2 & E3 & _). rewrite E3 in Ho. unfold st_deref. rewrite Es, Ei, nth_error_app2, Nat.sub_diag by lia. cbn [nth_error]. replace (off <? length c) with true by lia.
  rewrite Ep, concat_app. cbn [concat]. rewrite !app_length. split; [|lia]. rewrite app_nth2, app_nth1 by lia. do 2 f_equal. lia.
Qed.
(** access by index *)
Lemma index_cells : forall r c i off fuel M, length c < off -> off < length (concat (c :: r)) -> (forall k, 0 < k -> off <> length (concat (firstn k (c :: r)))) -> length r < fuel ->
  exists j o, index_loop fuel M (c :: r) i off 0 = Ok (i + j, o) /\ off = length (concat (firstn j (c :: r))) + o /\ o < length (nth j (c :: r) []).
Proof.
  induction r as [|d r IH]; intros c i off fuel M H1 H2 H3 Hf; (destruct fuel as [|k]; [cbn in Hf; lia|]).
  - cbn in H2. rewrite app_nil_r in H2. lia.
  - cbn [index_loop]. replace (length c <? off) with true by lia. cbn [concat] in H2. rewrite app_length in H2. destruct (Nat.ltb_spec (length d) (off - length c)) as [Q|Q].
    + destruct (IH d (S i) (off - length c) k M Q) as (j & o & E & E1 & E2).
      * cbn [concat]. lia.
      * intros m Hm Z. apply (H3 (S m)); [lia|]. cbn [firstn concat]. rewrite app_length. lia.
      * cbn [length] in Hf. lia.
      * exists (S j), o. rewrite E. split; [do 2 f_equal; lia|]. cbn [firstn concat nth]. rewrite app_length. split; [lia|exact E2].
    + exists 1, (off - length c). split; [do 2 f_equal; lia|]. cbn [firstn concat nth]. rewrite app_nil_r. split; [lia|]. pose proof (H3 2 ltac:(lia)) as B. cbn [firstn concat] in B. rewrite !app_length in B. cbn [length] in B. lia.
Qed.
Lemma index_spec : forall M s pos, pos < length (concat s) -> pos <= M -> (forall k, 0 < k -> pos <> length (concat (firstn k s))) ->
  exists j o, st_index M s pos = Ok (j, o) /\ pos = length (concat (firstn j s)) + o /\ o < length (nth j s []).
Proof.
  intros M s pos H1 H2 H3. unfold st_index. destruct s as [|c r]; [cbn in H1; lia|]. remember (2 * length (c :: r) + pos + 1) as fuel eqn:Ef. replace (2 * length (c :: r) + pos + 2) with (S fuel) by lia. cbn [index_loop]. change (length c <? 0) with false. cbv match.
  rewrite Nat.sub_0_r, Nat.add_0_l, Nat.min_l by lia. destruct (Nat.ltb_spec (length c) pos) as [Q|Q].
  - rewrite Nat.sub_diag. destruct (index_cells r c 0 pos fuel M Q H1 H3 ltac:(cbn in Ef; lia)) as (j & o & E & R). exists j, o. split; [exact E|exact R].
  - exists 0, pos. split; [reflexivity|]. cbn [firstn concat length nth]. pose proof (H3 1 ltac:(lia)) as B. cbn [firstn concat] in B. rewrite app_nil_r in B. lia.
Qed.
Lemma cut_nth : forall (s : cells) j, j < length s -> s = firstn j s ++ nth j s [] :: skipn (S j) s.
Proof. induction s as [|c s IH]; intros [|j] H; cbn in *; try lia; [reflexivity|]. f_equal. apply IH. lia. Qed.
Theorem C28_index : forall M s pos v, pos < length (concat s) -> pos <= M -> (forall k, 0 < k -> pos <> length (concat (firstn k s))) ->
  st_get M s pos = Ok (nth pos (concat s) 0%N) /\ exists s', st_set M s pos v = Ok s' /\ concat s' = firstn pos (concat s) ++ v :: skipn (S pos) (concat s) /\ lens s' = lens s.
Proof.
  intros M s pos v H1 H2 H3. destruct (index_spec M s pos H1 H2 H3) as (j & o & E & Ep & Ho). unfold st_get, st_set. rewrite E. cbn [bind]. unfold in_cell. replace (o <? length (nth j s [])) with true by lia. cbn [bind].
  assert (Hj : j < length s) by (destruct (Nat.lt_ge_cases j (length s)); [assumption|rewrite nth_overflow in Ho by assumption; cbn in Ho; lia]). pose proof (cut_nth s j Hj) as Es. set (c := nth j s []) in *. set (pre := firstn j s) in *. set (post := skipn (S j) s) in *.
  assert (EF : concat s = concat pre ++ c ++ concat post) by (rewrite Es at 1; rewrite concat_app; reflexivity). split.
  - f_equal. rewrite EF, Ep, app_nth2, app_nth1 by lia. f_equal. lia.
  - eexists. split; [reflexivity|]. split.
    + rewrite concat_app. cbn [concat]. rewrite EF, Ep. rewrite firstn_app, (firstn_all2 (concat pre)) by lia. replace (length (concat pre) + o - length (concat pre)) with o by lia. rewrite firstn_app. replace (o - length c) with 0 by lia. cbn [firstn]. rewrite app_nil_r.
      rewrite skipn_app, (skipn_all2 (concat pre)) by lia. cbn [app]. replace (S (length (concat pre) + o) - length (concat pre)) with (S o) by lia. rewrite skipn_app. replace (S o - length c) with 0 by lia. rewrite <- !app_assoc. reflexivity.
    + transitivity (lens (pre ++ c :: post)); [|rewrite <- Es; reflexivity]. rewrite !map_app. cbn [map]. do 2 f_equal. rewrite app_length. cbn [length]. rewrite firstn_length, skipn_length. lia.
Qed.
(** the blocks delivered by make_alloc, when no request of memory is refused *)
Theorem C28_alloc : forall fuel M size, 0 < fuel -> make_alloc fuel M [] size = Ok (if size =? 0 then [] else [size], []).
Proof. intros [|k] M size H; [lia|]. unfold make_alloc. destruct (Nat.eqb_spec size 0) as [Q|Q]; [reflexivity|]. cbn [alloc_loop hd tl app]. rewrite Nat.leb_refl, Nat.sub_diag. reflexivity. Qed.
(** copying: the same bytes *)
Lemma copy_spec : forall k post pre c off got fuel, k + off = length c -> 0 < k -> (forall d, In d post -> d <> []) -> k + length (concat post) < fuel ->
  copy_loop fuel (pre ++ c :: post) (It (length pre) off) got = Ok (got ++ skipn off c ++ concat post).
Proof.
  intros k post. revert k. induction post as [|d post IHp]; intro k; induction k as [|k IHk]; intros pre c off got fuel H1 H2 H3 Hf; try lia; (destruct fuel as [|fuel]; [lia|]); cbn [copy_loop st_deref]; rewrite nth_error_app2, Nat.sub_diag by lia; cbn [nth_error]; replace (off <? length c) with true by lia; cbn [bind st_next]; rewrite app_nth2, Nat.sub_diag by lia; cbn [nth]; rewrite app_length; cbn [length].
  - assert (Ec : skipn off c = nth off c 0%N :: skipn (S off) c). { apply skipn_nth_error. apply nth_error_nth'. lia. }
    destruct (Nat.leb_spec (length c) (off + 1)) as [Q|Q].
    + replace (S (length pre) <? length pre + 1) with false by lia. destruct fuel as [|fuel]; [lia|]. cbn [copy_loop]. rewrite Ec, (skipn_all2 c) by lia. cbn. reflexivity.
    + replace (off + 1) with (S off) by lia. rewrite IHk by (try assumption; lia). rewrite Ec, <- app_assoc. reflexivity.
  - assert (Ec : skipn off c = nth off c 0%N :: skipn (S off) c). { apply skipn_nth_error. apply nth_error_nth'. lia. }
    cbn [concat] in Hf. rewrite app_length in Hf. destruct (Nat.leb_spec (length c) (off + 1)) as [Q|Q].
    + replace (S (length pre) <? length pre + S (S (length post))) with true by lia. assert (Hd : d <> []) by (apply H3; left; reflexivity). assert (0 < length d) by (destruct d; [contradiction|cbn; lia]).
      replace (pre ++ c :: d :: post) with ((pre ++ [c]) ++ d :: post) by (rewrite <- app_assoc; reflexivity). replace (S (length pre)) with (length (pre ++ [c])) by (rewrite app_length; cbn; lia).
      rewrite (IHp (length d)) by (try lia; intros e He; apply H3; right; exact He). rewrite Ec, (skipn_all2 c) by lia. cbn [skipn concat]. rewrite <- !app_assoc. reflexivity.
    + replace (off + 1) with (S off) by lia. rewrite IHk by (try assumption; cbn [concat]; try rewrite app_length; lia). rewrite Ec, <- app_assoc. reflexivity.
Qed.
Theorem C28_copy : forall s, (forall c, In c s -> c <> []) -> exists s', st_copy s = Ok s' /\ concat s' = concat s.
Proof.
  intros s H. unfold st_copy. destruct s as [|c r]; [exists []; split; reflexivity|]. cbn [st_begin]. assert (Hc : c <> []) by (apply H; left; reflexivity). assert (0 < length c) by (destruct c; [contradiction|cbn; lia]).
  rewrite st_size_concat. pose proof (copy_spec (length c) r [] c 0 [] (S (length (concat (c :: r)) + length (c :: r))) ltac:(lia) ltac:(lia) (fun d Hd => H d (or_intror Hd))) as E. cbn [app skipn] in E. change (length []) with 0 in E. rewrite E by (cbn [concat length]; rewrite app_length; lia).
  cbn [bind concat]. exists (match c ++ concat r with [] => [] | _ => [c ++ concat r] end). split; [reflexivity|]. destruct (c ++ concat r); [reflexivity|]. cbn. rewrite app_nil_r. reflexivity.
Qed.

(** ** memory_file *)
Inductive mop := MOp (o : gop) | MTruncate (p : nat).
(** specification: a byte array which is never left by its position *)
Definition b_op (o : mop) (f : gfile) : gout * gfile :=
  let size := length (fdata f) in
  match o with
  | MOp (GSkip p) => if size <=? p then (OBool false, g_skip size f) else (OBool true, g_skip p f)
  | MOp (GRel x) => let y := (Z.of_nat (fpos f) + x)%Z in
      if (y <? 0)%Z then (OBool false, g_skip 0 f) else if (Z.of_nat size <? y)%Z then (OBool false, g_skip size f) else (OBool true, g_skip (Z.to_nat y) f)
  | MOp o => g_op o f
  | MTruncate p => (OUnit, mk_file (firstn p (fdata f)) (Nat.min p (fpos f)))
  end.
Fixpoint b_run (ops : list mop) (f : gfile) : list gout * gfile :=
  match ops with
  | [] => ([], f)
  | o :: r => let '(a, f1) := b_op o f in let '(l, f2) := b_run r f1 in (a :: l, f2)
  end.
(** less than 4 GiB minus one byte; truncations shorten *)
Fixpoint client_ok (M : nat) (ops : list mop) (f : gfile) : Prop :=
  match ops with
  | [] => True
  | o :: r => (match o with MTruncate p => p < length (fdata f) | _ => True end) /\ length (fdata (snd (b_op o f))) < M /\ client_ok M r (snd (b_op o f))
  end.
Definition mm_op (M : nat) (o : mop) (m : mfile) : res (gout * mfile) :=
  match o with
  | MOp o => m_op M [] (fun n => [n]) o m
  | MTruncate p => let* m := m_truncate M [] p m in Ok (OUnit, m)
  end.
Fixpoint mm_run (M : nat) (ops : list mop) (m : mfile) : res (list gout * mfile) :=
  match ops with
  | [] => Ok ([], m)
  | o :: r => let* '(a, m) := mm_op M o m in let* '(l, m) := mm_run M r m in Ok (a :: l, m)
  end.
(** one cell at most *)
Definition m_rep (M : nat) (m : mfile) (f : gfile) : Prop :=
  (m_data m = [fdata f] \/ (m_data m = [] /\ fdata f = [])) /\ m_size m = length (fdata f) /\ m_pos m = fpos f /\ fpos f <= length (fdata f) /\ length (fdata f) <= M.
Lemma one_get : forall M F pos v, pos < length F -> length F <= M -> st_get M [F] pos = Ok (nth pos F 0%N) /\ st_set M [F] pos v = Ok [firstn pos F ++ v :: skipn (S pos) F].
Proof.
  intros M F pos v H1 H2. destruct (index_spec M [F] pos) as (j & o & E & Ep & Ho).
  - cbn. rewrite app_nil_r. exact H1.
  - lia.
  - intros [|k] Hk; [lia|]. cbn. rewrite firstn_nil. cbn. rewrite app_nil_r. lia.
  - destruct j as [|j]; [|destruct j; cbn in Ho; lia]. cbn in Ep. subst o. unfold st_get, st_set. rewrite E. cbn [bind nth]. unfold in_cell. replace (pos <? length F) with true by lia. split; reflexivity.
Qed.
Lemma m_read_spec : forall n M m f got, m_rep M m f -> exists m', m_read_loop n M m got = Ok (got ++ fst (g_read n f), m') /\ m_rep M m' (snd (g_read n f)).
Proof.
  induction n as [|n IH]; intros M m f got (D & S1 & P1 & B1 & B2); cbn [m_read_loop].
  - exists m. unfold g_read. cbn. rewrite app_nil_r, Nat.add_0_r. split; [reflexivity|]. destruct f. repeat (split; [assumption|]). assumption.
  - rewrite P1, S1. destruct (Nat.ltb_spec (fpos f) (length (fdata f))) as [Q|Q].
    + destruct D as [D|[_ D]]; [|rewrite D in Q; cbn in Q; lia]. rewrite D. destruct (one_get M (fdata f) (fpos f) 0%N Q B2) as [-> _]. cbn [bind].
      destruct (IH M (mk_m [fdata f] (length (fdata f)) (fpos f + 1)) (mk_file (fdata f) (fpos f + 1)) (got ++ [nth (fpos f) (fdata f) 0%N])) as (m' & E & R). { repeat split; cbn; auto; lia. }
      rewrite E. assert (X : skipn (fpos f) (fdata f) = nth (fpos f) (fdata f) 0%N :: skipn (fpos f + 1) (fdata f)) by (rewrite Nat.add_1_r; apply skipn_nth_error, nth_error_nth'; lia).
      exists m'. unfold g_read in *. cbn [fst snd fdata fpos] in *. rewrite X. cbn [firstn length]. split; [rewrite <- app_assoc; reflexivity|]. replace (fpos f + S (length (firstn n (skipn (fpos f + 1) (fdata f))))) with (fpos f + 1 + length (firstn n (skipn (fpos f + 1) (fdata f)))) by lia. exact R.
    + exists m. unfold g_read. rewrite skipn_all2 by lia. cbn [firstn fst snd length]. rewrite app_nil_r, Nat.add_0_r. split; [reflexivity|]. destruct f. repeat (split; [assumption|]). assumption.
Qed.
Lemma m_write_loop_spec : forall a M m f, m_rep M m f -> let n := length (fdata f) - fpos f in
  exists m', m_write_loop a M m = Ok (skipn n a, m') /\ m_rep M m' (g_write (firstn n a) f).
Proof.
  induction a as [|x a IH]; intros M m f R n; cbn [m_write_loop].
  - exists m. unfold n. rewrite skipn_nil, firstn_nil. split; [reflexivity|exact R].
  - pose proof R as (D & S1 & P1 & B1 & B2). rewrite P1, S1. destruct (Nat.ltb_spec (fpos f) (length (fdata f))) as [Q|Q].
    + destruct D as [D|[_ D]]; [|rewrite D in Q; cbn in Q; lia]. rewrite D. destruct (one_get M (fdata f) (fpos f) x Q B2) as [_ ->]. cbn [bind].
      set (F1 := firstn (fpos f) (fdata f) ++ x :: skipn (S (fpos f)) (fdata f)). assert (L1 : length F1 = length (fdata f)) by (unfold F1; rewrite app_length; cbn [length]; rewrite firstn_length, skipn_length; lia).
      assert (W1 : F1 = overwrite (fdata f) (fpos f) [x]). { unfold overwrite, F1. replace (fpos f - length (fdata f)) with 0 by lia. cbn [repeat app length]. rewrite Nat.add_1_r. reflexivity. }
      destruct (IH M (mk_m [F1] (length (fdata f)) (fpos f + 1)) (mk_file F1 (fpos f + 1))) as (m' & E & R'). { repeat split; cbn; auto; lia. }
      rewrite E. cbn [fdata fpos] in E, R' |- *. rewrite L1 in *. replace n with (S (length (fdata f) - (fpos f + 1))) by (unfold n; lia). cbn [skipn firstn]. exists m'. split; [reflexivity|].
      set (b := firstn _ a) in *. replace (g_write (x :: b) f) with (g_write b (mk_file F1 (fpos f + 1))); [exact R'|]. unfold g_write. destruct b as [|y b]; [rewrite W1; reflexivity|]. cbn [fdata fpos]. rewrite W1. change 1 with (length [x]). rewrite ow_app. cbn [app length]. f_equal. lia.
    + unfold n. replace (length (fdata f) - fpos f) with 0 by lia. exists m. split; [reflexivity|exact R].
Qed.
Lemma one_reduce : forall M a b, length a + length b < M -> st_reduce M [] [a; b] = [a ++ b].
Proof. intros M a b H. cbn [st_reduce reduce_go]. replace (length b + length a <? M) with true by lia. reflexivity. Qed.
Lemma insert_end : forall M s r, r <> [] -> st_insert M [] (fun n => [n]) s IEnd r = Ok (st_reduce M [] (s ++ [r])).
Proof.
  intros M s r H. destruct r as [|y l]; [contradiction|]. unfold st_insert. cbn [blank map st_begin]. remember (y :: l) as r eqn:E.
  assert (W : st_write [repeat 0%N (length r)] (It 0 0) r = Ok ([r], length r, It 0 (length r))).
  { unfold st_write. cbn [skipn write_go]. destruct r as [|z r]; [discriminate|]. rewrite repeat_length, Nat.sub_0_r, Nat.leb_refl. cbn [firstn app Nat.add]. rewrite (skipn_all2 (repeat _ _)), app_nil_r by (rewrite repeat_length; lia). reflexivity. }
  rewrite W. reflexivity.
Qed.
Lemma m_write_spec : forall a M m f, m_rep M m f -> length (fdata (g_write a f)) < M -> exists m', m_write M [] (fun n => [n]) a m = Ok m' /\ m_rep M m' (g_write a f).
Proof.
  intros a M m f R HM. unfold m_write. destruct a as [|x0 a0]; [exists m; split; [reflexivity|exact R]|]. remember (x0 :: a0) as a eqn:Ea. assert (La : a <> []) by (subst; discriminate). clear x0 a0 Ea.
  assert (G : g_write a f = mk_file (overwrite (fdata f) (fpos f) a) (fpos f + length a)) by (destruct a; [contradiction|reflexivity]). rewrite G in *. cbn [fdata] in HM. rewrite ow_len in HM.
  destruct (m_write_loop_spec a M m f R) as (m1 & E & R1). rewrite E. cbn [bind]. set (n := length (fdata f) - fpos f) in *. pose proof R as (_ & _ & _ & B1 & B2).
  destruct (skipn n a) as [|y r] eqn:Er.
  - cbn [st_insert bind length]. rewrite Nat.add_0_r. pose proof R1 as (D & S1 & P1 & C1 & C2). assert (firstn n a = a) as Ea by (rewrite <- (firstn_skipn n a) at 2; rewrite Er, app_nil_r; reflexivity). rewrite Ea in *. rewrite G in *. rewrite P1, S1. cbn [fpos fdata] in *. rewrite (proj2 (Nat.ltb_ge _ _) C1).
    eexists. split; [reflexivity|]. repeat split; cbn; auto.
  - rewrite <- Er. assert (Lr : length (skipn n a) = length a - n) by apply skipn_length. assert (Lr0 : 0 < length a - n) by (rewrite <- Lr, Er; cbn; lia). pose proof R1 as (D & S1 & P1 & C1 & C2).
    set (f1 := g_write (firstn n a) f) in *. assert (F1 : fpos f1 = length (fdata f1) /\ fpos f1 = length (fdata f) /\ overwrite (fdata f) (fpos f) a = fdata f1 ++ skipn n a).
    { unfold f1. destruct (Nat.eq_dec n 0) as [Z|Z].
      - rewrite Z. cbn [firstn g_write skipn]. assert (fpos f = length (fdata f)) as Ef by lia. split; [exact Ef|]. split; [exact Ef|]. unfold overwrite. rewrite Ef, firstn_all, Nat.sub_diag, skipn_all2, app_nil_r by lia. reflexivity.
      - assert (firstn n a <> []). { intro Q. apply (f_equal (@length N)) in Q. rewrite firstn_length in Q. cbn in Q. lia. }
        destruct (firstn n a) as [|u v] eqn:Eu; [contradiction|]. cbn [g_write]. rewrite <- Eu. cbn [fpos fdata]. rewrite ow_len, firstn_length. split; [lia|]. split; [lia|]. rewrite <- (firstn_skipn n a) at 1. rewrite <- ow_app. rewrite firstn_length. replace (fpos f + Nat.min n (length a)) with (length (fdata f)) by lia.
        unfold overwrite at 1. rewrite ow_len, firstn_length, firstn_all2 by (rewrite ow_len, firstn_length; lia). replace (length (fdata f) - Nat.max (length (fdata f)) (fpos f + Nat.min n (length a))) with 0 by lia. cbn [repeat app]. rewrite (skipn_all2 (overwrite (fdata f) (fpos f) (firstn n a))) by (rewrite ow_len, firstn_length; lia). rewrite app_nil_r. reflexivity. }
    destruct F1 as (F1 & F2 & F3). rewrite insert_end by (rewrite Er; discriminate). cbn [bind]. rewrite P1, S1, <- F1. replace (fpos f1 <? fpos f1 + length (skipn n a)) with true by lia.
    assert (X : st_reduce M [] (m_data m1 ++ [skipn n a]) = [overwrite (fdata f) (fpos f) a]).
    { rewrite F3. destruct D as [D|[D D']]; rewrite D; cbn [app]; [apply one_reduce; lia|]. rewrite D'. reflexivity. }
    rewrite X. eexists. split; [reflexivity|]. unfold m_rep. cbn [m_data m_size m_pos fdata fpos]. rewrite ow_len. repeat split; auto; try lia.
Qed.
Lemma m_truncate_spec : forall M m f p, m_rep M m f -> p < length (fdata f) -> exists m', m_truncate M [] p m = Ok m' /\ m_rep M m' (mk_file (firstn p (fdata f)) (Nat.min p (fpos f))).
Proof.
  intros M m f p (D & S1 & P1 & B1 & B2) Hp. unfold m_truncate. rewrite S1. replace (length (fdata f) <=? p) with false by lia. destruct D as [D|[_ D]]; [|rewrite D in Hp; cbn in Hp; lia]. rewrite D, P1.
  assert (E : st_truncate M [] [fdata f] p = [firstn p (fdata f)]).
  { pose proof (C28_truncate M [] [fdata f] p) as C. unfold st_truncate in *. rewrite st_size_concat in *. cbn [concat] in *. rewrite app_nil_r in *. replace (p <? length (fdata f)) with true in * by lia.
    pose proof (st_skip_to_spec [fdata f] p) as R. cbn [concat] in R. rewrite app_nil_r, Nat.min_l in R by lia. destruct (st_skip_to [fdata f] p) as [i off| |]; [|cbn in R; rewrite app_nil_r in R; lia|destruct R].
    destruct (rel_cut _ _ _ _ R) as (pre & c & post & Es & Ei & H & Ep & _). destruct pre as [|c0 pre]; [|apply (f_equal (@length (list N))) in Es; rewrite app_length in Es; cbn in Es; lia]. cbn in Es, Ei, Ep. injection Es as <- <-. subst i off. unfold st_remove in *. cbn [firstn skipn app] in *.
    cbn [remove_go] in *. replace (length (fdata f) - p =? 0) with false in * by lia. replace (length (fdata f) - p <? length (fdata f) - p) with false in * by lia. cbn [st_reduce reduce_go concat] in *. rewrite app_nil_r in C. rewrite C. reflexivity. }
  rewrite E. eexists. split; [reflexivity|]. unfold m_rep. cbn [m_data m_size m_pos fdata fpos]. rewrite firstn_length. repeat split; auto; try lia. destruct (Nat.ltb_spec p (fpos f)); lia.
Qed.
Lemma mm_op_spec : forall M o m f, m_rep M m f -> match o with MTruncate p => p < length (fdata f) | _ => True end -> length (fdata (snd (b_op o f))) < M ->
  exists m', mm_op M o m = Ok (fst (b_op o f), m') /\ m_rep M m' (snd (b_op o f)).
Proof.
  intros M o m f R H1 H2. destruct o as [o|p]; cbn [mm_op].
  2:{ destruct (m_truncate_spec M m f p R H1) as (m' & -> & R'). cbn [bind b_op fst snd]. exists m'. split; [reflexivity|exact R']. }
  destruct o as [n|a|p| |x|]; cbn [m_op].
  - destruct (m_read_spec n M m f [] R) as (m' & -> & R'). cbn [bind b_op g_op]. destruct (g_read n f) as [d f']. exists m'. split; [reflexivity|exact R'].
  - destruct (m_write_spec a M m f R H2) as (m' & -> & R'). exists m'. split; [reflexivity|exact R'].
  - destruct R as (D & S1 & P1 & B1 & B2). unfold m_skip. cbn [b_op]. rewrite S1. destruct (Nat.leb_spec (length (fdata f)) p); eexists; (split; [reflexivity|]); unfold m_rep; cbn [m_data m_size m_pos snd g_skip fdata fpos]; repeat split; auto; lia.
  - destruct R as (D & S1 & P1 & B1 & B2). eexists. split; [reflexivity|]. unfold m_rep. cbn [b_op g_op snd g_skip_eof m_data m_size m_pos fdata fpos]. repeat split; auto; lia.
  - destruct R as (D & S1 & P1 & B1 & B2). unfold m_skip_rel. cbn [b_op]. rewrite P1, S1. destruct (Z.ltb_spec x 0) as [Q|Q].
    + destruct (Z.ltb_spec (Z.of_nat (fpos f) + x) 0) as [L|L]; [|replace (Z.of_nat (length (fdata f)) <? Z.of_nat (fpos f) + x)%Z with false by lia]; eexists; (split; [reflexivity|]); unfold m_rep; cbn [m_data m_size m_pos snd g_skip fdata fpos]; repeat split; auto; lia.
    + replace (Z.of_nat (fpos f) + x <? 0)%Z with false by lia. destruct (Z.ltb_spec (Z.of_nat (length (fdata f))) (Z.of_nat (fpos f) + x)) as [L|L]; eexists; (split; [reflexivity|]); unfold m_rep; cbn [m_data m_size m_pos snd g_skip fdata fpos]; repeat split; auto; lia.
  - exists m. cbn [b_op g_op fst snd]. destruct R as (D & S1 & P1 & R). rewrite P1. split; [reflexivity|]. repeat split; tauto.
Qed.
(** A memory file (of less than 4 GiB - 1, while memory is available) is that byte array. *)
Theorem C28_memory_file : forall M ops, client_ok M ops (mk_file [] 0) ->
  exists m', mm_run M ops m_new = Ok (fst (b_run ops (mk_file [] 0)), m') /\ concat (m_data m') = fdata (snd (b_run ops (mk_file [] 0))).
Proof.
  intros M ops H. enough (G : forall ops m f, m_rep M m f -> client_ok M ops f -> exists m', mm_run M ops m = Ok (fst (b_run ops f), m') /\ m_rep M m' (snd (b_run ops f))).
  { destruct (G ops m_new (mk_file [] 0)) as (m' & E & (D & _)); [unfold m_rep; cbn; repeat split; auto; lia|exact H|]. exists m'. split; [exact E|]. destruct D as [D|[D D']]; rewrite D; cbn; [rewrite app_nil_r; reflexivity|rewrite D'; reflexivity]. }
  clear ops H. induction ops as [|o r IH]; intros m f R H; cbn [mm_run b_run].
  - exists m. split; [reflexivity|exact R].
  - destruct H as (H1 & H2 & H3). destruct (mm_op_spec M o m f R H1 H2) as (m1 & -> & R1). cbn [bind]. destruct (IH m1 _ R1 H3) as (m2 & -> & R2). cbn [bind]. destruct (b_op o f) as [a f1]. cbn [fst snd] in *. destruct (b_run r f1) as [l f2]. exists m2. split; [reflexivity|exact R2].
Qed.
Theorem C28_instance : let ops := [MOp (GWrite [1; 2; 3; 4]%N); MOp (GSkip 1); MOp (GWrite [20; 30; 40; 50]%N); MOp (GRel (-3)); MOp (GRead 9); MTruncate 2; MOp (GWrite [9]%N); MOp (GSkip 0); MOp (GRead 5)] in
  client_ok 100 ops (mk_file [] 0) /\ fst (b_run ops (mk_file [] 0)) = [OUnit; OBool true; OUnit; OBool true; OData [30; 40; 50]%N; OUnit; OUnit; OBool true; OData [1; 20; 9]%N].
Proof. cbn zeta. split; [vm_compute; repeat split; lia|vm_compute; reflexivity]. Qed.
Theorem C28_instance_cells : let s := [[1; 2]; [3]; [4; 5; 6]]%N in rel s 0 (It 1 1) 3 /\ st_write s (It 1 1) [7; 8]%N = Ok ([[1; 2]; [3]; [7; 8; 6]]%N, 2, It 2 2) /\
  st_insert 1000 [false] (fun n => [2; n - 2]) s (It 2 1) [9; 9]%N = Ok [[1; 2]; [3]; [4; 9]; [9; 5; 6]]%N /\ st_remove 1000 [] s (It 0 1) 3 = [[1; 5; 6]]%N.
Proof. cbn zeta. split; [exists [[1; 2]%N], [3]%N, [[4; 5; 6]%N]; repeat split; auto|]. split; [reflexivity|]. split; vm_compute; reflexivity. Qed.

(** ** where it is not so *)
(** the first byte of a cell other than the first one: operator [] returns the byte which follows the end of the previous cell *)
Theorem C28_index_boundary_refuted : exists s, concat s = [1; 2; 3]%N /\ st_get 1000 s 2 = Err UB.
Proof. exists [[1; 2]; [3]]%N. split; reflexivity. Qed.
(** an index out of the storage does not raise Erange: memory out of the cells is read, or a null pointer is followed *)
Theorem C28_index_out_refuted : exists s, length (concat s) = 2 /\ st_get 1000 s 2 = Err UB /\ st_get 1000 s 3 = Err UB.
Proof. exists [[1; 2]]%N. repeat split; reflexivity. Qed.
(** a memory file whose two cells could not be merged (memory exhausted for a while) reads out of its memory *)
Theorem C28_memory_file_cells_refuted : exists m, m_run 1000 [false] (fun n => [n]) [GWrite [1; 2]%N; GWrite [3]%N; GSkip 0] m_new = Ok ([OUnit; OUnit; OBool true], m) /\ m_size m = 3 /\ m_op 1000 [] (fun n => [n]) (GRead 3) m = Err UB.
Proof. eexists. split; [vm_compute; reflexivity|]. split; vm_compute; reflexivity. Qed.
(** when the first request of memory is refused, an odd amount is never obtained: the loop goes on beyond what was asked *)
Theorem C28_alloc_odd_refuted : forall fuel M l o, make_alloc fuel M [false] 11 = Ok (l, o) -> fold_right Nat.add 0 l <> 11.
Proof.
  intros fuel M l o. unfold make_alloc. cbn [Nat.eqb]. destruct fuel as [|fuel]; [discriminate|]. cbn [alloc_loop hd tl]. change (2 <? 11) with true. cbv match. change (11 / 2) with 5.
  assert (G : forall fuel size got, (exists k, fold_right Nat.add 0 got = 5 * k) -> alloc_loop fuel M [] size 5 got = Ok (l, o) -> exists k, fold_right Nat.add 0 l = 5 * k).
  { clear fuel. induction fuel as [|fuel IH]; intros size got Hg E; [discriminate|]. cbn [alloc_loop hd tl] in E. assert (Hg' : exists k, fold_right Nat.add 0 (got ++ [5]) = 5 * k).
    { destruct Hg as [k Hk]. exists (S k). rewrite fold_right_app. cbn [fold_right]. assert (X : forall g n, fold_right Nat.add n g = n + fold_right Nat.add 0 g) by (induction g as [|y g IHg]; intro n; cbn; [lia|rewrite IHg; lia]). rewrite X. lia. }
    destruct (0 <? _) in E; [exact (IH _ _ Hg' E)|]. injection E as <- <-. exact Hg'. }
  intro E. destruct (G fuel 11 [] (ex_intro _ 0 eq_refl) E) as [k Hk]. lia.
Qed.
(** copying a storage (hence a memory file) that has been emptied raises an exception *)
Theorem C28_copy_emptied_refuted : exists m, mm_run 1000 [MOp (GWrite [1]%N); MTruncate 0] m_new = Ok ([OUnit; OUnit], m) /\ concat (m_data m) = [] /\ st_copy (m_data m) = Err Erange.
Proof. eexists. split; [vm_compute; reflexivity|]. split; vm_compute; reflexivity. Qed.
(** skipping to the end of a memory file reports a failure *)
Theorem C28_skip_end_refuted : exists m, m_run 1000 [] (fun n => [n]) [GWrite [1; 2]%N; GSkip 2; GPos] m_new = Ok ([OUnit; OBool false; OPos 2], m).
Proof. eexists. vm_compute. reflexivity. Qed.
(** the comparison operators look at the last cells only *)
Theorem C28_compare_refuted : exists a b, length (concat a) = 4 /\ length (concat b) = 2 /\ (st_difference a b < 0)%Z.
Proof. exists [[1; 2; 3]; [4]]%N, [[1; 2]]%N. repeat split. Qed.
