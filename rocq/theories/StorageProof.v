(** * Proofs about storage. *)
From Verif Require Import Base FileModel ClientSpec CacheProof StorageModel.
Open Scope nat_scope.

Notation lens := (map (@length N)).
(** the iterator [it] designates the byte number [p] of the cells [s], whose first cell has the number [i0] *)
Definition rel (s : cells) (i0 : nat) (it : iter) (p : nat) : Prop :=
  match it with
  | It i off => exists pre c post, s = pre ++ c :: post /\ i = i0 + length pre /\ off <= length c /\ p = length (concat pre) + off
  | IEnd => p = length (concat s)
  | IBeg => False
  end.
Lemma rel_cons : forall c r i it p, rel r (S i) it p -> rel (c :: r) i it (length c + p).
Proof.
  intros c r i [j off| |] p H; cbn [rel] in *; [|rewrite H; cbn; rewrite app_length; lia|contradiction].
  destruct H as (pre & d & post & -> & -> & H1 & ->). exists (c :: pre), d, post. split; [reflexivity|]. split; [cbn; lia|]. split; [exact H1|]. cbn. rewrite app_length. lia.
Qed.
Lemma rel_head : forall c r i off, off <= length c -> rel (c :: r) i (It i off) off.
Proof. intros c r i off H. exists [], c, r. cbn. repeat split; auto; lia. Qed.
Lemma st_size_concat : forall s, st_size s = length (concat s).
Proof.
  intro s. unfold st_size. enough (G : forall n, fold_left (fun n c => n + length c) s n = n + length (concat s)) by apply G.
  induction s as [|c s IH]; intro n; cbn [fold_left concat length]; [lia|]. rewrite IH, app_length. lia.
Qed.
Lemma st_dump_concat : forall s, st_dump s = concat s.
Proof.
  intro s. unfold st_dump. enough (G : forall l, fold_left (fun l c => l ++ c) s l = l ++ concat s) by apply G.
  induction s as [|c s IH]; intro l; cbn [fold_left concat]; [rewrite app_nil_r; reflexivity|]. rewrite IH, <- app_assoc. reflexivity.
Qed.
Lemma firstn_skipn_mid : forall (c : list N) off k, off + k <= length c -> length (firstn off c) = off.
Proof. intros. rewrite firstn_length. lia. Qed.

Lemma write_go_spec : forall s i off a, off <= length (hd [] s) ->
  let F := concat s in let n := length F - off in
  exists s' it, write_go s i off a = (s', skipn n a, it) /\ concat s' = firstn off F ++ firstn n a ++ skipn (off + length a) F /\ lens s' = lens s /\ rel s' i it (off + Nat.min n (length a)).
Proof.
  induction s as [|c r IH]; intros i off a H F n.
  { cbn in H. assert (off = 0) by lia. subst off. unfold n, F. cbn. exists [], IEnd. split; [reflexivity|]. split; [rewrite skipn_nil; reflexivity|]. split; [reflexivity|]. reflexivity. }
  cbn [hd] in H. unfold n, F in *. cbn [concat]. rewrite app_length. cbn [write_go]. destruct a as [|x0 a0].
  { exists (c :: r), (It i off). rewrite skipn_nil, firstn_nil. cbn [length app]. rewrite Nat.add_0_r, Nat.min_0_r. split; [reflexivity|]. split; [cbn [concat]; rewrite firstn_skipn; reflexivity|]. split; [reflexivity|]. rewrite Nat.add_0_r. apply rel_head. exact H. }
  remember (x0 :: a0) as a eqn:Ea. assert (La : 0 < length a) by (subst; cbn; lia). clear x0 a0 Ea.
  destruct (Nat.leb_spec (length a) (length c - off)) as [Q|Q].
  - assert (Lc : length (firstn off c ++ a ++ skipn (off + length a) c) = length c) by (rewrite !app_length, firstn_length, skipn_length; lia).
    exists ((firstn off c ++ a ++ skipn (off + length a) c) :: r), (It i (off + length a)). rewrite (skipn_all2 a), (firstn_all2 (n := length c + length (concat r) - off) a) by lia.
    split; [reflexivity|]. split; [cbn [concat]; rewrite firstn_app, skipn_app; replace (off - length c) with 0 by lia; replace (off + length a - length c) with 0 by lia; cbn [firstn skipn]; rewrite app_nil_r, <- !app_assoc; reflexivity|].
    split; [cbn [map]; rewrite Lc; reflexivity|]. replace (Nat.min (length c + length (concat r) - off) (length a)) with (length a) by lia. apply rel_head. lia.
  - set (sp := length c - off) in *. destruct (IH (S i) 0 (skipn sp a) ltac:(lia)) as (s' & it & E & C & L & R). rewrite E. rewrite Nat.sub_0_r, skipn_skipn in *. cbn [firstn app Nat.add] in C, R.
    assert (Lc : length (firstn off c ++ firstn sp a) = length c) by (rewrite app_length, !firstn_length; lia).
    exists ((firstn off c ++ firstn sp a) :: s'), it. split; [do 3 f_equal; lia|]. split; [|split].
    + cbn [concat]. rewrite C, firstn_app. replace (off - length c) with 0 by lia. cbn [firstn]. rewrite app_nil_r, <- !app_assoc. f_equal. replace (length c + length (concat r) - off) with (sp + length (concat r)) by lia. rewrite (firstn_add a sp), <- app_assoc. f_equal. f_equal.
      rewrite skipn_app, (skipn_all2 c) by lia. cbn [app]. rewrite skipn_length. f_equal. lia.
    + cbn [map]. rewrite Lc, L. reflexivity.
    + rewrite skipn_length in R. apply (rel_cons (firstn off c ++ firstn sp a)) in R. rewrite Lc in R. replace (off + Nat.min (length c + length (concat r) - off) (length a)) with (length c + Nat.min (length (concat r)) (length a - sp)) by lia. exact R.
Qed.
Lemma read_go_spec : forall s i off n, off <= length (hd [] s) -> exists it, read_go s i off n = (firstn n (skipn off (concat s)), it) /\ rel s i it (off + Nat.min n (length (concat s) - off)).
Proof.
  induction s as [|c r IH]; intros i off n H; cbn [hd length] in H.
  { assert (off = 0) by lia. subst off. exists IEnd. cbn. rewrite firstn_nil. split; [reflexivity|]. lia. }
  cbn [read_go concat]. rewrite app_length. destruct (Nat.eqb_spec n 0) as [Q|Q].
  { subst n. exists (It i off). split; [reflexivity|]. cbn [Nat.min]. rewrite Nat.add_0_r. apply rel_head. exact H. }
  rewrite skipn_app. replace (off - length c) with 0 by lia. cbn [skipn]. destruct (Nat.leb_spec n (length c - off)) as [L|L].
  - exists (It i (off + n)). split; [rewrite firstn_app, skipn_length; replace (n - (length c - off)) with 0 by lia; cbn [firstn]; rewrite app_nil_r; reflexivity|].
    replace (Nat.min n (length c + length (concat r) - off)) with n by lia. apply rel_head. lia.
  - destruct (IH (S i) 0 (n - (length c - off)) ltac:(lia)) as (it & E & R). rewrite E. exists it. split; [rewrite firstn_app, skipn_length, (firstn_all2 (skipn off c)) by (rewrite skipn_length; lia); reflexivity|].
    apply (rel_cons c) in R. cbn [Nat.add] in R. rewrite Nat.sub_0_r in R. replace (off + Nat.min n (length c + length (concat r) - off)) with (length c + Nat.min (n - (length c - off)) (length (concat r))) by lia. exact R.
Qed.
Lemma fwd_go_spec : forall s i off v, off <= length (hd [] s) -> rel s i (fwd_go s i off v) (Nat.min (off + v) (length (concat s))).
Proof.
  induction s as [|c r IH]; intros i off v H; cbn [hd length] in H; cbn [fwd_go]; [cbn; lia|]. cbn [concat]. rewrite app_length. destruct (Nat.eqb_spec v 0) as [Q|Q].
  { subst v. replace (Nat.min (off + 0) (length c + length (concat r))) with off by lia. apply rel_head. exact H. }
  destruct (Nat.leb_spec (length c) (off + v)) as [L|L].
  - pose proof (IH (S i) 0 (v - (length c - off)) ltac:(lia)) as R. apply (rel_cons c) in R. replace (Nat.min (off + v) (length c + length (concat r))) with (length c + Nat.min (0 + (v - (length c - off))) (length (concat r))) by lia. exact R.
  - replace (Nat.min (off + v) (length c + length (concat r))) with (off + v) by lia. apply rel_head. lia.
Qed.
(** any valid iterator gives a cut of the chain *)
Lemma rel_cut : forall s i off p, rel s 0 (It i off) p -> exists pre c post, s = pre ++ c :: post /\ i = length pre /\ off <= length c /\ p = length (concat pre) + off /\ firstn i s = pre /\ skipn i s = c :: post /\ nth i s [] = c /\ skipn (S i) s = post.
Proof.
  intros s i off p (pre & c & post & -> & -> & H & ->). exists pre, c, post. cbn [Nat.add]. split; [reflexivity|]. split; [reflexivity|]. split; [exact H|]. split; [reflexivity|]. split; [apply firstn_app_exact|]. split; [apply skipn_app_exact|]. split; [rewrite app_nth2, Nat.sub_diag by lia; reflexivity|].
  rewrite skipn_app, (skipn_all2 pre) by lia. replace (S (length pre) - length pre) with 1 by lia. reflexivity.
Qed.
Lemma rel_prefix : forall pre s i it p, rel s (i + length pre) it p -> rel (pre ++ s) i it (length (concat pre) + p).
Proof.
  induction pre as [|c pre IH]; intros s i it p H; cbn [app length concat] in *; [rewrite Nat.add_0_r in H; exact H|]. rewrite app_length, <- Nat.add_assoc. apply rel_cons. apply IH. replace (S i + length pre) with (i + S (length pre)) by lia. exact H.
Qed.
Lemma rel_le : forall s i it p, rel s i it p -> p <= length (concat s).
Proof.
  intros s i [j off| |] p H; cbn [rel] in H; [|lia|contradiction]. destruct H as (pre & c & post & -> & _ & H & ->). rewrite concat_app. cbn [concat]. rewrite !app_length. lia.
Qed.
Lemma firstn_concat_cut : forall (pre : cells) c post off, off <= length c -> firstn (length (concat pre) + off) (concat (pre ++ c :: post)) = concat pre ++ firstn off c.
Proof. intros. rewrite concat_app. cbn [concat]. rewrite firstn_app, firstn_all2 by lia. replace (length (concat pre) + off - length (concat pre)) with off by lia. rewrite firstn_app. replace (off - length c) with 0 by lia. cbn [firstn]. rewrite app_nil_r. reflexivity. Qed.
Lemma skipn_concat_cut : forall (pre : cells) s k, skipn (length (concat pre) + k) (concat (pre ++ s)) = skipn k (concat s).
Proof. intros. rewrite concat_app, skipn_app, (skipn_all2 (concat pre)) by lia. cbn [app]. f_equal. lia. Qed.

Lemma st_write_spec : forall s it p a, rel s 0 it p -> let F := concat s in let n := length F - p in
  exists s' it', st_write s it a = Ok (s', Nat.min n (length a), it') /\ concat s' = firstn p F ++ firstn n a ++ skipn (p + length a) F /\ lens s' = lens s /\ rel s' 0 it' (p + Nat.min n (length a)).
Proof.
  intros s [i off| |] p a R F n; [| |destruct R].
  - destruct (rel_cut _ _ _ _ R) as (pre & c & post & Es & Ei & H & Ep & E1 & E2 & _). cbn [st_write]. rewrite E1, E2. subst s i.
    destruct (write_go_spec (c :: post) (length pre) off a H) as (s' & it & E & C & L & R'). rewrite E. set (nn := length (concat (c :: post)) - off) in *.
    assert (En : nn = n) by (unfold nn, n, F; rewrite concat_app, app_length; lia). rewrite <- En.
    exists (pre ++ s'), it. split; [rewrite skipn_length; replace (length a - (length a - nn)) with (Nat.min nn (length a)) by lia; reflexivity|]. split; [|split].
    + rewrite concat_app, C. unfold F. rewrite Ep, (firstn_concat_cut pre c post off H), <- Nat.add_assoc, skipn_concat_cut, <- app_assoc. f_equal. f_equal. cbn [concat]. rewrite firstn_app. replace (off - length c) with 0 by lia. cbn [firstn]. rewrite app_nil_r. reflexivity.
    + rewrite !map_app, L. reflexivity.
    + rewrite Ep, <- Nat.add_assoc. apply rel_prefix. exact R'.
  - cbn [rel] in R. unfold n, F. rewrite R. cbn [st_write]. exists s, IEnd. rewrite Nat.sub_diag. cbn [Nat.min firstn app]. split; [reflexivity|]. split; [rewrite firstn_all, skipn_all2, app_nil_r by lia; reflexivity|]. split; [reflexivity|]. cbn. lia.
Qed.
Lemma st_read_spec : forall s it p n, rel s 0 it p -> exists it', st_read s it n = Ok (firstn n (skipn p (concat s)), it') /\ rel s 0 it' (p + Nat.min n (length (concat s) - p)).
Proof.
  intros s [i off| |] p n R; [| |destruct R].
  - destruct (rel_cut _ _ _ _ R) as (pre & c & post & Es & Ei & H & Ep & E1 & E2 & _). cbn [st_read]. rewrite E2. subst s i. destruct (read_go_spec (c :: post) (length pre) off n H) as (it & E & R'). rewrite E. exists it. split; [rewrite Ep, skipn_concat_cut; reflexivity|].
    rewrite Ep. rewrite concat_app, app_length, <- Nat.add_assoc. replace (length (concat pre) + length (concat (c :: post)) - (length (concat pre) + off)) with (length (concat (c :: post)) - off) by lia. apply rel_prefix. exact R'.
  - cbn [rel] in R. exists IEnd. cbn [st_read]. rewrite skipn_all2 by lia. rewrite firstn_nil. split; [reflexivity|]. cbn. lia.
Qed.
Lemma st_rel_fwd : forall s it p v, rel s 0 it p -> rel s 0 (st_rel s it (Z.of_nat v)) (Nat.min (p + v) (length (concat s))).
Proof.
  intros s [i off| |] p v R; [| |destruct R]; unfold st_rel; replace (0 <=? Z.of_nat v)%Z with true by lia.
  - destruct (rel_cut _ _ _ _ R) as (pre & c & post & Es & Ei & H & Ep & E1 & E2 & _). rewrite E2, Nat2Z.id. subst s i. rewrite Ep, concat_app, app_length. replace (Nat.min (length (concat pre) + off + v) (length (concat pre) + length (concat (c :: post)))) with (length (concat pre) + Nat.min (off + v) (length (concat (c :: post)))) by lia.
    apply rel_prefix. apply fwd_go_spec. exact H.
  - cbn [rel] in *. lia.
Qed.
Lemma rel_begin : forall s, rel s 0 (st_begin s) 0.
Proof. intros [|c s]; [reflexivity|]. apply rel_head. lia. Qed.
Lemma U16_pos : 0 < U16_max.
Proof. unfold U16_max. lia. Qed.
Lemma skip_loop_spec : forall fuel s it p pas v, rel s 0 it p -> v < fuel -> rel s 0 (skip_loop fuel s it pas v) (Nat.min (p + pas + v) (length (concat s))).
Proof.
  pose proof U16_pos. induction fuel as [|k IH]; intros s it p pas v R H'; [lia|]. cbn [skip_loop]. pose proof (st_rel_fwd s it p pas R) as R1. pose proof (rel_le _ _ _ _ R). destruct (Nat.ltb_spec 0 (Nat.min v U16_max)) as [Q|Q].
  - pose proof (IH s _ _ (Nat.min v U16_max) (v - Nat.min v U16_max) R1 ltac:(lia)) as R2.
    replace (Nat.min (p + pas + v) (length (concat s))) with (Nat.min (Nat.min (p + pas) (length (concat s)) + Nat.min v U16_max + (v - Nat.min v U16_max)) (length (concat s))) by lia. exact R2.
  - assert (v = 0) by lia. subst v. rewrite Nat.add_0_r. exact R1.
Qed.
Lemma st_skip_to_spec : forall s v, rel s 0 (st_skip_to s v) (Nat.min v (length (concat s))).
Proof. intros s v. pose proof (skip_loop_spec (S (S v)) s (st_begin s) 0 (Nat.min v U16_max) (v - Nat.min v U16_max) (rel_begin s) ltac:(lia)) as R. replace (0 + Nat.min v U16_max + (v - Nat.min v U16_max)) with v in R by lia. exact R. Qed.
Lemma bwd_go_spec : forall before c post off v, off <= length c -> let s := rev before ++ c :: post in let p := length (concat (rev before)) + off in
  if v <=? p then rel s 0 (bwd_go before (length before) off v) (p - v) else bwd_go before (length before) off v = IBeg.
Proof.
  induction before as [|d b IH]; intros c post off v H; cbn zeta; cbn [rev app bwd_go length concat].
  - cbn [Nat.add]. destruct (Nat.leb_spec v off) as [Q|Q]; [apply rel_head; lia|reflexivity].
  - rewrite concat_app. cbn [concat]. rewrite app_nil_r, app_length. replace (S (length b) - 1) with (length b) by lia. specialize (IH d (c :: post) (length d) (v - off) ltac:(lia)). cbn zeta in IH.
    destruct (Nat.leb_spec v off) as [Q|Q].
    + replace (v <=? _) with true by lia. exists (rev b ++ [d]), c, post. split; [reflexivity|]. split; [rewrite app_length, rev_length; cbn; lia|]. split; [lia|]. rewrite concat_app, app_length. cbn. rewrite app_nil_r. lia.
    + rewrite <- app_assoc. cbn [app]. destruct (Nat.leb_spec (v - off) (length (concat (rev b)) + length d)) as [L|L].
      * replace (v <=? length (concat (rev b)) + length d + off) with true by lia. replace (length (concat (rev b)) + length d + off - v) with (length (concat (rev b)) + length d - (v - off)) by lia. exact IH.
      * replace (v <=? length (concat (rev b)) + length d + off) with false by lia. exact IH.
Qed.
Lemma reduce_go_concat : forall rest lim orc c, concat (reduce_go lim orc c rest) = c ++ concat rest.
Proof.
  induction rest as [|d r IH]; intros lim orc c; cbn [reduce_go concat]; [reflexivity|]. destruct (_ <? lim); [destruct (hd true orc)|]; cbn [concat]; rewrite IH, ?app_assoc; reflexivity.
Qed.
Lemma st_reduce_concat : forall M orc s, concat (st_reduce M orc s) = concat s.
Proof. intros M orc [|c s]; [reflexivity|]. apply reduce_go_concat. Qed.
Lemma remove_go_concat : forall s off n, off <= length (hd [] s) -> concat (remove_go s off n) = firstn off (concat s) ++ skipn (off + n) (concat s).
Proof.
  induction s as [|c r IH]; intros off n H; cbn [hd length] in H; cbn [remove_go concat]; [rewrite firstn_nil, skipn_nil; reflexivity|]. destruct (Nat.eqb_spec n 0) as [Q|Q].
  { subst n. rewrite Nat.add_0_r, firstn_skipn. reflexivity. }
  rewrite firstn_app, skipn_app. replace (off - length c) with 0 by lia. cbn [firstn]. rewrite app_nil_r. destruct (Nat.ltb_spec (length c - off) n) as [L|L].
  - rewrite (@skipn_all2 N (off + n) c) by lia. cbn [app]. destruct (Nat.ltb_spec 0 off) as [P|P].
    + cbn [concat]. rewrite IH by lia. cbn [firstn app]. do 2 f_equal. lia.
    + assert (off = 0) by lia. subst off. rewrite IH by lia. cbn [firstn app]. f_equal.
  - cbn [concat]. replace (off + n - length c) with 0 by lia. cbn [skipn]. rewrite <- app_assoc. reflexivity.
Qed.
Lemma st_remove_concat : forall M orc s it p n, rel s 0 it p -> concat (st_remove M orc s it n) = firstn p (concat s) ++ skipn (p + n) (concat s).
Proof.
  intros M orc s [i off| |] p n R; [| |destruct R]; unfold st_remove; rewrite st_reduce_concat.
  - destruct (rel_cut _ _ _ _ R) as (pre & c & post & Es & Ei & H & Ep & E1 & E2 & _). rewrite E1, E2. subst s i. rewrite concat_app, remove_go_concat by exact H. rewrite Ep, (firstn_concat_cut pre c post off H), <- Nat.add_assoc, skipn_concat_cut, <- app_assoc. f_equal.
    cbn [concat]. rewrite firstn_app. replace (off - length c) with 0 by lia. cbn [firstn]. rewrite app_nil_r. reflexivity.
  - cbn [rel] in R. rewrite firstn_all2, skipn_all2, app_nil_r by lia. reflexivity.
Qed.
Lemma blank_concat : forall l, length (concat (blank l)) = fold_right Nat.add 0 l.
Proof. induction l as [|n l IH]; cbn; [reflexivity|]. rewrite app_length, repeat_length. f_equal. exact IH. Qed.
Lemma st_insert_concat : forall M orc lay s it p a, rel s 0 it p -> (forall n, fold_right Nat.add 0 (lay n) = n) ->
  exists s', st_insert M orc lay s it a = Ok s' /\ concat s' = firstn p (concat s) ++ a ++ skipn p (concat s).
Proof.
  intros M orc lay s it p a R Hl. unfold st_insert. destruct a as [|x0 a0].
  { exists s. split; [reflexivity|]. cbn [app]. rewrite firstn_skipn. reflexivity. }
  remember (x0 :: a0) as a eqn:Ea. assert (La : 0 < length a) by (subst; cbn; lia). clear x0 a0 Ea. destruct it as [i off| |]; [| |destruct R].
  - destruct (rel_cut _ _ _ _ R) as (pre & c & post & Es & Ei & H & Ep & E1 & E2 & E3 & E4). rewrite E1, E3, E4. set (t0 := blank _). assert (L0 : length (concat t0) = length a + length c) by (unfold t0; rewrite blank_concat, Hl; reflexivity).
    destruct (st_write_spec t0 (st_begin t0) 0 (firstn off c) (rel_begin t0)) as (t1 & g1 & -> & C1 & S1 & R1). cbn [bind]. rewrite Nat.sub_0_r, firstn_length in *. cbn [firstn app] in C1.
    rewrite (firstn_all2 (firstn off c)) in C1 by (rewrite firstn_length; lia). replace (0 + Nat.min (length (concat t0)) (Nat.min off (length c))) with off in R1 by lia. replace (0 + Nat.min off (length c)) with off in C1 by lia.
    assert (L1 : length (concat t1) = length a + length c) by (rewrite C1, app_length, firstn_length, skipn_length; lia).
    destruct (st_write_spec t1 g1 off a R1) as (t2 & g2 & -> & C2 & S2 & R2). cbn [bind]. rewrite (firstn_all2 (n := length (concat t1) - off) a) in C2 by lia. rewrite C1 in C2 at 1. rewrite firstn_app, (firstn_all2 (firstn off c)) in C2 by (rewrite firstn_length; lia). rewrite firstn_length in C2. replace (off - Nat.min off (length c)) with 0 in C2 by lia. cbn [firstn] in C2. rewrite app_nil_r in C2.
    replace (off + Nat.min (length (concat t1) - off) (length a)) with (off + length a) in R2 by lia.
    assert (L2 : length (concat t2) = length a + length c) by (rewrite C2, !app_length, firstn_length, skipn_length; lia).
    destruct (st_write_spec t2 g2 _ (skipn off c) R2) as (t3 & g3 & -> & C3 & _ & _). cbn [bind]. rewrite skipn_length in C3. rewrite (firstn_all2 (n := length (concat t2) - (off + length a)) (skipn off c)) in C3 by (rewrite skipn_length; lia).
    rewrite (skipn_all2 (concat t2)) in C3 by lia. rewrite app_nil_r in C3. rewrite C2 in C3. rewrite app_assoc in C3. rewrite firstn_app, (firstn_all2 (firstn off c ++ a)) in C3 by (rewrite app_length, firstn_length; lia). rewrite app_length, firstn_length in C3. replace (off + length a - (Nat.min off (length c) + length a)) with 0 in C3 by lia. cbn [firstn] in C3. rewrite app_nil_r in C3.
    destruct t3 as [|d t3]; [apply (f_equal (@length N)) in C3; rewrite !app_length in C3; cbn in C3; lia|]. eexists. split; [reflexivity|]. rewrite st_reduce_concat, !concat_app, C3. subst s. rewrite Ep, (firstn_concat_cut pre c post off H), (skipn_concat_cut pre). cbn [concat]. rewrite skipn_app. replace (off - length c) with 0 by lia. cbn [skipn]. rewrite <- !app_assoc. reflexivity.
  - set (t0 := blank _). assert (L0 : length (concat t0) = length a) by (unfold t0; rewrite blank_concat, Hl; reflexivity).
    destruct (st_write_spec t0 (st_begin t0) 0 a (rel_begin t0)) as (t1 & g1 & -> & C1 & S1 & R1). cbn [bind]. rewrite Nat.sub_0_r in *. cbn [firstn app Nat.add] in C1. rewrite firstn_all2, skipn_all2, app_nil_r in C1 by lia.
    destruct t1 as [|d t1]; [apply (f_equal (@length N)) in C1; cbn in C1; lia|]. eexists. split; [reflexivity|]. cbn [rel] in R. rewrite st_reduce_concat, concat_app, C1, R, firstn_all, skipn_all, app_nil_r. reflexivity.
Qed.
