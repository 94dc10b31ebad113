From Verif Require Import Base InfinintModel InfinintProof InfinintProof2 CrcModel.
Open Scope nat_scope.

Definition wf (c : crc) : Prop := pointer c < crc_size c.

(** specification: XOR of the bytes whose offset is congruent to i modulo w; [j] = offset of the first byte *)
Fixpoint col (w i j : nat) (data : list N) : N :=
  match data with
  | [] => 0%N
  | b :: r => if j mod w =? i then N.lxor b (col w i (S j) r) else col w i (S j) r
  end.

Lemma xor1_length : forall l p b, length (xor1 l p b) = length l.
Proof. induction l as [|x l IH]; intros [|p] b; cbn [xor1 length]; auto. Qed.

Lemma xor1_nth : forall l p b i, p < length l ->
  nth i (xor1 l p b) 0%N = if i =? p then N.lxor (nth i l 0%N) b else nth i l 0%N.
Proof.
  induction l as [|x l IH]; intros p b i H; cbn [length] in H; [lia|].
  destruct p as [|p], i as [|i]; cbn [xor1 nth Nat.eqb]; auto.
  apply IH. lia.
Qed.

Definition next (w p : nat) : nat := if S p =? w then 0 else S p.
Lemma next_mod : forall w p, p < w -> next w p = S p mod w.
Proof.
  intros w p H. unfold next. destruct (Nat.eqb_spec (S p) w) as [E|E].
  - rewrite E, Nat.mod_same by lia. reflexivity.
  - rewrite Nat.mod_small by lia. reflexivity.
Qed.
Lemma next_lt : forall w p, p < w -> next w p < w.
Proof. intros w p H. unfold next. destruct (Nat.eqb_spec (S p) w); lia. Qed.

Lemma t_loop_length : forall buf cyc p, length (fst (t_loop buf cyc p)) = length cyc.
Proof.
  induction buf as [|b r IH]; intros cyc p; cbn [t_loop]; auto. rewrite IH, xor1_length. reflexivity.
Qed.

Lemma t_loop_cons : forall b r cyc p,
  t_loop (b :: r) cyc p = t_loop r (xor1 cyc p b) (next (length cyc) p).
Proof. intros. cbn [t_loop]. rewrite xor1_length. reflexivity. Qed.

Lemma t_loop_app : forall a b cyc p,
  t_loop (a ++ b) cyc p = let '(c', p') := t_loop a cyc p in t_loop b c' p'.
Proof.
  induction a as [|x a IH]; intros b cyc p; cbn [app]; auto.
  rewrite !t_loop_cons. apply IH.
Qed.

Lemma t_loop_pos : forall buf cyc p, p < length cyc ->
  snd (t_loop buf cyc p) = (p + length buf) mod length cyc.
Proof.
  induction buf as [|b r IH]; intros cyc p H; cbn [length].
  - cbn [t_loop snd]. rewrite Nat.add_0_r, Nat.mod_small by lia. reflexivity.
  - rewrite t_loop_cons, IH; rewrite xor1_length; [|apply next_lt; auto].
    rewrite next_mod by auto. rewrite Nat.add_mod_idemp_l by lia. f_equal. lia.
Qed.

Lemma col_mod : forall w i data j, w <> 0 -> col w i (j mod w) data = col w i j data.
Proof.
  intros w i data. induction data as [|b r IH]; intros j Hw; cbn [col]; auto.
  rewrite Nat.mod_mod by auto.
  rewrite <- (IH (S (j mod w))) by auto. rewrite <- (IH (S j)) by auto.
  replace (S (j mod w) mod w) with (S j mod w); auto.
  rewrite <- (Nat.add_1_l (j mod w)), <- (Nat.add_1_l j), Nat.add_mod_idemp_r by auto. reflexivity.
Qed.

Lemma col_app : forall w i a b j, col w i j (a ++ b) = N.lxor (col w i j a) (col w i (j + length a) b).
Proof.
  intros w i a. induction a as [|x a IH]; intros b j; cbn [app col length].
  - rewrite N.lxor_0_l, Nat.add_0_r. reflexivity.
  - rewrite IH. replace (S j + length a) with (j + S (length a)) by lia.
    destruct (j mod w =? i); auto. rewrite N.lxor_assoc. reflexivity.
Qed.

Lemma t_loop_nth : forall buf cyc p i, p < length cyc -> i < length cyc ->
  nth i (fst (t_loop buf cyc p)) 0%N = N.lxor (nth i cyc 0%N) (col (length cyc) i p buf).
Proof.
  induction buf as [|b r IH]; intros cyc p i Hp Hi; cbn [col].
  - rewrite N.lxor_0_r. reflexivity.
  - rewrite t_loop_cons. rewrite IH; rewrite ?xor1_length; auto using next_lt.
    rewrite next_mod by auto. rewrite col_mod by lia. rewrite xor1_nth by auto.
    rewrite (Nat.mod_small p) by auto.
    destruct (Nat.eqb_spec i p) as [E|E], (Nat.eqb_spec p i) as [E'|E']; try lia; auto.
    rewrite N.lxor_assoc. reflexivity.
Qed.

(** ** n_compute = T_compute *)
Definition tl (buf : list N) (s : list N * nat) : list N * nat := t_loop buf (fst s) (snd s).

Lemma init_loop_spec : forall buf cyc p b' cyc' p', p <= length cyc -> (p = length cyc -> False) ->
  init_loop buf cyc p = (b', cyc', p') ->
  p' <= length cyc' /\ length cyc' = length cyc /\
  t_loop buf cyc p = t_loop b' cyc' (if p' =? length cyc then 0 else p') /\
  (p' <> length cyc -> b' = []).
Proof.
  induction buf as [|b r IH]; intros cyc p b' cyc' p' Hp Hne E; cbn [init_loop] in E.
  - destruct (Nat.eqb_spec p (length cyc)); inversion E; subst; try tauto.
    destruct (Nat.eqb_spec p' (length cyc')); tauto.
  - destruct (Nat.eqb_spec p (length cyc)); [tauto|].
    rewrite t_loop_cons.
    destruct (Nat.eq_dec (S p) (length cyc)) as [Q|Q].
    + (* reached the end *)
      assert (E2 : init_loop r (xor1 cyc p b) (S p) = (r, xor1 cyc p b, S p)).
      { destruct r; cbn [init_loop]; rewrite xor1_length, Q, Nat.eqb_refl; reflexivity. }
      rewrite E2 in E. inversion E; subst. rewrite xor1_length. unfold next. rewrite Q, Nat.eqb_refl.
      repeat split; auto; lia.
    + apply IH in E; rewrite ?xor1_length in *; try lia.
      destruct E as (A & B & C & D). rewrite B in *. split; [auto|]. split; auto. split; auto.
      unfold next. destruct (Nat.eqb_spec (S p) (length cyc)); [lia|]. exact C.
Qed.

Lemma xor_block_spec : forall bs cyc p, p + length bs <= length cyc -> bs <> [] ->
  t_loop bs cyc p = (xor_block bs cyc p, if length cyc <=? p + length bs then 0 else p + length bs).
Proof.
  induction bs as [|b r IH]; intros cyc p H Hn; [congruence|].
  rewrite t_loop_cons. cbn [xor_block length] in *. unfold next.
  destruct r as [|b2 r].
  - cbn [t_loop xor_block length]. f_equal.
    destruct (Nat.eqb_spec (S p) (length cyc)), (Nat.leb_spec (length cyc) (p + 1)); lia.
  - destruct (Nat.eqb_spec (S p) (length cyc)) as [Q|Q]; [cbn [length] in H; lia|].
    rewrite IH; rewrite ?xor1_length; try discriminate; [|cbn [length] in *; lia].
    f_equal. replace (p + S (length (b2 :: r))) with (S p + length (b2 :: r)) by lia. reflexivity.
Qed.

Lemma xor_block_length : forall bs cyc p, length (xor_block bs cyc p) = length cyc.
Proof. induction bs as [|b r IH]; intros; cbn [xor_block]; auto. rewrite IH, xor1_length. reflexivity. Qed.

Lemma block_loop_spec : forall fuel sz buf cyc p b' cyc' p', 0 < sz -> (exists k, length cyc = k * sz) ->
  (exists m, p = m * sz) -> p < length cyc ->
  block_loop fuel sz buf cyc p = (b', cyc', p') ->
  t_loop buf cyc p = t_loop b' cyc' p' /\ length cyc' = length cyc /\ p' < length cyc.
Proof.
  induction fuel as [|k IH]; intros sz buf cyc p b' cyc' p' Hs [q Hq] [m Hm] Hp E; cbn [block_loop] in E.
  - inversion E; subst; auto.
  - destruct (Nat.ltb_spec (length buf) sz) as [L|L]; [inversion E; subst; auto|].
    assert (Hps : p + sz <= length cyc).
    { assert (m < q) by nia. nia. }
    assert (Lf : length (firstn sz buf) = sz) by (rewrite firstn_length; lia).
    assert (Hne : firstn sz buf <> []) by (intro Q; rewrite Q in Lf; cbn in Lf; lia).
    pose proof (xor_block_spec (firstn sz buf) cyc p ltac:(lia) Hne) as X. rewrite Lf in X.
    rewrite <- (firstn_skipn sz buf) at 1. rewrite t_loop_app, X.
    set (p1 := if length cyc <=? p + sz then 0 else p + sz) in *.
    rewrite !xor_block_length in E. fold p1 in E.
    apply IH in E; auto.
    + destruct E as (A & B & C). rewrite xor_block_length in *. auto.
    + exists q. rewrite xor_block_length. exact Hq.
    + unfold p1. destruct (length cyc <=? p + sz); [exists 0; lia|exists (S m); lia].
    + rewrite xor_block_length. unfold p1. destruct (Nat.leb_spec (length cyc) (p + sz)); lia.
Qed.

Lemma b_compute_block_spec : forall sz buf cyc, 0 < sz -> cyc <> [] -> length cyc mod sz = 0 ->
  exists b' cyc' p', b_compute_block sz buf cyc = Ok (b', cyc', p') /\
    t_loop buf cyc 0 = t_loop b' cyc' p' /\ length cyc' = length cyc /\ p' < length cyc.
Proof.
  intros sz buf cyc Hs Hn Hm. unfold b_compute_block.
  destruct (Nat.eqb_spec (length cyc) 0) as [Z|Z]; [destruct cyc; [congruence|cbn in Z; lia]|].
  rewrite Hm. cbn [Nat.eqb negb].
  pose proof (Nat.div_mod (length cyc) sz ltac:(lia)) as D.
  destruct (Nat.eqb_spec (length cyc / sz) 0) as [Q|Q]; [rewrite Q in D; lia|].
  destruct (block_loop (S (length buf)) sz buf cyc 0) as [[b' cyc'] p'] eqn:E.
  exists b', cyc', p'. split; auto.
  eapply block_loop_spec in E; eauto.
  - exists (length cyc / sz). lia.
  - exists 0. lia.
  - lia.
Qed.

Lemma n_compute_spec : forall addr buf c, wf c ->
  n_compute addr buf c = Ok (let '(cyc, p) := t_loop buf (cyclic c) (pointer c) in mk_crc cyc p).
Proof.
  intros addr buf [cyc p] Hw. unfold wf, crc_size in Hw. unfold n_compute. cbn [cyclic pointer] in *.
  unfold crc_size. cbn [cyclic].
  set (ph1 := if negb (p =? 0) then let '(b, cy, p0) := init_loop buf cyc p in (b, cy, if p0 =? length cyc then 0 else p0) else (buf, cyc, p)).
  assert (P1 : exists b1 cyc1 p1, ph1 = (b1, cyc1, p1) /\ t_loop buf cyc p = t_loop b1 cyc1 p1 /\ length cyc1 = length cyc
               /\ p1 < length cyc).
  { unfold ph1. destruct (Nat.eqb_spec p 0) as [Z|Z]; cbn [negb].
    - exists buf, cyc, p. auto.
    - destruct (init_loop buf cyc p) as [[b cy] p0] eqn:E.
      apply init_loop_spec in E; try lia. destruct E as (A & B & C & D).
      exists b, cy, (if p0 =? length cyc then 0 else p0). repeat split; auto.
      destruct (Nat.eqb_spec p0 (length cyc)); lia. }
  destruct P1 as (b1 & cyc1 & p1 & -> & T1 & L1 & B1).
  set (ph2 := if (p1 =? 0) && negb (length b1 =? 0) then _ else _).
  assert (P2 : exists b2 cyc2 p2, ph2 = Ok (b2, cyc2, p2) /\ t_loop buf cyc p = t_loop b2 cyc2 p2 /\ length cyc2 = length cyc
               /\ p2 < length cyc).
  { assert (Hc1 : cyc1 <> []) by (intro Q; subst cyc1; cbn in L1; lia).
    unfold ph2. destruct (Nat.eqb_spec p1 0) as [Z|Z]; cbn [andb]; [|eauto 10].
    subst p1. destruct (negb (length b1 =? 0)); [|eauto 10].
    assert (G : forall sz, 0 < sz -> (length cyc mod sz =? 0) = true ->
       exists b2 cyc2 p2, b_compute_block sz b1 cyc1 = Ok (b2, cyc2, p2) /\ t_loop buf cyc p = t_loop b2 cyc2 p2 /\ length cyc2 = length cyc /\ p2 < length cyc).
    { intros sz Hs Hm. apply Nat.eqb_eq in Hm. rewrite <- L1 in Hm.
      destruct (b_compute_block_spec sz b1 cyc1 Hs Hc1 Hm) as (b2 & cyc2 & p2 & E & T & L & B).
      exists b2, cyc2, p2. rewrite T1. repeat split; auto; lia. }
    clear ph2.
    repeat match goal with
    | |- exists _ _ _, (if (length cyc mod ?k =? 0) && ?c then _ else _) = _ /\ _ =>
        destruct (length cyc mod k =? 0) eqn:?; [destruct c|]; cbn [andb]
    | |- exists _ _ _, b_compute_block _ _ _ = _ /\ _ => apply G; [lia|assumption]
    end; eauto 10. }
  destruct P2 as (b2 & cyc2 & p2 & -> & T2 & L2 & B2). cbn [bind].
  rewrite T2. destruct (Nat.eqb_spec (length b2) 0) as [Z|Z]; cbn [negb].
  - destruct b2; [|cbn in Z; lia]. reflexivity.
  - unfold t_compute, crc_size. cbn [cyclic pointer].
    destruct (Nat.eqb_spec p2 (length cyc2)); [lia|].
    destruct (t_loop b2 cyc2 p2); reflexivity.
Qed.

Lemma crc_compute_spec : forall addr buf c, wf c ->
  crc_compute addr buf c = Ok (let '(cyc, p) := t_loop buf (cyclic c) (pointer c) in mk_crc cyc p).
Proof.
  intros addr buf c Hw. unfold crc_compute. destruct (N.ltb _ _).
  - apply n_compute_spec; auto.
  - unfold t_compute. unfold wf in Hw. destruct (Nat.eqb_spec (pointer c) (crc_size c)); [lia|].
    destruct (t_loop buf (cyclic c) (pointer c)); reflexivity.
Qed.

Lemma t_loop_wf : forall buf cyc p cyc' p', p < length cyc -> t_loop buf cyc p = (cyc', p') -> p' < length cyc' /\ length cyc' = length cyc.
Proof.
  intros buf cyc p cyc' p' H E.
  pose proof (t_loop_length buf cyc p) as L. pose proof (t_loop_pos buf cyc p H) as P. rewrite E in *. cbn [fst snd] in *.
  split; auto. rewrite L, P. apply Nat.mod_upper_bound. lia.
Qed.

(** sequence of calls = one pass over the concatenation *)
Lemma crc_feed_spec : forall chunks c, wf c ->
  crc_feed chunks c = Ok (let '(cyc, p) := t_loop (concat (map snd chunks)) (cyclic c) (pointer c) in mk_crc cyc p).
Proof.
  induction chunks as [|[addr buf] r IH]; intros c Hw; cbn [crc_feed map concat snd].
  - destruct c; reflexivity.
  - rewrite crc_compute_spec by auto. rewrite t_loop_app.
    destruct (t_loop buf (cyclic c) (pointer c)) as [cyc p] eqn:E. cbn [bind]. rewrite IH; [reflexivity|].
    unfold wf, crc_size. cbn [cyclic pointer]. eapply t_loop_wf in E; [lia|exact Hw].
Qed.

(** value of the checksum of a stream, as a function of the stream only *)
Definition crc_spec (w : nat) (data : list N) : list N := map (fun i => col w i 0 data) (seq 0 w).

Lemma nth_repeat0 : forall n i, nth i (repeat 0%N n) 0%N = 0%N.
Proof. induction n as [|n IH]; intros [|i]; cbn [repeat nth]; auto. Qed.

Lemma list_ext_nth : forall (a b : list N), length a = length b -> (forall i, i < length a -> nth i a 0%N = nth i b 0%N) -> a = b.
Proof. intros a b Hl H. apply nth_ext with 0%N 0%N; auto. Qed.

Lemma crc_spec_nth : forall w data i, i < w -> nth i (crc_spec w data) 0%N = col w i 0 data.
Proof.
  intros w data i H. unfold crc_spec.
  rewrite (nth_indep _ 0%N (col w 0 0 data)) by (rewrite map_length, seq_length; auto).
  rewrite (map_nth (fun i => col w i 0 data) (seq 0 w) 0 i). rewrite seq_nth by auto. reflexivity.
Qed.

Lemma crc_feed_create : forall w chunks c0, crc_create w = Ok c0 ->
  exists c, crc_feed chunks c0 = Ok c /\ cyclic c = crc_spec w (concat (map snd chunks)).
Proof.
  intros w chunks c0 E. unfold crc_create in E. destruct (Nat.eqb_spec w 0) as [Z|Z]; [discriminate|].
  injection E as <-. rewrite crc_feed_spec by (unfold wf, crc_size; cbn; rewrite repeat_length; lia).
  cbn [cyclic pointer]. destruct (t_loop (concat (map snd chunks)) (repeat 0%N w) 0) as [cyc p] eqn:E2.
  eexists. split; [reflexivity|]. cbn [cyclic].
  pose proof (t_loop_length (concat (map snd chunks)) (repeat 0%N w) 0) as L. rewrite E2 in L. cbn [fst] in L. rewrite repeat_length in L.
  apply list_ext_nth.
  - unfold crc_spec. rewrite map_length, seq_length. exact L.
  - intros i Hi. rewrite L in Hi.
    pose proof (t_loop_nth (concat (map snd chunks)) (repeat 0%N w) 0 i) as T. rewrite repeat_length, E2 in T. cbn [fst] in T.
    rewrite T by lia. rewrite nth_repeat0, N.lxor_0_l. rewrite crc_spec_nth by auto. reflexivity.
Qed.

(** positioned calls *)
Fixpoint col_at (w i : nat) (chunks : list (N * N * list N)) : N :=
  match chunks with
  | [] => 0%N
  | (off, _, buf) :: r => N.lxor (col w i (N.to_nat (off mod N.of_nat w)) buf) (col_at w i r)
  end.

Lemma crc_feed_at_spec : forall chunks c, wf c ->
  exists c', crc_feed_at chunks c = Ok c' /\ crc_size c' = crc_size c /\
    forall i, i < crc_size c -> nth i (cyclic c') 0%N = N.lxor (nth i (cyclic c) 0%N) (col_at (crc_size c) i chunks).
Proof.
  induction chunks as [|[[off addr] buf] r IH]; intros c Hw; cbn [crc_feed_at col_at].
  - exists c. split; auto. split; auto. intros. rewrite N.lxor_0_r. reflexivity.
  - unfold crc_compute_at.
    assert (Hp : N.to_nat (off mod N.of_nat (crc_size c)) < length (cyclic c)).
    { unfold wf in Hw. unfold crc_size in *.
      assert ((off mod N.of_nat (length (cyclic c)) < N.of_nat (length (cyclic c)))%N) by (apply N.mod_lt; lia). lia. }
    rewrite crc_compute_spec by exact Hp. cbn [cyclic pointer].
    destruct (t_loop buf (cyclic c) (N.to_nat (off mod N.of_nat (crc_size c)))) as [cyc p] eqn:E. cbn [bind].
    destruct (t_loop_wf _ _ _ _ _ Hp E) as [W L].
    destruct (IH (mk_crc cyc p) W) as (c' & E' & S' & V'). exists c'. split; auto.
    unfold crc_size in *. cbn [cyclic] in *. rewrite L in *. split; auto.
    intros i Hi. rewrite V' by auto.
    pose proof (t_loop_nth buf (cyclic c) _ i Hp Hi) as T. rewrite E in T. cbn [fst] in T. rewrite T.
    rewrite N.lxor_assoc. reflexivity.
Qed.

(** the column of a positioned piece, by absolute offset *)
Lemma col_zeros : forall w i n j, col w i j (repeat 0%N n) = 0%N.
Proof. intros w i n. induction n as [|n IH]; intro j; cbn [repeat col]; auto. rewrite IH. destruct (_ =? _); reflexivity. Qed.
Lemma col_offset : forall w i off buf, w <> 0 ->
  col w i (off mod w) buf = col w i 0 (repeat 0%N off ++ buf).
Proof.
  intros w i off buf H. rewrite col_mod by auto. rewrite col_app, col_zeros, repeat_length, N.lxor_0_l. reflexivity.
Qed.

(** ** burst detection *)
Lemma lxor_cancel : forall a b c, N.lxor a b = N.lxor a c -> b = c.
Proof.
  intros a b c H. apply (f_equal (N.lxor a)) in H. rewrite <- !N.lxor_assoc, N.lxor_nilpotent, !N.lxor_0_l in H. exact H.
Qed.

Lemma col_same : forall w i d1 d2 j, length d1 = length d2 ->
  (forall k, k < length d1 -> nth k d1 0%N <> nth k d2 0%N -> (j + k) mod w <> i) ->
  col w i j d1 = col w i j d2.
Proof.
  intros w i d1. induction d1 as [|x d1 IH]; intros [|y d2] j Hl H; cbn [length] in Hl; try lia; auto.
  cbn [col]. rewrite (IH d2 (S j)).
  - destruct (Nat.eqb_spec (j mod w) i) as [E|E]; auto.
    destruct (N.eq_dec x y) as [->|D]; auto.
    exfalso. apply (H 0); cbn [length nth]; auto; [lia|]. rewrite Nat.add_0_r. exact E.
  - lia.
  - intros k Hk Hd. replace (S j + k) with (j + S k) by lia. apply H; cbn [length nth]; auto. lia.
Qed.

Lemma col_diff : forall w d1 d2 j k, length d1 = length d2 -> k < length d1 -> nth k d1 0%N <> nth k d2 0%N ->
  (forall m, m < length d1 -> m <> k -> nth m d1 0%N <> nth m d2 0%N -> (j + m) mod w <> (j + k) mod w) ->
  col w ((j + k) mod w) j d1 <> col w ((j + k) mod w) j d2.
Proof.
  intros w d1. induction d1 as [|x d1 IH]; intros [|y d2] j k Hl Hk Hd H; cbn [length] in *; try lia.
  cbn [col]. destruct k as [|k].
  - cbn [nth] in Hd. rewrite Nat.add_0_r, Nat.eqb_refl.
    rewrite (col_same w (j mod w) d1 d2 (S j)).
    + intro Q. rewrite !(N.lxor_comm _ (col _ _ _ _)) in Q. apply lxor_cancel in Q. contradiction.
    + lia.
    + intros m Hm Hdm. specialize (H (S m) ltac:(lia) ltac:(lia) Hdm). rewrite Nat.add_0_r in H.
      replace (S j + m) with (j + S m) by lia. exact H.
  - cbn [nth] in Hd. replace (j + S k) with (S j + k) in * by lia.
    assert (R : col w ((S j + k) mod w) (S j) d1 <> col w ((S j + k) mod w) (S j) d2).
    { apply IH; auto; try lia. intros m Hm Hmk Hdm.
      specialize (H (S m) ltac:(lia) ltac:(lia) Hdm). replace (S j + m) with (j + S m) by lia. exact H. }
    destruct (Nat.eqb_spec (j mod w) ((S j + k) mod w)) as [E|E]; auto.
    destruct (N.eq_dec x y) as [->|D].
    + intro Q. apply lxor_cancel in Q. contradiction.
    + exfalso. apply (H 0); cbn [nth]; auto; try lia. rewrite Nat.add_0_r. exact E.
Qed.

Lemma crc_burst : forall w d1 d2 start, w <> 0 -> length d1 = length d2 -> d1 <> d2 ->
  (forall k, k < length d1 -> nth k d1 0%N <> nth k d2 0%N -> start <= k < start + w) ->
  crc_spec w d1 <> crc_spec w d2.
Proof.
  intros w d1 d2 start Hw Hl Hd Hwin E.
  assert (Ex : exists k, k < length d1 /\ nth k d1 0%N <> nth k d2 0%N).
  { destruct (existsb (fun k => negb (N.eqb (nth k d1 0%N) (nth k d2 0%N))) (seq 0 (length d1))) eqn:X.
    - apply existsb_exists in X. destruct X as (k & Hk & Hn). apply in_seq in Hk. exists k. split; [lia|].
      intro Q. rewrite Q, N.eqb_refl in Hn. discriminate.
    - exfalso. apply Hd. apply list_ext_nth; auto. intros i Hi.
      destruct (N.eq_dec (nth i d1 0%N) (nth i d2 0%N)) as [|D]; auto.
      assert (Y : existsb (fun k => negb (N.eqb (nth k d1 0%N) (nth k d2 0%N))) (seq 0 (length d1)) = true).
      { apply existsb_exists. exists i. split; [apply in_seq; lia|]. apply N.eqb_neq in D. rewrite D. reflexivity. }
      congruence. }
  destruct Ex as (k & Hk & Hn).
  pose proof (Hwin k Hk Hn) as Wk.
  apply (col_diff w d1 d2 0 k Hl Hk Hn).
  - intros m Hm Hmk Hdm. pose proof (Hwin m Hm Hdm) as Wm. cbn [Nat.add]. intro Q.
    pose proof (Nat.div_mod m w Hw) as D1. pose proof (Nat.div_mod k w Hw) as D2. rewrite Q in D1.
    assert (m / w = k / w \/ m / w < k / w \/ k / w < m / w) as [A|[A|A]] by lia; [lia|nia|nia].
  - cbn [Nat.add]. pose proof (Nat.mod_upper_bound k w Hw) as B.
    apply (f_equal (fun l => nth (k mod w) l 0%N)) in E. rewrite !crc_spec_nth in E by auto. exact E.
Qed.

(** ** storage *)
Lemma crc_read_dump : forall c rest, crc_read (crc_dump c ++ rest) false = Ok (mk_crc (cyclic c) 0, rest).
Proof.
  intros c rest. unfold crc_read, crc_dump. rewrite <- app_assoc, readN_dumpN. cbn [bind].
  rewrite app_length. unfold crc_size.
  destruct (N.ltb_spec (N.of_nat (length (cyclic c) + length rest)) (N.of_nat (length (cyclic c)))); [lia|].
  rewrite Nat2N.id, firstn_app_exact, skipn_app_exact. reflexivity.
Qed.

Lemma t_compare_spec : forall a b, t_compare a b = true <-> a = b.
Proof.
  induction a as [|x a IH]; intros [|y b]; cbn [t_compare]; split; intro H; try discriminate; auto.
  - destruct (N.eqb_spec x y); [|discriminate]. apply IH in H. congruence.
  - injection H as -> ->. rewrite N.eqb_refl. apply IH. reflexivity.
Qed.
Lemma crc_eq_spec : forall a b, crc_eq a b = true <-> cyclic a = cyclic b.
Proof.
  intros a b. unfold crc_eq, crc_size. destruct (Nat.eqb_spec (length (cyclic a)) (length (cyclic b))) as [E|E]; cbn [negb].
  - apply t_compare_spec.
  - split; [discriminate|]. intro H. rewrite H in E. congruence.
Qed.
