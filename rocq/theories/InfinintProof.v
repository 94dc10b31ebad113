(** * Lemmas about the infinint model: every operator against N. *)
From Verif Require Import Base InfinintModel.
Open Scope N_scope.

(** ** Little and big endian values *)
Fixpoint le_val (l : list N) : N :=
  match l with [] => 0 | b :: r => b + 256 * le_val r end.

Definition p256 (n : nat) : N := 256 ^ N.of_nat n.

Lemma p256_0 : p256 0 = 1. Proof. reflexivity. Qed.
Lemma p256_S : forall n, p256 (S n) = 256 * p256 n.
Proof.
  intro n. unfold p256. rewrite Nat2N.inj_succ, N.pow_succ_r'. reflexivity.
Qed.
Lemma p256_pos : forall n, 0 < p256 n.
Proof. intro n. unfold p256. apply N.neq_0_lt_0, N.pow_nonzero. lia. Qed.
Lemma p256_add : forall n m, p256 (n + m) = p256 n * p256 m.
Proof. intros. unfold p256. rewrite Nat2N.inj_add, N.pow_add_r. reflexivity. Qed.

Lemma inf_value_acc : forall l acc,
  fold_left (fun acc b => acc * 256 + b) l acc = acc * p256 (length l) + inf_value l.
Proof.
  unfold inf_value. induction l as [|b r IH]; intro acc; cbn [fold_left length].
  - rewrite p256_0. lia.
  - rewrite IH. rewrite (IH (0 * 256 + b)). rewrite p256_S. lia.
Qed.

Lemma inf_value_nil : inf_value [] = 0. Proof. reflexivity. Qed.

Lemma inf_value_cons : forall b l, inf_value (b :: l) = b * p256 (length l) + inf_value l.
Proof.
  intros b l. unfold inf_value at 1. cbn [fold_left]. rewrite inf_value_acc. f_equal.
Qed.

Lemma inf_value_app : forall a b, inf_value (a ++ b) = inf_value a * p256 (length b) + inf_value b.
Proof.
  intros a b. unfold inf_value at 1. rewrite fold_left_app.
  rewrite inf_value_acc. reflexivity.
Qed.

Lemma inf_value_single : forall b, inf_value [b] = b.
Proof. intro b. rewrite inf_value_cons, inf_value_nil. cbn [length]. rewrite p256_0. lia. Qed.

Lemma inf_value_snoc : forall a b, inf_value (a ++ [b]) = inf_value a * 256 + b.
Proof. intros. rewrite inf_value_app, inf_value_single. cbn [length]. rewrite p256_S, p256_0. lia. Qed.

Lemma le_val_rev : forall l, le_val (rev l) = inf_value l.
Proof.
  intro l. rewrite <- (rev_involutive l) at 2. generalize (rev l). clear l.
  induction l as [|b r IH]; cbn [rev le_val].
  - reflexivity.
  - rewrite inf_value_snoc, <- IH. lia.
Qed.

Lemma inf_value_rev : forall l, inf_value (rev l) = le_val l.
Proof. intro l. rewrite <- le_val_rev, rev_involutive. reflexivity. Qed.

Lemma le_val_app : forall a b, le_val (a ++ b) = le_val a + p256 (length a) * le_val b.
Proof.
  induction a as [|x a IH]; intro b; cbn [app le_val length].
  - rewrite p256_0. lia.
  - rewrite IH, p256_S. lia.
Qed.

Lemma le_val_bound : forall l, bytes_ok l -> le_val l < p256 (length l).
Proof.
  induction l as [|b r IH]; intro H; cbn [le_val length].
  - rewrite p256_0. lia.
  - apply bytes_ok_cons in H. destruct H as [Hb Hr]. specialize (IH Hr).
    unfold is_byte in Hb. rewrite p256_S. lia.
Qed.

Lemma inf_value_bound : forall l, bytes_ok l -> inf_value l < p256 (length l).
Proof.
  intros l H. rewrite <- le_val_rev. rewrite <- rev_length.
  apply le_val_bound. apply bytes_ok_rev. exact H.
Qed.

Lemma inf_value_repeat0 : forall n, inf_value (repeat 0 n) = 0.
Proof. induction n as [|n IH]; cbn [repeat]; [reflexivity|]. rewrite inf_value_cons, IH. lia. Qed.

Lemma le_val_repeat0 : forall n, le_val (repeat 0 n) = 0.
Proof. induction n as [|n IH]; cbn [repeat le_val]; lia. Qed.

Lemma inf_value_zeros_app : forall n l, inf_value (repeat 0 n ++ l) = inf_value l.
Proof. intros. rewrite inf_value_app, inf_value_repeat0. lia. Qed.

(** ** Well-formed infinints: at least one byte, all bytes in range *)
Definition inf_ok (a : infinint) : Prop := a <> [] /\ bytes_ok a.

(** ** reduce *)
Lemma strip0_spec : forall l, exists n, l = repeat 0 n ++ strip0 l.
Proof.
  induction l as [|b r IH]; cbn [strip0].
  - exists 0%nat. reflexivity.
  - destruct (N.eqb_spec b 0) as [E|E].
    + destruct IH as [n Hn]. exists (S n). cbn [repeat app]. subst b. f_equal. exact Hn.
    + exists 0%nat. reflexivity.
Qed.

Lemma strip0_value : forall l, inf_value (strip0 l) = inf_value l.
Proof. intro l. destruct (strip0_spec l) as [n Hn]. rewrite Hn at 2. rewrite inf_value_zeros_app. reflexivity. Qed.

Lemma strip0_ok : forall l, bytes_ok l -> bytes_ok (strip0 l).
Proof. intros l H. destruct (strip0_spec l) as [n Hn]. rewrite Hn in H. apply bytes_ok_app in H. tauto. Qed.

Lemma strip0_head : forall l b r, strip0 l = b :: r -> b <> 0.
Proof.
  induction l as [|x l IH]; cbn [strip0]; intros b r H; [discriminate|].
  destruct (N.eqb_spec x 0) as [E|E]; [eauto|]. congruence.
Qed.

Lemma reduce_value : forall l, inf_value (reduce l) = inf_value l.
Proof.
  intro l. unfold reduce. pose proof (strip0_value l) as H. destruct (strip0 l) as [|b r].
  - rewrite <- H. reflexivity.
  - exact H.
Qed.

Lemma reduce_ok : forall l, bytes_ok l -> inf_ok (reduce l).
Proof.
  intros l H. unfold reduce. pose proof (strip0_ok l H) as Hs. destruct (strip0 l) as [|b r].
  - split; [discriminate|]. repeat constructor.
  - split; [discriminate|exact Hs].
Qed.

(** normal form: [0] or no leading zero *)
Definition canon (a : infinint) : Prop := a = [0] \/ exists b r, a = b :: r /\ b <> 0.

Lemma reduce_canon : forall l, canon (reduce l).
Proof.
  intro l. unfold reduce. destruct (strip0 l) as [|b r] eqn:E.
  - left; reflexivity.
  - right. exists b, r. split; [reflexivity|]. eapply strip0_head; eauto.
Qed.

Lemma reduce_if_value : forall a, inf_value (reduce_if a) = inf_value a.
Proof. intros [|[|p] r]; cbn [reduce_if]; auto using reduce_value. Qed.

Lemma reduce_if_ok : forall a, inf_ok a -> inf_ok (reduce_if a).
Proof. intros [|[|p] r] H; cbn [reduce_if]; auto. apply reduce_ok. apply H. Qed.

Lemma reduce_if_canon : forall a, a <> [] -> canon (reduce_if a).
Proof.
  intros [|[|p] r] H; cbn [reduce_if].
  - congruence.
  - apply reduce_canon.
  - right. exists (N.pos p), r. split; [reflexivity|discriminate].
Qed.

Lemma canon_ne : forall a, canon a -> a <> [].
Proof. intros a [H|[b [r [H _]]]]; subst; discriminate. Qed.

Lemma canon_lower : forall a, canon a -> bytes_ok a -> a <> [0] ->
  p256 (length a - 1) <= inf_value a.
Proof.
  intros a [H|[b [r [H Hb]]]] Hok Hne; [contradiction|]. subst a.
  cbn [length]. replace (S (length r) - 1)%nat with (length r) by lia.
  rewrite inf_value_cons. nia.
Qed.

Lemma p256_mono : forall n m, (n <= m)%nat -> p256 n <= p256 m.
Proof. intros n m H. unfold p256. apply N.pow_le_mono_r; lia. Qed.

Lemma canon_length_lt : forall a b, canon a -> canon b -> bytes_ok a -> bytes_ok b ->
  (length a < length b)%nat -> inf_value a < inf_value b.
Proof.
  intros a b Ha Hb Hoa Hob Hl.
  assert (Hb0 : b <> [0]).
  { intro E. subst b. cbn [length] in Hl. destruct a; [apply (canon_ne _ Ha); reflexivity|cbn in Hl; lia]. }
  pose proof (canon_lower b Hb Hob Hb0) as H1.
  pose proof (inf_value_bound a Hoa) as H2.
  pose proof (p256_mono (length a) (length b - 1) ltac:(lia)) as H3. lia.
Qed.

Lemma inf_value_inj_len : forall a b, length a = length b -> bytes_ok a -> bytes_ok b ->
  inf_value a = inf_value b -> a = b.
Proof.
  induction a as [|x a IH]; intros [|y b] Hl Ha Hb Hv; cbn [length] in Hl; try lia; auto.
  apply bytes_ok_cons in Ha. apply bytes_ok_cons in Hb. destruct Ha as [Hx Ha], Hb as [Hy Hb].
  rewrite !inf_value_cons in Hv. injection Hl as Hl. rewrite <- Hl in Hv.
  pose proof (inf_value_bound a Ha) as B1. pose proof (inf_value_bound b Hb) as B2. rewrite <- Hl in B2.
  assert (x = y) by nia. subst y. f_equal. apply IH; auto. lia.
Qed.

Lemma canon_unique : forall a b, canon a -> canon b -> bytes_ok a -> bytes_ok b ->
  inf_value a = inf_value b -> a = b.
Proof.
  intros a b Ha Hb Hoa Hob Hv. apply inf_value_inj_len; auto.
  destruct (lt_eq_lt_dec (length a) (length b)) as [[H|H]|H]; auto.
  - pose proof (canon_length_lt a b Ha Hb Hoa Hob H). lia.
  - pose proof (canon_length_lt b a Hb Ha Hob Hoa H). lia.
Qed.

(** ** is_zero *)
Lemma is_zero_spec : forall a, bytes_ok a -> is_zero a = (inf_value a =? 0).
Proof.
  intros a H. unfold is_zero. induction a as [|b r IH]; cbn [forallb].
  - reflexivity.
  - apply bytes_ok_cons in H. destruct H as [Hb Hr]. rewrite (IH Hr), inf_value_cons.
    pose proof (p256_pos (length r)). destruct (N.eqb_spec b 0) as [E|E]; cbn [andb].
    + subst b. f_equal.
    + symmetry. apply N.eqb_neq. nia.
Qed.

(** ** widen *)
Lemma widen_value : forall a r, inf_value (widen a r) = inf_value a.
Proof. intros. apply inf_value_zeros_app. Qed.
Lemma widen_ok : forall a r, inf_ok a -> inf_ok (widen a r).
Proof.
  intros a r [Hn Ho]. unfold widen. split.
  - intro E. apply app_eq_nil in E. tauto.
  - apply bytes_ok_app. split; auto. apply bytes_ok_repeat. unfold is_byte; lia.
Qed.
Lemma widen_length : forall a r, length (widen a r) = Nat.max (length a) (length r).
Proof. intros. unfold widen. rewrite app_length, repeat_length. lia. Qed.

(** ** byte arithmetic *)
Lemma land255 : forall x, N.land x 255 = x mod 256.
Proof. intro x. replace 255 with (N.ones 8) by reflexivity. rewrite N.land_ones. reflexivity. Qed.
Lemma shiftr8 : forall x, N.shiftr x 8 = x / 256.
Proof. intro x. rewrite N.shiftr_div_pow2. reflexivity. Qed.

(** ** addition *)
Lemma add_loop_spec : forall res arg c l c',
  bytes_ok res -> bytes_ok arg -> c <= 1 -> (length arg <= length res)%nat ->
  add_loop res arg c = (l, c') ->
  le_val l + p256 (length res) * c' = le_val res + le_val arg + c
  /\ bytes_ok l /\ length l = length res /\ c' <= 1.
Proof.
  induction res as [|r rs IH]; intros arg c l c' Hr Ha Hc Hlen E; cbn [add_loop] in E.
  - inversion E; subst. destruct arg; [|cbn [length] in Hlen; lia].
    cbn [le_val length]. rewrite p256_0. repeat split; auto using bytes_ok_nil; lia.
  - apply bytes_ok_cons in Hr. destruct Hr as [Hr Hrs]. unfold is_byte in Hr.
    destruct arg as [|x xs].
    + destruct (N.eqb_spec c 0) as [E0|E0].
      * inversion E; subst. cbn [le_val]. repeat split; try lia. apply bytes_ok_cons; auto.
      * destruct (add_loop rs [] (N.shiftr (r + c) 8)) as [l1 c1] eqn:E1.
        inversion E; subst; clear E. rewrite shiftr8 in E1.
        apply IH in E1; auto using bytes_ok_nil; try (cbn [length]; lia).
        destruct E1 as (V & B & L & C). rewrite land255.
        cbn [le_val length] in *. rewrite p256_S.
        repeat split; try lia. apply bytes_ok_cons; split; auto. unfold is_byte; lia.
    + apply bytes_ok_cons in Ha. destruct Ha as [Hx Hxs]. unfold is_byte in Hx.
      destruct (add_loop rs xs (N.shiftr (r + x + c) 8)) as [l1 c1] eqn:E1.
      inversion E; subst; clear E. rewrite shiftr8 in E1. cbn [length] in Hlen.
      apply IH in E1; auto; try lia.
      destruct E1 as (V & B & L & C). rewrite land255.
      cbn [le_val length] in *. rewrite p256_S.
      repeat split; try lia. apply bytes_ok_cons; split; auto. unfold is_byte; lia.
Qed.

Lemma inf_add_spec : forall a b, inf_ok a -> inf_ok b ->
  inf_value (inf_add a b) = inf_value a + inf_value b /\ inf_ok (inf_add a b).
Proof.
  intros a b Ha Hb. unfold inf_add.
  pose proof (widen_ok a b Ha) as Hw. pose proof (widen_length a b) as Hl.
  destruct (add_loop (rev (widen a b)) (rev b) 0) as [l c] eqn:E.
  apply add_loop_spec in E;
    [|apply bytes_ok_rev; apply Hw|apply bytes_ok_rev; apply Hb|lia|rewrite !rev_length; lia].
  destruct E as (V & B & L & C). rewrite !le_val_rev, widen_value in V. rewrite rev_length in *.
  assert (Hne : rev l <> []).
  { intro E. apply (f_equal (@length N)) in E. rewrite rev_length in E. cbn [length] in E.
    destruct (widen a b) eqn:Ew; [apply (proj1 Hw); reflexivity | cbn [length] in L; lia]. }
  destruct (N.eqb_spec c 0) as [E0|E0].
  - rewrite inf_value_rev. split; [lia|]. split; auto. apply bytes_ok_rev; auto.
  - rewrite inf_value_cons, inf_value_rev, rev_length, L.
    split; [lia|]. split; [discriminate|]. apply bytes_ok_cons. split; [unfold is_byte; lia|apply bytes_ok_rev; auto].
Qed.

(** ** comparison *)
Lemma lex_diff_spec : forall a b, length a = length b -> bytes_ok a -> bytes_ok b ->
  (lex_diff a b = 0%Z /\ inf_value a = inf_value b) \/
  ((lex_diff a b < 0)%Z /\ inf_value a < inf_value b) \/
  ((lex_diff a b > 0)%Z /\ inf_value a > inf_value b).
Proof.
  induction a as [|x a IH]; intros [|y b] Hl Ha Hb; cbn [length] in Hl; try lia; cbn [lex_diff].
  - left; split; reflexivity.
  - apply bytes_ok_cons in Ha. apply bytes_ok_cons in Hb. destruct Ha as [Hx Ha], Hb as [Hy Hb].
    injection Hl as Hl. rewrite !inf_value_cons, <- Hl.
    destruct (N.eqb_spec x y) as [E|E].
    + subst y. destruct (IH b Hl Ha Hb) as [[? ?]|[[? ?]|[? ?]]]; [left|right;left|right;right]; split; lia.
    + pose proof (inf_value_bound a Ha) as B1. pose proof (inf_value_bound b Hb) as B2. rewrite <- Hl in B2.
      destruct (N.lt_trichotomy x y) as [H|[H|H]]; [right;left|lia|right;right]; split; try lia; nia.
Qed.

Lemma difference_spec : forall a b, inf_ok a -> inf_ok b ->
  (difference a b = 0%Z /\ inf_value a = inf_value b) \/
  ((difference a b < 0)%Z /\ inf_value a < inf_value b) \/
  ((difference a b > 0)%Z /\ inf_value a > inf_value b).
Proof.
  intros a b Ha Hb. unfold difference.
  rewrite <- (reduce_if_value a), <- (reduce_if_value b).
  pose proof (reduce_if_ok a Ha) as [_ Oa]. pose proof (reduce_if_ok b Hb) as [_ Ob].
  pose proof (reduce_if_canon a (proj1 Ha)) as Ca. pose proof (reduce_if_canon b (proj1 Hb)) as Cb.
  destruct (Nat.ltb_spec (length (reduce_if a)) (length (reduce_if b))) as [H|H].
  - right; left. split; [lia|]. apply canon_length_lt; auto.
  - destruct (Nat.ltb_spec (length (reduce_if b)) (length (reduce_if a))) as [H'|H'].
    + right; right. split; [lia|]. apply N.lt_gt. apply canon_length_lt; auto.
    + apply lex_diff_spec; auto; lia.
Qed.

Ltac cmp_tac := intros a b Ha Hb; destruct (difference_spec a b Ha Hb) as [[D V]|[[D V]|[D V]]];
  unfold inf_lt, inf_gt, inf_le, inf_ge, inf_eq, inf_ne; lia.
Lemma inf_lt_spec : forall a b, inf_ok a -> inf_ok b -> inf_lt a b = (inf_value a <? inf_value b).
Proof. cmp_tac. Qed.
Lemma inf_gt_spec : forall a b, inf_ok a -> inf_ok b -> inf_gt a b = (inf_value b <? inf_value a).
Proof. cmp_tac. Qed.
Lemma inf_le_spec : forall a b, inf_ok a -> inf_ok b -> inf_le a b = (inf_value a <=? inf_value b).
Proof. cmp_tac. Qed.
Lemma inf_ge_spec : forall a b, inf_ok a -> inf_ok b -> inf_ge a b = (inf_value b <=? inf_value a).
Proof. cmp_tac. Qed.
Lemma inf_eq_spec : forall a b, inf_ok a -> inf_ok b -> inf_eq a b = (inf_value a =? inf_value b).
Proof. cmp_tac. Qed.
Lemma inf_ne_spec : forall a b, inf_ok a -> inf_ok b -> inf_ne a b = negb (inf_value a =? inf_value b).
Proof. cmp_tac. Qed.

(** ** subtraction *)
Lemma zland255 : forall x, Z.land x 255 = (x mod 256)%Z.
Proof. intro x. replace 255%Z with (Z.ones 8) by reflexivity. rewrite Z.land_ones by lia. reflexivity. Qed.
Lemma zshiftr8 : forall x, Z.shiftr x 8 = (x / 256)%Z.
Proof. intro x. rewrite Z.shiftr_div_pow2 by lia. reflexivity. Qed.

Lemma sub_loop_spec : forall res arg c,
  bytes_ok res -> bytes_ok arg -> (0 <= c <= 1)%Z -> (length arg <= length res)%nat ->
  (Z.of_N (le_val arg) + c <= Z.of_N (le_val res))%Z ->
  (Z.of_N (le_val (sub_loop res arg c)) = Z.of_N (le_val res) - Z.of_N (le_val arg) - c)%Z
  /\ bytes_ok (sub_loop res arg c) /\ length (sub_loop res arg c) = length res.
Proof.
  induction res as [|r rs IH]; intros arg c Hr Ha Hc Hlen Hle.
  - destruct arg; [|cbn [length] in Hlen; lia]. cbn [sub_loop le_val] in *.
    repeat split; auto using bytes_ok_nil. lia.
  - apply bytes_ok_cons in Hr. destruct Hr as [Hr Hrs]. unfold is_byte in Hr.
    cbn [sub_loop]. destruct arg as [|x xs].
    + cbn [le_val] in Hle. destruct (Z.eqb_spec c 0) as [E0|E0].
      * subst c. cbn [le_val]. repeat split; try lia. apply bytes_ok_cons; auto.
      * destruct (Z.ltb_spec (Z.of_N r - c) 0) as [Hs|Hs].
        -- rewrite zland255, zshiftr8.
           replace ((- (Z.of_N r - c)) / 256)%Z with 0%Z by lia.
           destruct (Z.eqb_spec ((- (Z.of_N r - c)) mod 256) 0) as [E1|E1]; [lia|].
           destruct (IH [] (0 + 1)%Z Hrs Ha) as (V & B & L); cbn [le_val length]; try lia.
           cbn [le_val length] in *. repeat split; try lia.
           apply bytes_ok_cons. split; [unfold is_byte; lia|auto].
        -- destruct (IH [] 0%Z Hrs Ha) as (V & B & L); cbn [le_val length]; try lia.
           cbn [le_val length] in *. repeat split; try lia.
           apply bytes_ok_cons. split; [unfold is_byte; lia|auto].
    + apply bytes_ok_cons in Ha. destruct Ha as [Hx Hxs]. unfold is_byte in Hx.
      cbn [le_val length] in Hle, Hlen.
      destruct (Z.ltb_spec (Z.of_N r - Z.of_N x - c) 0) as [Hs|Hs].
      * rewrite zland255, zshiftr8.
        destruct (Z.eqb_spec ((- (Z.of_N r - Z.of_N x - c)) mod 256) 0) as [E1|E1].
        -- replace ((- (Z.of_N r - Z.of_N x - c)) / 256)%Z with 1%Z by lia.
           destruct (IH xs 1%Z Hrs Hxs) as (V & B & L); try lia.
           cbn [le_val length] in *. repeat split; try lia.
           apply bytes_ok_cons. split; [unfold is_byte; lia|auto].
        -- replace ((- (Z.of_N r - Z.of_N x - c)) / 256)%Z with 0%Z by lia.
           destruct (IH xs (0 + 1)%Z Hrs Hxs) as (V & B & L); try lia.
           cbn [le_val length] in *. repeat split; try lia.
           apply bytes_ok_cons. split; [unfold is_byte; lia|auto].
      * destruct (IH xs 0%Z Hrs Hxs) as (V & B & L); try lia.
        cbn [le_val length] in *. repeat split; try lia.
        apply bytes_ok_cons. split; [unfold is_byte; lia|auto].
Qed.

Lemma inf_sub_ok : forall a b, inf_ok a -> inf_ok b -> inf_value b <= inf_value a ->
  exists c, inf_sub a b = Ok c /\ inf_value c = inf_value a - inf_value b /\ inf_ok c
            /\ length c = length (reduce_if a).
Proof.
  intros a b Ha Hb Hle. unfold inf_sub. rewrite inf_lt_spec by auto.
  destruct (N.ltb_spec (inf_value a) (inf_value b)) as [H|H]; [lia|].
  pose proof (reduce_if_ok a Ha) as [Na Oa]. pose proof (reduce_if_ok b Hb) as [Nb Ob].
  pose proof (reduce_if_canon a (proj1 Ha)) as Ca. pose proof (reduce_if_canon b (proj1 Hb)) as Cb.
  assert (Hlen : (length (reduce_if b) <= length (reduce_if a))%nat).
  { destruct (le_lt_dec (length (reduce_if b)) (length (reduce_if a))) as [|L]; auto.
    pose proof (canon_length_lt _ _ Ca Cb Oa Ob L) as Q. rewrite !reduce_if_value in Q. lia. }
  destruct (sub_loop_spec (rev (reduce_if a)) (rev (reduce_if b)) 0) as (V & B & L);
    try apply bytes_ok_rev; auto; try lia.
  { rewrite !rev_length; lia. }
  { rewrite !le_val_rev, !reduce_if_value. lia. }
  eexists. split; [reflexivity|]. rewrite inf_value_rev. rewrite !le_val_rev, !reduce_if_value in V.
  repeat split.
  - lia.
  - intro E. apply (f_equal (@length N)) in E. rewrite rev_length, L, rev_length in E.
    destruct (reduce_if a); [congruence|cbn [length] in E; lia].
  - apply bytes_ok_rev; auto.
  - rewrite rev_length, L, rev_length. reflexivity.
Qed.

Lemma inf_sub_err : forall a b, inf_ok a -> inf_ok b -> inf_value a < inf_value b ->
  inf_sub a b = Err Erange.
Proof.
  intros a b Ha Hb Hlt. unfold inf_sub. rewrite inf_lt_spec by auto.
  destruct (N.ltb_spec (inf_value a) (inf_value b)); [reflexivity|lia].
Qed.

(** ** multiplication by a byte *)
Lemma mulb_loop_spec : forall l arg c l' c',
  bytes_ok l -> arg < 256 -> c < 256 ->
  mulb_loop l arg c = (l', c') ->
  le_val l' + p256 (length l) * c' = le_val l * arg + c /\ bytes_ok l' /\ length l' = length l /\ c' < 256.
Proof.
  induction l as [|b r IH]; intros arg c l' c' Hl Harg Hc E; cbn [mulb_loop] in E.
  - inversion E; subst. cbn [le_val length]. rewrite p256_0. repeat split; auto using bytes_ok_nil; lia.
  - apply bytes_ok_cons in Hl. destruct Hl as [Hb Hr]. unfold is_byte in Hb.
    destruct (mulb_loop r arg (N.shiftr (b * arg + c) 8)) as [l1 c1] eqn:E1.
    inversion E; subst; clear E. rewrite shiftr8 in E1.
    apply IH in E1; auto; [|apply N.div_lt_upper_bound; nia].
    destruct E1 as (V & B & L & C). rewrite land255. cbn [le_val length]. rewrite p256_S.
    assert (D : b * arg + c = 256 * ((b * arg + c) / 256) + (b * arg + c) mod 256)
      by (apply N.div_mod; lia).
    assert (M : (b * arg + c) mod 256 < 256) by (apply N.mod_lt; lia).
    repeat split; auto; try nia.
    apply bytes_ok_cons. split; auto.
Qed.

Lemma inf_mulb_spec : forall a b, inf_ok a -> b < 256 ->
  inf_value (inf_mulb a b) = inf_value a * b /\ inf_ok (inf_mulb a b).
Proof.
  intros a b [Na Oa] Hb. unfold inf_mulb.
  destruct (mulb_loop (rev a) b 0) as [l c] eqn:E.
  apply mulb_loop_spec in E; [|apply bytes_ok_rev; auto|lia|lia].
  destruct E as (V & B & L & C). rewrite le_val_rev in V. rewrite rev_length in *.
  set (r := if c =? 0 then rev l else c :: rev l).
  assert (Hr : inf_value r = inf_value a * b /\ inf_ok r).
  { unfold r. destruct (N.eqb_spec c 0) as [E0|E0].
    - rewrite inf_value_rev. split; [lia|]. split; [|apply bytes_ok_rev; auto].
      intro E. apply (f_equal (@length N)) in E. rewrite rev_length, L in E. destruct a; [congruence|cbn in E; lia].
    - rewrite inf_value_cons, inf_value_rev, rev_length, L. split; [lia|].
      split; [discriminate|]. apply bytes_ok_cons. split; auto. apply bytes_ok_rev; auto. }
  destruct (b =? 0).
  - rewrite reduce_value. split; [apply Hr|]. apply reduce_ok. apply Hr.
  - exact Hr.
Qed.

(** ** bits of a byte *)
Lemma low_mask_ones : forall k, 1 <= k -> k <= 7 -> low_mask k = N.ones (8 - k).
Proof.
  intros k H1 H2.
  assert (H : k = 1 \/ k = 2 \/ k = 3 \/ k = 4 \/ k = 5 \/ k = 6 \/ k = 7) by lia.
  destruct H as [->|[->|[->|[->|[->|[->| ->]]]]]]; reflexivity.
Qed.

Lemma land_disjoint : forall x y k, x < 2 ^ k -> N.land x (y * 2 ^ k) = 0.
Proof.
  intros x y k H. rewrite <- N.shiftl_mul_pow2.
  apply N.bits_inj. intro n. rewrite N.land_spec, N.bits_0.
  destruct (N.ltb_spec n k) as [Hn|Hn].
  - rewrite N.shiftl_spec_low by auto. apply andb_false_r.
  - destruct (N.eq_dec x 0) as [Z|Z]; [rewrite Z, N.bits_0; reflexivity|].
    rewrite N.bits_above_log2; [reflexivity|].
    apply N.log2_lt_pow2 in H; [|apply N.neq_0_lt_0; exact Z].
    eapply N.lt_le_trans; eauto.
Qed.

Lemma lor_disjoint : forall x y k, x < 2 ^ k -> N.lor x (y * 2 ^ k) = x + y * 2 ^ k.
Proof.
  intros x y k H. pose proof (land_disjoint x y k H) as L.
  rewrite N.add_nocarry_lxor by exact L. symmetry. apply N.lxor_lor. exact L.
Qed.

(** bytes l seen as a big number; shift_loop with sl = 8 - sr: the value of the list is
    (256^n * (r2 >> sl) + value l) / 2^sr ... stated with the incoming low part [lo]. *)
Lemma shift_loop_spec : forall l sr lo,
  bytes_ok l -> 1 <= sr -> sr <= 7 -> lo < 2 ^ sr ->
  let out := shift_loop l (N.ones sr) (8 - sr) sr (lo * 2 ^ (8 - sr)) in
  inf_value out = (lo * p256 (length l) + inf_value l) / 2 ^ sr
  /\ bytes_ok out /\ length out = length l.
Proof.
  induction l as [|b r IH]; intros sr lo Hl H1 H2 Hlo out.
  - subst out. cbn [shift_loop length]. rewrite inf_value_nil, p256_0.
    repeat split; auto using bytes_ok_nil. rewrite N.div_small; [reflexivity|lia].
  - apply bytes_ok_cons in Hl. destruct Hl as [Hb Hr]. unfold is_byte in Hb.
    assert (P : 2 ^ sr * 2 ^ (8 - sr) = 256) by (rewrite <- N.pow_add_r; replace (sr + (8 - sr)) with 8 by lia; reflexivity).
    assert (Ppos : 0 < 2 ^ sr) by (apply N.neq_0_lt_0, N.pow_nonzero; lia).
    subst out. cbn [shift_loop].
    rewrite N.land_ones, N.shiftl_mul_pow2, N.shiftr_div_pow2.
    assert (M : b mod 2 ^ sr < 2 ^ sr) by (apply N.mod_lt; lia).
    assert (E : N.land (b mod 2 ^ sr * 2 ^ (8 - sr)) 255 = b mod 2 ^ sr * 2 ^ (8 - sr)).
    { rewrite land255. apply N.mod_small. nia. }
    rewrite E. destruct (IH sr (b mod 2 ^ sr) Hr H1 H2 M) as (V & B & L).
    assert (Elor : N.lor (b / 2 ^ sr) (lo * 2 ^ (8 - sr)) = b / 2 ^ sr + lo * 2 ^ (8 - sr)).
    { apply lor_disjoint. apply N.div_lt_upper_bound; [lia|rewrite P; lia]. }
    rewrite Elor. cbn [length]. rewrite !inf_value_cons. rewrite L, V, p256_S.
    assert (D : b = 2 ^ sr * (b / 2 ^ sr) + b mod 2 ^ sr) by (apply N.div_mod; lia).
    repeat split; auto.
    + set (q := b / 2 ^ sr) in *. set (m := b mod 2 ^ sr) in *.
      replace (lo * (256 * p256 (length r)) + (b * p256 (length r) + inf_value r))
        with ((m * p256 (length r) + inf_value r) + ((q + lo * 2 ^ (8 - sr)) * p256 (length r)) * 2 ^ sr).
      * rewrite N.div_add by lia. lia.
      * rewrite D at 1. rewrite <- P. lia.
    + apply bytes_ok_cons. split; auto. unfold is_byte.
      assert (b / 2 ^ sr < 2 ^ (8 - sr)) by (apply N.div_lt_upper_bound; [lia|rewrite P; lia]). nia.
Qed.
