(** * DarCpProof: lemmas about dar_cp *)
From Coq Require Import List PeanoNat.
From Verif Require Import Base DarCpModel DarCpSpec.
Local Open Scope nat_scope.

Section proof.
Variable src : list N.
Variable bad : nat -> bool.
Variable rd : nat -> nat -> option nat.
Notation size := (length src).
Hypothesis R : reads size bad rd.

Lemma rd1_eof p : size <= p -> rd p 1 = Some 0.
Proof. intro H. apply (R p 1); auto. Qed.
Lemma rd1_good p : p < size -> bad p = false -> rd p 1 = Some 1.
Proof.
  intros H B. destruct (R p 1 (le_n 1)) as [_ Q]. specialize (Q H). destruct (rd p 1) as [k|].
  - f_equal. lia.
  - destruct Q as (i & Hi & _ & Q). assert (i = p) by lia. congruence.
Qed.
Lemma rd1_bad p : p < size -> bad p = true -> rd p 1 = None.
Proof.
  intros H B. destruct (R p 1 (le_n 1)) as [_ Q]. specialize (Q H). destruct (rd p 1) as [k|]; [|reflexivity].
  destruct Q as (Q1 & Q2 & Q3). rewrite Q3 in B; [discriminate|lia].
Qed.
Lemma rd1_some p k : rd p 1 = Some k -> (size <= p /\ k = 0) \/ (p < size /\ bad p = false /\ k = 1).
Proof.
  intro E. destruct (Nat.le_gt_cases size p) as [L|L].
  - rewrite rd1_eof in E by exact L. left. split; [exact L|congruence].
  - right. split; [exact L|]. destruct (bad p) eqn:B; [rewrite rd1_bad in E by auto; discriminate|].
    rewrite rd1_good in E by auto. split; congruence.
Qed.
Lemma rd1_none p : rd p 1 = None -> p < size /\ bad p = true.
Proof.
  intro E. destruct (Nat.le_gt_cases size p) as [L|L]; [rewrite rd1_eof in E by exact L; discriminate|].
  split; [exact L|]. destruct (bad p) eqn:B; [reflexivity|]. rewrite rd1_good in E by auto. discriminate.
Qed.

(** ** Skipping *)
Lemma probe_ok fuel : forall block q, (1 <= block)%N -> size - q < fuel ->
  exists q', q <= q' /\ (q < size -> bad q = true -> q < q') /\
    ((size <= q' /\ probe rd fuel block q = q') \/ (q' < size /\ bad q' = false /\ probe rd fuel block q = S q')).
Proof.
  induction fuel as [|fuel IH]; intros block q B L; [lia|]. cbn [probe].
  destruct (rd q 1) as [k|] eqn:E.
  - apply rd1_some in E. exists q. split; [lia|]. destruct E as [[L1 ->]|(L1 & B1 & ->)].
    + split; [lia|]. left. split; [exact L1|lia].
    + split; [congruence|]. right. split; [exact L1|]. split; [exact B1|lia].
  - apply rd1_none in E. destruct E as [L1 B1].
    set (b' := if (block <? 1073741824)%N then (block * 2)%N else block).
    assert (B' : (1 <= b')%N) by (unfold b'; destruct (block <? 1073741824)%N; lia). clearbody b'.
    destruct (IH b' (q + N.to_nat b') B' ltac:(lia)) as (q' & Q1 & _ & Q3).
    exists q'. split; [lia|]. split; [lia|]. exact Q3.
Qed.

Lemma bisect_ok fuel : forall mn mx, mn < size -> bad mn = true -> mn < mx -> mx - mn <= fuel ->
  (size <= mx \/ bad mx = false \/ (mx - 1 < size /\ bad (mx - 1) = false)) ->
  let r := bisect rd fuel mn mx in
  mn < r <= mx /\ r - 1 < size /\ bad (r - 1) = true /\ (size <= r \/ bad r = false).
Proof.
  induction fuel as [|fuel IH]; intros mn mx L B LT F Q; [lia|]. cbn [bisect].
  destruct (Nat.ltb_spec 1 (mx - mn)) as [C|C].
  - set (mid := (mx + mn) / 2).
    assert (M : mn < mid < mx).
    { unfold mid. split; [|apply Nat.div_lt_upper_bound; lia]. apply Nat.lt_le_trans with (S mn); [lia|]. apply Nat.div_le_lower_bound; lia. }
    clearbody mid. destruct (rd mid 1) as [k|] eqn:E.
    + apply rd1_some in E. cbv zeta.
      destruct (IH mn mid L B ltac:(lia) ltac:(lia)) as (I1 & I2).
      { destruct E as [[E _]|(_ & E & _)]; auto. }
      split; [lia|exact I2].
    + apply rd1_none in E. destruct E as [E1 E2]. cbv zeta.
      destruct (IH mid mx E1 E2 ltac:(lia) ltac:(lia) Q) as (I1 & I2). split; [lia|exact I2].
  - cbv zeta. assert (mx = S mn) by lia. subst mx. replace (S mn - 1) with mn in * by lia.
    split; [lia|]. split; [exact L|]. split; [exact B|]. destruct Q as [Q|[Q|[_ Q]]]; auto. congruence.
Qed.

Lemma skip_ok p : p < size -> bad p = true ->
  exists f mx, skip_to_next_readable src rd 512 p = (f, mx) /\ p < mx <= size /\ bad (mx - 1) = true /\
    (f = true -> mx < size /\ bad mx = false) /\ (f = false -> mx = size).
Proof.
  intros L B. unfold skip_to_next_readable.
  destruct (probe_ok (S size) 512%N p ltac:(lia) ltac:(lia)) as (q' & Q1 & Q2 & Q3). specialize (Q2 L B).
  set (mx := probe rd (S size) 512 p) in *.
  assert (LT : p < mx) by (destruct Q3 as [[_ ->]|(_ & _ & ->)]; lia).
  destruct (bisect_ok (mx - p) p mx L B LT ltac:(lia)) as (I1 & I2 & I3 & I4).
  { destruct Q3 as [[Q E]|(Q & G & E)]; [left; lia|right; right]. rewrite E. replace (S q' - 1) with q' by lia. auto. }
  set (r := bisect rd (mx - p) p mx) in *. clearbody r. eexists _, r. split; [reflexivity|]. split; [lia|]. split; [exact I3|]. split.
  - destruct (rd r 1) as [[|[|k]]|] eqn:E; try discriminate. apply rd1_some in E. intros _. destruct E as [[_ E]|(E1 & E2 & _)]; [discriminate|auto].
  - intro F. destruct I4 as [I4|I4]; [lia|]. destruct (Nat.le_gt_cases size r) as [G|G]; [lia|]. rewrite rd1_good in F by auto. discriminate.
Qed.

(** ** Writing *)
Lemma bytes_length p k : p + k <= size -> length (bytes_at src p k) = k.
Proof. intro H. unfold bytes_at. rewrite firstn_length, skipn_length. lia. Qed.

Lemma put_after d p b : length d <= p -> put d p b = d ++ repeat 0%N (p - length d) ++ b.
Proof.
  intro L. unfold put. rewrite skipn_all2 by lia. rewrite app_nil_r.
  rewrite firstn_app, firstn_all2 by lia. rewrite <- app_assoc. f_equal. f_equal.
  revert L. generalize (length d) as n. intros n L.
  assert (X : forall a m, a <= m -> firstn a (repeat 0%N m) = repeat 0%N a).
  { induction a as [|a IH]; intros [|m] H; cbn; try reflexivity; try lia. f_equal. apply IH. lia. }
  apply X. lia.
Qed.

(** What holds for the first [p] bytes. *)
Definition D (p : nat) (d : list N) : Prop :=
  length d <= p /\ forall i, i < p -> i < size ->
    nth_error d i = nth_error src i \/ (enclosed size bad i /\ forall b, nth_error d i = Some b -> b = 0%N).

Lemma nth_firstn (l : list N) : forall k i, i < k -> nth_error (firstn k l) i = nth_error l i.
Proof. induction l as [|x l IH]; intros [|k] [|i] L; cbn; try reflexivity; try lia. apply IH. lia. Qed.
Lemma nth_skipn (l : list N) : forall p i, nth_error (skipn p l) i = nth_error l (p + i).
Proof. induction l as [|x l IH]; intros [|p] i; cbn; try reflexivity; [destruct i; reflexivity|apply IH]. Qed.
Lemma nth_bytes p k i : i < k -> nth_error (bytes_at src p k) i = nth_error src (p + i).
Proof. intro L. unfold bytes_at. rewrite nth_firstn by exact L. apply nth_skipn. Qed.

Lemma D_put p d k : D p d -> p + k <= size -> D (p + k) (put d p (bytes_at src p k)).
Proof.
  intros [L H] S. rewrite put_after by exact L. pose proof (bytes_length p k S) as BL. split.
  - rewrite !app_length, repeat_length, BL. lia.
  - intros i Hi Hs. destruct (Nat.lt_ge_cases i p) as [C|C].
    + destruct (Nat.lt_ge_cases i (length d)) as [C1|C1].
      * rewrite nth_error_app1 by exact C1. apply H; assumption.
      * rewrite nth_error_app2 by exact C1. rewrite nth_error_app1 by (rewrite repeat_length; lia).
        destruct (H i C Hs) as [E|[E _]].
        -- exfalso. assert (Z : nth_error d i = None) by (apply nth_error_None; exact C1). rewrite Z in E. symmetry in E. apply nth_error_None in E. lia.
        -- right. split; [exact E|]. intros b Q. apply nth_error_In, repeat_spec in Q. exact Q.
    + left. rewrite nth_error_app2 by lia. rewrite nth_error_app2 by (rewrite repeat_length; lia). rewrite repeat_length.
      rewrite nth_bytes by lia. f_equal. lia.
Qed.

Lemma D_skip p d mx : D p d -> p < mx <= size -> bad p = true -> bad (mx - 1) = true -> D mx d.
Proof.
  intros [L H] M B1 B2. split; [lia|]. intros i Hi Hs. destruct (Nat.lt_ge_cases i p) as [C|C]; [apply H; assumption|].
  right. split.
  - exists p, (mx - 1). repeat split; auto; lia.
  - intros b Q. assert (Z : nth_error d i = None) by (apply nth_error_None; lia). congruence.
Qed.

Lemma put_prefix p k : p + k <= size -> put (firstn p src) p (bytes_at src p k) = firstn (p + k) src.
Proof.
  intro L. rewrite put_after by (rewrite firstn_length; lia). rewrite firstn_length. replace (p - min p size) with 0 by lia. cbn [repeat app].
  unfold bytes_at. rewrite <- (firstn_skipn p src) at 3. rewrite firstn_app, firstn_length, firstn_firstn.
  replace (min (p + k) p) with p by lia. replace (p + k - min p size) with k by lia. reflexivity.
Qed.

(** ** Positions at which the program may be *)
Variable P : nat -> Prop.
Hypothesis P0 : P 0.
Hypothesis Pread : forall p n k, P p -> Nat.even n = true -> 1 <= n -> rd p n = Some k -> P (p + k).
Hypothesis Pskip : forall p, 1 <= p -> p < size -> bad (p - 1) = true -> bad p = false -> P p.
Hypothesis P2 : forall p, P p -> p < size -> bad p = false -> rd p 2 <> None.

Lemma rd_some p n k : 1 <= n -> rd p n = Some (S k) -> p + S k <= size /\ forall i, p <= i < p + S k -> bad i = false.
Proof.
  intros L E. destruct (R p n L) as [Q1 Q2]. destruct (Nat.le_gt_cases size p) as [C|C].
  - rewrite Q1 in E by exact C. discriminate.
  - specialize (Q2 C). rewrite E in Q2. destruct Q2 as (_ & Q2 & Q3). auto.
Qed.
Lemma rd_zero p n : 1 <= n -> rd p n = Some 0 -> size <= p.
Proof.
  intros L E. destruct (R p n L) as [_ Q2]. destruct (Nat.le_gt_cases size p) as [C|C]; [exact C|].
  specialize (Q2 C). rewrite E in Q2. lia.
Qed.
Lemma rd_none p n : 1 <= n -> rd p n = None -> p < size /\ exists i, p <= i < p + n /\ i < size /\ bad i = true.
Proof.
  intros L E. destruct (R p n L) as [Q1 Q2]. destruct (Nat.le_gt_cases size p) as [C|C].
  - rewrite Q1 in E by exact C. discriminate.
  - specialize (Q2 C). rewrite E in Q2. auto.
Qed.

Lemma even_pow e : Nat.even (2 ^ S e) = true.
Proof. cbn [Nat.pow]. rewrite Nat.even_mul. reflexivity. Qed.

Lemma xfer_loop_ok fuel : forall e p d z, D p d -> P p -> p <= z -> z < size -> bad z = true ->
  size - p + 2 ^ e < fuel -> (e = 0 -> rd p 2 = None) ->
  exists p1 d1, xfer_loop src rd fuel (2 ^ e) p {| data := d; pos := p; answers := [] |} = Ok (p1, {| data := d1; pos := p1; answers := [] |}) /\
    p <= p1 <= z /\ D p1 d1 /\ bad p1 = true.
Proof.
  induction fuel as [|fuel IH]; intros e p d z HD HP Lz Sz Bz F E0; [lia|]. cbn [xfer_loop].
  destruct e as [|e].
  - cbn [Nat.pow Nat.ltb Nat.leb]. exists p, d. split; [reflexivity|]. split; [lia|]. split; [exact HD|].
    destruct (bad p) eqn:B; [reflexivity|]. exfalso. apply (P2 p HP ltac:(lia) B). apply E0. reflexivity.
  - assert (G : 2 <= 2 ^ S e) by (cbn [Nat.pow]; pose proof (Nat.pow_nonzero 2 e ltac:(lia)); lia).
    destruct (Nat.ltb_spec 1 (2 ^ S e)) as [C|C]; [|lia].
    destruct (rd p (2 ^ S e)) as [[|k]|] eqn:E.
    + apply rd_zero in E; [lia|lia].
    + cbn [write1 answers data pos].
      pose proof (rd_some p (2 ^ S e) k ltac:(lia) E) as [S1 S2]. rewrite (bytes_length p (S k)) by exact S1.
      destruct (IH (S e) (p + S k) (put d p (bytes_at src p (S k))) z) as (p1 & d1 & X & I1 & I2); auto.
      * apply D_put; [exact HD|exact S1].
      * apply (Pread p (2 ^ S e) (S k) HP (even_pow e)); [lia|exact E].
      * destruct (Nat.lt_ge_cases z (p + S k)) as [Z|Z]; [|exact Z]. rewrite S2 in Bz by lia. discriminate.
      * lia.
      * discriminate.
      * exists p1, d1. split; [exact X|]. split; [lia|exact I2].
    + replace (2 ^ S e / 2) with (2 ^ e) by (cbn [Nat.pow]; rewrite Nat.mul_comm, Nat.div_mul; lia).
      destruct (IH e p d z) as (p1 & d1 & X & I1); auto.
      * cbn [Nat.pow] in F, G. lia.
      * intros ->. exact E.
      * exists p1, d1. auto.
Qed.

Lemma xfer_ok p d z : D p d -> P p -> p <= z -> z < size -> bad z = true ->
  exists p1 d1, xfer_before_error src rd 512 p {| data := d; pos := p; answers := [] |} = Ok (p1, {| data := d1; pos := p1; answers := [] |}) /\
    p <= p1 <= z /\ D p1 d1 /\ bad p1 = true.
Proof.
  intros HD HP Lz Sz Bz. unfold xfer_before_error.
  destruct (bad p) eqn:B.
  - rewrite rd1_bad by (auto; lia). exists p, d. auto.
  - rewrite rd1_good by (auto; lia). change 512 with (2 ^ 9). apply xfer_loop_ok; auto; [change (2 ^ 9) with 512; lia|discriminate].
Qed.

(** ** The whole copy *)
Lemma copy_ok wfuel fuel : forall p d missed, 1 <= wfuel -> D p d -> P p -> p <= size -> size - p < fuel ->
  ((missed = 0 /\ (forall i, i < p -> bad i = false) /\ d = firstn p src) \/ (0 < missed /\ exists i, i < size /\ bad i = true)) ->
  exists t m, copy_loop src rd fuel wfuel p {| data := d; pos := p; answers := [] |} missed = Ok (t, m) /\ D size (data t) /\
   ((m = 0 /\ (forall i, i < size -> bad i = false) /\ data t = src) \/ (0 < m /\ exists i, i < size /\ bad i = true)).
Proof.
  induction fuel as [|fuel IH]; intros p d missed W HD HP L F M; [lia|]. cbn [copy_loop].
  destruct (rd p 1024) as [[|k]|] eqn:E.
  - apply rd_zero in E; [|lia]. assert (p = size) by lia. subst p. eexists _, missed. split; [reflexivity|]. cbn [data]. split; [exact HD|].
    destruct M as [(M1 & M2 & M3)|M]; [left|right; exact M]. rewrite firstn_all in M3. auto.
  - pose proof (rd_some p 1024 k ltac:(lia) E) as [S1 S2]. pose proof (bytes_length p (S k) S1) as BL.
    destruct wfuel as [|wf]; [lia|]. destruct (bytes_at src p (S k)) as [|b0 bs] eqn:EB; [discriminate|]. cbn [write_all]. rewrite <- EB in *.
    cbn [write1 answers data pos]. rewrite skipn_all. destruct wf; cbn [write_all]; rewrite BL.
    all: apply IH; [lia|apply D_put; assumption|apply (Pread p 1024 (S k) HP eq_refl); [lia|exact E]|lia|lia|].
    all: destruct M as [(M1 & M2 & ->)|M]; [left|right; exact M]; split; [exact M1|]; split;
      [intros i Hi; destruct (Nat.lt_ge_cases i p); [auto|apply S2; lia]|apply put_prefix, S1].
  - apply rd_none in E; [|lia]. destruct E as (Lp & z & Hz & Sz & Bz).
    destruct (xfer_ok p d z HD HP ltac:(lia) Sz Bz) as (p1 & d1 & X & X1 & X2 & X3). rewrite X. cbn [bind data answers].
    destruct (skip_ok p1 ltac:(lia) X3) as (f & mx & K & K1 & K2 & K3 & K4). rewrite K.
    pose proof (D_skip _ _ _ X2 K1 X3 K2) as HD'. destruct f.
    + destruct (K3 eq_refl) as [K5 K6]. apply IH; auto; try lia.
      * apply Pskip; auto; lia.
      * right. split; [lia|]. eauto.
    + rewrite (K4 eq_refl) in *. eexists _, _. split; [reflexivity|]. cbn [data]. split; [exact HD'|]. right. split; [lia|]. eauto.
Qed.
End proof.

(** ** Short writes without read errors *)
Section clean.
Variable src : list N.
Variable rd : nat -> nat -> option nat.
Hypothesis R : reads (length src) (fun _ => false) rd.

Lemma write_all_ok fuel : forall t b t', pos t = length (data t) -> write_all fuel t b = (t', true) ->
  data t' = data t ++ b /\ pos t' = length (data t').
Proof.
  induction fuel as [|fuel IH]; intros t b t' Q E; destruct b as [|x b]; cbn [write_all] in E; try discriminate.
  - injection E as <-. rewrite app_nil_r. auto.
  - injection E as <-. rewrite app_nil_r. auto.
  - unfold write1 in E. destruct (answers t) as [|[k|] r]; try discriminate.
    + rewrite skipn_all in E. assert (E2 : t' = {| data := put (data t) (pos t) (x :: b); pos := pos t + length (x :: b); answers := [] |}) by (destruct fuel; cbn [write_all] in E; injection E as <-; reflexivity).
      subst t'. cbn [data pos]. rewrite put_after by lia. rewrite Q, Nat.sub_diag. cbn [repeat app]. split; [reflexivity|]. rewrite app_length. reflexivity.
    + assert (K : skipn (length (firstn k (x :: b))) (x :: b) = skipn k (x :: b)).
      { rewrite firstn_length. destruct (Nat.le_ge_cases k (length (x :: b))); [now rewrite Nat.min_l by assumption|].
        rewrite Nat.min_r by assumption. rewrite skipn_all. rewrite skipn_all2 by assumption. reflexivity. }
      rewrite K in E. destruct (firstn k (x :: b)) as [|y w] eqn:FK.
      * apply IH in E; [|cbn [data pos length]; lia]. cbn [data] in E. destruct E as [E1 E2]. split; [|exact E2]. rewrite E1.
        rewrite <- (firstn_skipn k (x :: b)) at 2. rewrite FK. reflexivity.
      * apply IH in E.
        -- cbn [data] in E. destruct E as [E1 E2]. split; [|exact E2]. rewrite E1, put_after by lia. rewrite Q, Nat.sub_diag. cbn [repeat].
           rewrite <- app_assoc. f_equal. rewrite app_nil_l. rewrite <- FK. apply firstn_skipn.
        -- cbn [data pos]. rewrite put_after by lia. rewrite Q, Nat.sub_diag. cbn [repeat]. rewrite app_nil_l, app_length. reflexivity.
Qed.

Lemma clean_ok wfuel fuel : forall p t, pos t = p -> data t = firstn p src -> p <= length src -> length src - p < fuel ->
  copy_loop src rd fuel wfuel p t 0 = Err Erange \/ exists t', copy_loop src rd fuel wfuel p t 0 = Ok (t', 0) /\ data t' = src.
Proof.
  induction fuel as [|fuel IH]; intros p t Pt Dt L F; [lia|]. cbn [copy_loop].
  destruct (R p 1024 ltac:(lia)) as [R1 R2]. destruct (Nat.le_gt_cases (length src) p) as [C|C].
  - rewrite R1 by exact C. right. exists t. split; [reflexivity|]. rewrite Dt. apply firstn_all2. lia.
  - specialize (R2 C). destruct (rd p 1024) as [[|k]|].
    + lia.
    + destruct R2 as (_ & R2 & _). destruct (write_all wfuel t (bytes_at src p (S k))) as [t' b] eqn:W. destruct b; [|left; reflexivity].
      apply write_all_ok in W; [|rewrite Pt, Dt, firstn_length; lia]. destruct W as [W1 W2].
      assert (E : data t' = firstn (p + S k) src).
      { rewrite W1, Dt. rewrite <- put_prefix by exact R2. rewrite put_after by (rewrite firstn_length; lia). rewrite firstn_length. replace (p - min p (length src)) with 0 by lia. reflexivity. }
      apply IH; [rewrite W2, E, firstn_length; lia|exact E|lia|lia].
    + destruct R2 as (i & _ & _ & R2). discriminate.
Qed.
End clean.
