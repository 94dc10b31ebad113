(** * Proofs about elastic buffers. *)
From Verif Require Import Base FileModel ElasticModel.
Open Scope N_scope.

Definition filler (b : N) : Prop := b <> 88 /\ b <> 254 /\ b <> 255.
Definition fillers := Forall filler.
Definition digits_ok := Forall (fun b => b < 254).

Lemma U32_small : forall x, x < 4294967296 -> U32 x = x.
Proof. intros x H. unfold U32. apply N.mod_small. exact H. Qed.

Fixpoint val254 (l : list N) : N := match l with [] => 0 | b :: r => b + 254 * val254 r end.

Lemma val254_bound : forall l, digits_ok l -> val254 l < 254 ^ N.of_nat (length l).
Proof.
  induction l as [|b r IH]; intro H; [cbn; lia|]. inversion H as [|x y Hb Hr]; subst. specialize (IH Hr).
  cbn [val254 length]. rewrite Nat2N.inj_succ, N.pow_succ_r'. lia.
Qed.

Lemma digits254_val : forall fuel n, n < 2 ^ N.of_nat fuel -> val254 (digits254 fuel n) = n.
Proof.
  induction fuel as [|k IH]; intros n H; cbn [digits254].
  - cbn in H. cbn. lia.
  - destruct (N.eqb_spec n 0); [subst; reflexivity|]. cbn [val254]. rewrite IH; [lia|].
    rewrite Nat2N.inj_succ, N.pow_succ_r' in H. assert (n / 254 <= n / 2) by (apply N.div_le_compat_l; lia). lia.
Qed.
Lemma digits254_ok : forall fuel n, digits_ok (digits254 fuel n).
Proof.
  induction fuel as [|k IH]; intro n; cbn [digits254]; [constructor|].
  destruct (n =? 0); [constructor|]. apply Forall_cons; [lia|apply IH].
Qed.
Lemma digits254_len : forall fuel n k, n < 254 ^ N.of_nat k -> (length (digits254 fuel n) <= k)%nat.
Proof.
  induction fuel as [|f IH]; intros n k H; cbn [digits254]; [cbn; lia|].
  destruct (N.eqb_spec n 0); [cbn; lia|]. destruct k as [|k]; [cbn in H; lia|]. cbn [length].
  rewrite Nat2N.inj_succ, N.pow_succ_r' in H.
  assert (length (digits254 f (n / 254)) <= k)%nat; [apply IH|lia].
  apply N.div_lt_upper_bound; lia.
Qed.
Lemma size_digits_val : forall n, val254 (size_digits n) = n.
Proof.
  intro n. apply digits254_val.
  destruct n as [|p]; [reflexivity|]. cbn [N.size_nat].
  assert (G : forall p, N.pos p < 2 ^ N.of_nat (Pos.size_nat p)).
  { induction p0 as [p0 IH|p0 IH|]; cbn [Pos.size_nat]; [| |reflexivity];
      rewrite Nat2N.inj_succ, N.pow_succ_r'; lia. }
  apply G.
Qed.
Lemma size_digits_len : forall n, 0 < n -> n <= max_length -> (1 <= length (size_digits n) <= 4)%nat.
Proof.
  intros n H0 H. split.
  - pose proof (size_digits_val n) as V. destruct (size_digits n); [cbn in V; lia|cbn; lia].
  - apply digits254_len. unfold max_length in H. change (254 ^ N.of_nat 4) with 4162314256. lia.
Qed.
Lemma size_digits_small : forall n, 3 <= n -> n <= max_length -> N.of_nat (length (size_digits n)) + 2 <= n.
Proof.
  intros n H0 H. pose proof (size_digits_len n ltac:(lia) H) as L.
  destruct (N.le_gt_cases 6 n); [lia|].
  assert (length (size_digits n) <= 1)%nat; [|lia]. apply digits254_len. change (254 ^ N.of_nat 1) with 254. lia.
Qed.

(** ** folding the digits *)
Definition fold_digits (d : dir) (ds : list N) (t p : N) : N * N :=
  fold_left (fun '(t, p) b => digit_step d 254 t p b) ds (t, p).

Lemma fold_digits_cons : forall d b r t p,
  fold_digits d (b :: r) t p = fold_digits d r (fst (digit_step d 254 t p b)) (snd (digit_step d 254 t p b)).
Proof. intros d b r t p. unfold fold_digits. cbn [fold_left]. destruct (digit_step d 254 t p b); reflexivity. Qed.

Lemma fold_forward : forall ds t p k, digits_ok ds -> (length ds + k <= 4)%nat -> p = 254 ^ N.of_nat k -> t < p ->
  fst (fold_digits forward ds t p) = t + p * val254 ds.
Proof.
  induction ds as [|b r IH]; intros t p k Hd Hl Hp Ht.
  - cbn. lia.
  - inversion Hd as [|x y Hb Hr]; subst. cbn [length] in Hl. rewrite fold_digits_cons. cbn [digit_step fst snd].
    assert (B : 254 ^ N.of_nat k * 254 <= 4162314256).
    { rewrite N.mul_comm, <- N.pow_succ_r', <- Nat2N.inj_succ. change 4162314256 with (254 ^ N.of_nat 4).
      apply N.pow_le_mono_r; lia. }
    set (P := 254 ^ N.of_nat k) in *.
    assert (P * b <= P * 253) by nia.
    rewrite (U32_small (P * b)) by lia. rewrite (U32_small (P * 254)) by lia. rewrite U32_small by lia.
    rewrite (IH _ _ (S k)); auto; try lia.
    + cbn [val254]. lia.
    + unfold P. rewrite Nat2N.inj_succ, N.pow_succ_r'. lia.
Qed.

Lemma fold_backward : forall ds t p k, digits_ok ds -> (length ds + k <= 4)%nat -> t < 254 ^ N.of_nat k ->
  fst (fold_digits backward (rev ds) t p) = t * 254 ^ N.of_nat (length ds) + val254 ds.
Proof.
  intro ds. induction ds as [|b r IH]; intros t p k Hd Hl Ht; cbn [rev].
  - cbn. lia.
  - inversion Hd as [|x y Hb Hr]; subst. cbn [length] in Hl. unfold fold_digits. rewrite fold_left_app.
    destruct (fold_left (fun '(t0, p0) b0 => digit_step backward 254 t0 p0 b0) (rev r) (t, p)) as [t1 p1] eqn:E.
    pose proof (IH t p (S k) Hr ltac:(lia)) as V. unfold fold_digits in V. rewrite E in V. cbn [fst] in V.
    assert (Ht' : t < 254 ^ N.of_nat (S k)) by (rewrite Nat2N.inj_succ, N.pow_succ_r'; lia).
    specialize (V Ht'). cbn [fold_left digit_step fst val254 length].
    pose proof (val254_bound r Hr) as Vb.
    assert (B : t1 * 254 + b < 4162314256).
    { assert (Q : 254 * (254 ^ N.of_nat (length r) * 254 ^ N.of_nat k) <= 4162314256).
      { rewrite <- N.pow_add_r, <- N.pow_succ_r'. change 4162314256 with (254 ^ 4). apply N.pow_le_mono_r; lia. }
      set (A := 254 ^ N.of_nat (length r)) in *. set (K := 254 ^ N.of_nat k) in *.
      assert (t * A + val254 r + 1 <= A * K) by nia. lia. }
    rewrite (U32_small (t1 * 254)) by lia. rewrite U32_small by lia. rewrite V.
    rewrite Nat2N.inj_succ, N.pow_succ_r'. lia.
Qed.

Lemma fold_dir : forall d ds, digits_ok ds -> (length ds <= 4)%nat ->
  fst (fold_digits d (match d with forward => ds | backward => rev ds end) 0 1) = val254 ds.
Proof.
  intros [|] ds Hd Hl.
  - rewrite (fold_forward ds 0 1 0%nat); auto; lia.
  - rewrite (fold_backward ds 0 1 0%nat); auto; lia.
Qed.

(** ** scanning *)
Lemma scan_first_ok : forall m fuel d f a count b r, in_file f -> view d f = m ++ b :: r -> fillers m ->
  b = first_mark d false \/ b = 88 -> (length m < fuel)%nat -> count + N.of_nat (length m) < 4294967296 ->
  scan_first fuel d false f a count = Ok (b, count + N.of_nat (length m), moved d f (length m + 1)) /\
  in_file (moved d f (length m + 1)) /\ view d (moved d f (length m + 1)) = r.
Proof.
  induction m as [|x m IH]; intros fuel d f a count b r Hin V Hm Hb Hf Hc; (destruct fuel as [|k]; [cbn in Hf; lia|]).
  - cbn [app] in V. destruct (g_step_cons d f b r Hin V) as (St & V' & In' & _). cbn [scan_first]. rewrite St.
    assert (((b =? SINGLE_MARK) || (b =? first_mark d false)) = true) as ->.
    { destruct Hb as [->| ->]; unfold SINGLE_MARK; rewrite N.eqb_refl, ?orb_true_r; reflexivity. }
    cbn [length Nat.add]. rewrite N.add_0_r. auto.
  - cbn [app] in V. inversion Hm as [|y l Hx Hm']; subst. cbn [length] in *.
    destruct (g_step_cons d f x (m ++ b :: r) Hin V) as (St & V' & In' & _). cbn [scan_first]. rewrite St.
    destruct Hx as (X1 & X2 & X3).
    assert (((x =? SINGLE_MARK) || (x =? first_mark d false)) = false) as ->.
    { unfold SINGLE_MARK. destruct (N.eqb_spec x 88); [contradiction|]. destruct d; cbn; apply N.eqb_neq; auto. }
    rewrite U32_small by lia.
    destruct (IH k d (moved d f 1) x (count + 1) b r In' V' Hm' Hb ltac:(lia) ltac:(lia)) as (E & I2 & V2).
    rewrite moved_moved in E, I2, V2. replace (1 + (length m + 1))%nat with (S (length m) + 1)%nat in * by lia.
    rewrite E. split; auto. do 3 f_equal. lia.
Qed.

Lemma scan_digits_ok : forall ds fuel d f a t p count bc r, in_file f -> view d f = ds ++ last_mark d false :: r ->
  digits_ok ds -> (length ds < fuel)%nat -> count + N.of_nat (length ds) < 4294967296 -> bc + N.of_nat (length ds) <= 4 ->
  scan_digits fuel d false f a t p count bc =
    Ok (last_mark d false, fst (fold_digits d ds t p), count + N.of_nat (length ds), bc + N.of_nat (length ds), moved d f (length ds + 1)) /\
  in_file (moved d f (length ds + 1)) /\ view d (moved d f (length ds + 1)) = r.
Proof.
  induction ds as [|x ds IH]; intros fuel d f a t p count bc r Hin V Hd Hf Hc Hb; (destruct fuel as [|k]; [cbn in Hf; lia|]).
  - cbn [app] in V. destruct (g_step_cons d f _ r Hin V) as (St & V' & In' & _). cbn [scan_digits]. rewrite St.
    rewrite N.eqb_refl. cbn [length Nat.add fold_digits fold_left fst]. rewrite !N.add_0_r. auto.
  - cbn [app] in V. inversion Hd as [|y l Hx Hd']; subst. cbn [length] in *.
    destruct (g_step_cons d f x _ Hin V) as (St & V' & In' & _). cbn [scan_digits]. rewrite St.
    assert ((x =? last_mark d false) = false) as ->.
    { apply N.eqb_neq. destruct d; cbn; lia. }
    rewrite fold_digits_cons. cbn [base_from_version].
    destruct (digit_step d 254 t p x) as [t1 p1] eqn:E1. cbn [fst snd]. rewrite U32_small by lia.
    destruct (N.ltb_spec 4 (bc + 1)); [lia|].
    destruct (IH k d (moved d f 1) x t1 p1 (count + 1) (bc + 1) r In' V' Hd' ltac:(lia) ltac:(lia) ltac:(lia)) as (E & I2 & V2).
    rewrite moved_moved in E, I2, V2. replace (1 + (length ds + 1))%nat with (S (length ds) + 1)%nat in * by lia.
    rewrite E. split; auto.
    replace (count + 1 + N.of_nat (length ds)) with (count + N.of_nat (S (length ds))) by lia.
    replace (bc + 1 + N.of_nat (length ds)) with (bc + N.of_nat (S (length ds))) by lia. reflexivity.
Qed.

(** the shape of a dumped buffer *)
Definition shape (taille : N) (e : list N) : Prop :=
  (taille = 1 /\ e = [88]) \/ (taille = 2 /\ e = [255; 254]) \/
  (2 < taille /\ exists l1 ds l2, e = l1 ++ 255 :: ds ++ 254 :: l2 /\ fillers l1 /\ fillers l2 /\ digits_ok ds /\
     (1 <= length ds <= 4)%nat /\ val254 ds = taille /\ N.of_nat (length e) = taille).

Lemma randomize_ok : forall q b q', randomize q = Ok (b, q') -> filler b.
Proof.
  induction q as [|r q IH]; intros b q' E; cbn [randomize] in E; [discriminate|].
  destruct ((r mod 256 =? SINGLE_MARK) || (r mod 256 =? low_mark false) || (r mod 256 =? high_mark false)) eqn:C.
  - eauto.
  - injection E as <- <-. unfold SINGLE_MARK, low_mark, high_mark in C. unfold filler. lia.
Qed.
Lemma fill_ok : forall n q l q', fill n q = Ok (l, q') -> fillers l /\ length l = n.
Proof.
  induction n as [|n IH]; intros q l q' E; cbn [fill] in E.
  - injection E as <- <-. split; [constructor|reflexivity].
  - destruct (randomize q) as [[b q1]|] eqn:R; cbn [bind] in E; [|discriminate].
    destruct (fill n q1) as [[l1 q2]|] eqn:F; cbn [bind] in E; [|discriminate]. injection E as <- <-.
    apply IH in F. destruct F as [F1 F2]. apply randomize_ok in R. split; [constructor; auto|cbn; lia].
Qed.

Lemma dump_shape : forall t size r draws e, elastic_create t = Ok t -> elastic_dump t size r draws = Ok e -> shape t e.
Proof.
  intros t size r draws e C E. unfold elastic_create in C. unfold elastic_dump in E.
  destruct (N.eqb_spec t 0); [discriminate|]. destruct (N.ltb_spec max_length t); [discriminate|].
  destruct (size <? t); [discriminate|].
  destruct (N.ltb_spec 2 t).
  - pose proof (size_digits_small t ltac:(lia) ltac:(lia)) as S1. pose proof (size_digits_len t ltac:(lia) ltac:(lia)) as S2.
    set (len := N.of_nat (length (size_digits t))) in *.
    destruct (N.ltb_spec t (len + 2)); [lia|].
    set (cur := if len + 2 <? t then r mod (t - (len + 2)) else 0) in *.
    assert (Hc : cur + len + 2 <= t).
    { unfold cur. destruct (N.ltb_spec (len + 2) t); [|lia]. assert (r mod (t - (len + 2)) < t - (len + 2)) by (apply N.mod_lt; lia). lia. }
    destruct (fill (N.to_nat cur) draws) as [[l1 q1]|] eqn:F1; cbn [bind] in E; [|discriminate].
    destruct (fill (N.to_nat (t - (cur + len + 2))) q1) as [[l2 q2]|] eqn:F2; cbn [bind] in E; [|discriminate].
    injection E as <-. apply fill_ok in F1, F2. destruct F1, F2.
    right. right. split; [lia|]. exists l1, (size_digits t), l2. cbn [app low_mark high_mark].
    split; [reflexivity|]. split; auto. split; auto. split; [apply digits254_ok|]. split; [lia|]. split; [apply size_digits_val|].
    repeat (rewrite app_length; cbn [length app]). unfold len in *. lia.
  - destruct (N.eqb_spec t 1); [injection E as <-; left; auto|].
    destruct (N.eqb_spec t 2); [injection E as <-; right; left; auto|discriminate].
Qed.

Lemma shape_length : forall t e, shape t e -> N.of_nat (length e) = t.
Proof. intros t e [[-> ->]|[[-> ->]|(H & l1 & ds & l2 & _ & _ & _ & _ & _ & _ & L)]]; auto. Qed.

(** ** reading back from a file *)
Definition oriented (d : dir) (e : list N) : list N := match d with forward => e | backward => rev e end.

Lemma oriented_shape : forall d l1 ds l2, oriented d (l1 ++ 255 :: ds ++ 254 :: l2) =
  oriented d (match d with forward => l1 | backward => l2 end) ++ first_mark d false ::
  oriented d ds ++ last_mark d false :: oriented d (match d with forward => l2 | backward => l1 end).
Proof.
  intros [|] l1 ds l2; cbn [oriented first_mark last_mark low_mark high_mark]; auto.
  rewrite rev_app_distr. cbn [rev]. rewrite rev_app_distr. cbn [rev]. rewrite <- !app_assoc. reflexivity.
Qed.
Lemma oriented_length : forall d l, length (oriented d l) = length l.
Proof. intros [|] l; cbn; auto using rev_length. Qed.
Lemma oriented_Forall : forall (P : N -> Prop) d l, Forall P l -> Forall P (oriented d l).
Proof. intros P [|] l H; cbn; auto using Forall_rev. Qed.

(** position reached when the size is [taille] and [count] bytes have been read *)
Definition final_skip (d : dir) (taille count : N) (f : gfile) : gfile :=
  if count <? taille then
    match d with
    | forward => snd (g_skip_relative (to_S_I (Z.of_N (taille - count))) f)
    | backward => snd (g_skip_relative (to_S_I (Z.of_N (4294967296 + count - taille))) f)
    end
  else f.

Lemma max_length_u32 : max_length < 4294967296.
Proof. reflexivity. Qed.

Lemma elastic_read_shape : forall d f taille e r, in_file f -> taille <= max_length -> shape taille e ->
  view d f = oriented d e ++ r ->
  exists count, (0 < count)%nat /\ (count <= length e)%nat /\
    (taille <= 2 \/ exists l1 ds l2, e = l1 ++ 255 :: ds ++ 254 :: l2 /\ fillers l1 /\ fillers l2 /\ (length ds <= 4)%nat /\
       count = (length (match d with forward => l1 | backward => l2 end) + length ds + 2)%nat) /\
    elastic_read d false f = Ok (taille, final_skip d taille (N.of_nat count) (moved d f count)).
Proof.
  intros d f taille e r Hin Hmax Hs V. pose proof (shape_length _ _ Hs) as Ln. pose proof max_length_u32 as M32.
  assert (Ldat : (length e <= length (fdata f))%nat).
  { pose proof (view_length d f Hin) as W. rewrite V, app_length, oriented_length in W. lia. }
  destruct Hs as [[-> ->]|[[-> ->]|(H & l1 & ds & l2 & -> & F1 & F2 & Dd & Ld & Vd & Le)]].
  - exists 1%nat. split; [lia|]. split; [cbn; lia|]. split; [left; lia|].
    assert (V1 : view d f = [] ++ 88 :: r) by (destruct d; exact V).
    destruct (scan_first_ok [] (S (length (fdata f))) d f 0 0 88 r Hin V1 ltac:(constructor) ltac:(auto) ltac:(cbn; lia) ltac:(cbn; lia)) as (E & I & W).
    unfold elastic_read. rewrite E. cbn [bind length Nat.add]. reflexivity.
  - exists 2%nat. split; [lia|]. split; [cbn; lia|]. split; [left; lia|].
    assert (V1 : view d f = [] ++ first_mark d false :: last_mark d false :: r) by (destruct d; exact V).
    destruct (scan_first_ok [] (S (length (fdata f))) d f 0 0 _ _ Hin V1 ltac:(constructor) ltac:(auto) ltac:(cbn; lia) ltac:(cbn; lia)) as (E & I & W).
    unfold elastic_read. rewrite E. cbn [bind length Nat.add] in *.
    assert (fdata (moved d f 1) = fdata f) as -> by reflexivity.
    destruct (scan_digits_ok [] (S (length (fdata f))) d (moved d f 1) (first_mark d false) 0 1 1 0 r I W ltac:(constructor) ltac:(cbn; lia) ltac:(cbn; lia) ltac:(cbn; lia)) as (E2 & I2 & W2).
    cbn [length Nat.add] in *. rewrite moved_moved in *.
    assert ((first_mark d false =? SINGLE_MARK) = false) as -> by (destruct d; reflexivity).
    rewrite N.eqb_refl. cbn [negb andb]. change (U32 (0 + N.of_nat 0 + 1)) with 1. rewrite E2. cbn [bind].
    rewrite N.eqb_refl. cbn. reflexivity.
  - rewrite (oriented_shape d) in V.
    set (m1 := oriented d (match d with forward => l1 | backward => l2 end)) in *.
    set (m2 := oriented d (match d with forward => l2 | backward => l1 end)) in *.
    set (dd := oriented d ds) in *.
    assert (Ldd : length dd = length ds) by (apply oriented_length).
    assert (Fm1 : fillers m1) by (apply oriented_Forall; destruct d; auto).
    assert (Ddd : digits_ok dd) by (apply oriented_Forall; auto).
    assert (Ll : (length m1 + length m2 = length l1 + length l2)%nat).
    { unfold m1, m2. rewrite !oriented_length. destruct d; lia. }
    repeat (rewrite app_length in Le; cbn [length] in Le). repeat (rewrite app_length in Ldat; cbn [length] in Ldat).
    rewrite <- app_assoc in V. cbn [app] in V. rewrite <- app_assoc in V. cbn [app] in V.
    destruct (scan_first_ok m1 (S (length (fdata f))) d f 0 0 _ _ Hin V Fm1 ltac:(auto) ltac:(lia) ltac:(lia)) as (E & I & W).
    set (c1 := (length m1 + 1)%nat) in *.
    destruct (scan_digits_ok dd (S (length (fdata f))) d (moved d f c1) (first_mark d false) 0 1 (N.of_nat c1) 0 _ I W Ddd ltac:(lia) ltac:(lia) ltac:(lia)) as (E2 & I2 & W2).
    rewrite moved_moved in E2, I2, W2.
    exists (c1 + (length dd + 1))%nat. split; [lia|].
    split. { repeat (rewrite app_length; cbn [length]). lia. }
    split. { right. exists l1, ds, l2. repeat (split; auto); try lia. unfold c1, m1. rewrite oriented_length. destruct d; lia. }
    unfold elastic_read. rewrite E. cbn [bind].
    assert ((first_mark d false =? SINGLE_MARK) = false) as -> by (destruct d; reflexivity).
    rewrite N.eqb_refl. cbn [negb andb]. rewrite U32_small by lia.
    replace (0 + N.of_nat (length m1) + 1) with (N.of_nat c1) by lia.
    assert (fdata (moved d f c1) = fdata f) as -> by reflexivity.
    rewrite E2. cbn [bind]. rewrite N.eqb_refl. cbn [negb].
    assert (Vf : fst (fold_digits d dd 0 1) = taille).
    { rewrite <- Vd. apply fold_dir; auto; lia. }
    rewrite Vf. assert ((taille =? 0) = false) as -> by (apply N.eqb_neq; lia). cbn [andb].
    destruct (N.ltb_spec taille 3); [lia|]. cbn [bind].
    rewrite (U32_small (N.of_nat c1 + N.of_nat (length dd) + 1)) by lia.
    replace (N.of_nat c1 + N.of_nat (length dd) + 1) with (N.of_nat (c1 + (length dd + 1))) by lia.
    unfold final_skip.
    destruct (N.ltb_spec (N.of_nat (c1 + (length dd + 1))) taille).
    + rewrite (U32_small (taille - N.of_nat (c1 + (length dd + 1)))) by lia.
      rewrite (U32_small (N.of_nat (c1 + (length dd + 1)) + 4294967296 - taille)) by lia.
      rewrite (N.add_comm 4294967296). destruct d; reflexivity.
    + destruct (N.ltb_spec taille (N.of_nat (c1 + (length dd + 1)))); [lia|reflexivity].
Qed.

Lemma final_skip_ok : forall d taille count f, count <= taille -> taille - count < 2147483648 -> in_file f ->
  (d = backward -> (N.to_nat (taille - count) <= fpos f)%nat) ->
  final_skip d taille count f = moved d f (N.to_nat (taille - count)).
Proof.
  intros d taille count f H1 H2 Hin Hb. unfold final_skip.
  destruct (N.ltb_spec count taille).
  - destruct d.
    + rewrite to_S_I_small by lia. unfold g_skip_relative, moved.
      destruct (Z.ltb_spec (Z.of_nat (fpos f) + Z.of_N (taille - count)) 0); [lia|]. cbn [snd]. f_equal. lia.
    + specialize (Hb eq_refl).
      assert (to_S_I (Z.of_N (4294967296 + count - taille)) = (- Z.of_N (taille - count))%Z) as ->.
      { unfold to_S_I.
        replace (Z.of_N (4294967296 + count - taille) + 2147483648)%Z with (2147483648 - Z.of_N (taille - count) + 1 * 4294967296)%Z by lia.
        rewrite Z.mod_add by lia. rewrite Z.mod_small by lia. lia. }
      unfold g_skip_relative, moved.
      destruct (Z.ltb_spec (Z.of_nat (fpos f) + - Z.of_N (taille - count)) 0); [lia|]. cbn [snd]. f_equal. lia.
  - replace (taille - count) with 0 by lia. rewrite moved_0. reflexivity.
Qed.

(** ** reading back from a buffer *)
Definition bview (d : dir) (buf : list N) (pos : N) : list N :=
  if pos <? N.of_nat (length buf) then
    match d with forward => skipn (N.to_nat pos) buf | backward => rev (firstn (S (N.to_nat pos)) buf) end
  else [].

Lemma bview_cons : forall d buf pos b r, N.of_nat (length buf) < 4294967295 -> bview d buf pos = b :: r ->
  (pos <? N.of_nat (length buf)) = true /\ buf_at buf pos = b /\ bview d buf (pos_step d pos) = r /\
  pos_step d pos = (match d with forward => pos + 1 | backward => U32 (pos + 4294967295) end).
Proof.
  intros d buf pos b r Hs V. unfold bview in *. destruct (N.ltb_spec pos (N.of_nat (length buf))) as [L|L]; [|discriminate].
  split; auto.
  assert (Hn : (N.to_nat pos < length buf)%nat) by lia.
  destruct (nth_error buf (N.to_nat pos)) as [c|] eqn:E; [|apply nth_error_None in E; lia].
  assert (Hb : buf_at buf pos = c) by (unfold buf_at; apply nth_error_nth with (d := 0) in E; exact E).
  destruct d.
  - rewrite (skipn_nth_error _ _ _ _ E) in V. assert (Hr : r = skipn (S (N.to_nat pos)) buf) by congruence.
    assert (c = b) by congruence. subst c r. split; auto.
    unfold pos_step. rewrite U32_small by lia. split; [|reflexivity].
    destruct (N.ltb_spec (pos + 1) (N.of_nat (length buf))).
    + replace (N.to_nat (pos + 1)) with (S (N.to_nat pos)) by lia. reflexivity.
    + rewrite skipn_all2 by lia. reflexivity.
  - assert (Fs : firstn (S (N.to_nat pos)) buf = firstn (N.to_nat pos) buf ++ [c]).
    { rewrite <- (firstn_skipn (N.to_nat pos) buf) at 1. rewrite firstn_app, firstn_length.
      replace (S (N.to_nat pos) - Nat.min (N.to_nat pos) (length buf))%nat with 1%nat by lia.
      rewrite (skipn_nth_error _ _ _ _ E). rewrite firstn_all2 by (rewrite firstn_length; lia). reflexivity. }
    rewrite Fs, rev_app_distr in V. cbn [rev app] in V. injection V as <- <-. split; auto. split; [|reflexivity].
    cbn [pos_step]. destruct (N.eq_dec pos 0) as [->|Hp].
    + change (U32 (0 + 4294967295)) with 4294967295. destruct (N.ltb_spec 4294967295 (N.of_nat (length buf))); [lia|]. reflexivity.
    + assert (U32 (pos + 4294967295) = pos - 1) as ->.
      { unfold U32. replace (pos + 4294967295) with (pos - 1 + 1 * 4294967296) by lia. rewrite N.mod_add by lia.
        apply N.mod_small. lia. }
      destruct (N.ltb_spec (pos - 1) (N.of_nat (length buf))); [|lia].
      replace (S (N.to_nat (pos - 1))) with (N.to_nat pos) by lia. reflexivity.
Qed.

Lemma buf_scan_ok : forall m fuel d buf pos b r, N.of_nat (length buf) < 4294967295 -> bview d buf pos = m ++ b :: r ->
  fillers m -> b = first_mark d false \/ b = 88 -> (length m < fuel)%nat ->
  exists pos', buf_scan fuel d false buf pos = Ok pos' /\ bview d buf pos' = b :: r /\ (m = [] -> pos' = pos).
Proof.
  induction m as [|x m IH]; intros fuel d buf pos b r Hs V Hm Hb Hf; (destruct fuel as [|k]; [cbn in Hf; lia|]).
  - cbn [app] in V. destruct (bview_cons d buf pos b r Hs V) as (L & B & V' & _). cbn [buf_scan]. rewrite L, B. cbn [andb].
    exists pos. split; auto.
    assert (negb (b =? SINGLE_MARK) && negb (b =? first_mark d false) = false) as ->; auto.
    destruct Hb as [->| ->]; unfold SINGLE_MARK; rewrite N.eqb_refl, ?andb_false_r; reflexivity.
  - cbn [app] in V. inversion Hm as [|y l Hx Hm']; subst. cbn [length] in Hf.
    destruct (bview_cons d buf pos x _ Hs V) as (L & B & V' & _). cbn [buf_scan]. rewrite L, B. cbn [andb].
    destruct Hx as (X1 & X2 & X3).
    assert (negb (x =? SINGLE_MARK) && negb (x =? first_mark d false) = true) as ->.
    { unfold SINGLE_MARK. destruct (N.eqb_spec x 88); [contradiction|]. cbn [negb andb]. destruct d; cbn; apply negb_true_iff, N.eqb_neq; auto. }
    destruct (IH k d buf _ b r Hs V' Hm' Hb ltac:(lia)) as (pos' & E & V2 & _). exists pos'. split; auto. split; auto. discriminate.
Qed.

Lemma buf_digits_ok : forall ds fuel d buf pos t p bc r, N.of_nat (length buf) < 4294967295 ->
  bview d buf pos = ds ++ last_mark d false :: r -> digits_ok ds -> (length ds < fuel)%nat -> bc + N.of_nat (length ds) <= 4 ->
  exists pos', buf_digits fuel d false buf pos t p bc = Ok (pos', fst (fold_digits d ds t p), bc + N.of_nat (length ds)) /\
    pos' < N.of_nat (length buf).
Proof.
  induction ds as [|x ds IH]; intros fuel d buf pos t p bc r Hs V Hd Hf Hb; (destruct fuel as [|k]; [cbn in Hf; lia|]).
  - cbn [app] in V. destruct (bview_cons d buf pos _ r Hs V) as (L & B & V' & _). cbn [buf_digits]. rewrite L, B, N.eqb_refl. cbn [andb negb].
    exists pos. cbn [length]. rewrite N.add_0_r. split; [reflexivity|lia].
  - cbn [app] in V. inversion Hd as [|y l Hx Hd']; subst. cbn [length] in *.
    destruct (bview_cons d buf pos x _ Hs V) as (L & B & V' & _). cbn [buf_digits]. rewrite L, B. cbn [andb].
    assert ((x =? last_mark d false) = false) as -> by (apply N.eqb_neq; destruct d; cbn; lia). cbn [negb].
    rewrite fold_digits_cons. cbn [base_from_version]. destruct (digit_step d 254 t p x) as [t1 p1]. cbn [fst snd].
    destruct (N.ltb_spec 4 (bc + 1)); [lia|].
    destruct (IH k d buf _ t1 p1 (bc + 1) r Hs V' Hd' ltac:(lia) ltac:(lia)) as (pos' & E & L2).
    exists pos'. rewrite E. split; auto. do 2 f_equal. lia.
Qed.

Lemma bview_start : forall d buf, buf <> [] -> N.of_nat (length buf) < 4294967295 ->
  bview d buf (match d with forward => 0 | backward => U32 (N.of_nat (length buf) + 4294967295) end) = oriented d buf.
Proof.
  intros d buf Hn Hs. assert (length buf <> 0)%nat by (destruct buf; cbn; congruence). unfold bview. destruct d.
  - destruct (N.ltb_spec 0 (N.of_nat (length buf))); [reflexivity|lia].
  - assert (U32 (N.of_nat (length buf) + 4294967295) = N.of_nat (length buf) - 1) as ->.
    { unfold U32. replace (N.of_nat (length buf) + 4294967295) with (N.of_nat (length buf) - 1 + 1 * 4294967296) by lia.
      rewrite N.mod_add by lia. apply N.mod_small. lia. }
    destruct (N.ltb_spec (N.of_nat (length buf) - 1) (N.of_nat (length buf))); [|lia].
    cbn [oriented]. rewrite firstn_all2 by lia. reflexivity.
Qed.

Lemma elastic_read_buffer_shape : forall d buf taille e r, N.of_nat (length buf) < 4294967295 -> taille <= max_length ->
  shape taille e -> oriented d buf = oriented d e ++ r -> elastic_read_buffer d false buf = Ok taille.
Proof.
  intros d buf taille e r Hs Hmax Hsh V. pose proof (shape_length _ _ Hsh) as Ln.
  assert (Hl : (length e <= length buf)%nat).
  { rewrite <- (oriented_length d buf), V, app_length, oriented_length. lia. }
  assert (Hne : buf <> []).
  { intro Q. subst buf. cbn in Hl. destruct Hsh as [[-> _]|[[-> _]|[H _]]]; lia. }
  unfold elastic_read_buffer. destruct (N.leb_spec 4294967295 (N.of_nat (length buf))); [lia|].
  pose proof (bview_start d buf Hne Hs) as V0. rewrite V in V0.
  set (p0 := match d with forward => 0 | backward => U32 (N.of_nat (length buf) + 4294967295) end) in *.
  destruct Hsh as [[-> ->]|[[-> ->]|(H1 & l1 & ds & l2 & -> & F1 & F2 & Dd & Ld & Vd & Le)]].
  - assert (V1 : bview d buf p0 = [] ++ 88 :: r) by (rewrite V0; destruct d; reflexivity).
    destruct (buf_scan_ok [] (S (length buf)) d buf p0 88 r Hs V1 ltac:(constructor) ltac:(auto) ltac:(cbn; lia)) as (p1 & E & V2 & Q).
    rewrite E, (Q eq_refl). cbn [bind]. destruct (bview_cons d buf p0 88 r Hs V1) as (L & B & _ & _).
    destruct (N.leb_spec (N.of_nat (length buf)) p0); [lia|]. rewrite B. change (88 =? SINGLE_MARK) with true. cbn iota. rewrite N.eqb_refl. reflexivity.
  - assert (V1 : bview d buf p0 = [] ++ first_mark d false :: last_mark d false :: r) by (rewrite V0; destruct d; reflexivity).
    destruct (buf_scan_ok [] (S (length buf)) d buf p0 _ _ Hs V1 ltac:(constructor) ltac:(auto) ltac:(cbn; lia)) as (p1 & E & V2 & Q).
    rewrite E. cbn [bind]. destruct (bview_cons d buf p1 _ _ Hs V2) as (L & B & V3 & _).
    destruct (N.leb_spec (N.of_nat (length buf)) p1); [lia|]. rewrite B.
    assert ((first_mark d false =? SINGLE_MARK) = false) as -> by (destruct d; reflexivity).
    destruct (buf_digits_ok [] (S (length buf)) d buf _ 0 1 0 r Hs V3 ltac:(constructor) ltac:(cbn; lia) ltac:(cbn; lia)) as (p2 & E2 & L2).
    rewrite E2. cbn [bind]. destruct (N.leb_spec (N.of_nat (length buf)) p2); [lia|]. reflexivity.
  - rewrite (oriented_shape d) in V0.
    set (m1 := oriented d (match d with forward => l1 | backward => l2 end)) in *.
    set (m2 := oriented d (match d with forward => l2 | backward => l1 end)) in *.
    set (dd := oriented d ds) in *.
    assert (Ldd : length dd = length ds) by (apply oriented_length).
    assert (Fm1 : fillers m1) by (apply oriented_Forall; destruct d; auto).
    assert (Ddd : digits_ok dd) by (apply oriented_Forall; auto).
    assert (Ll : (length m1 + length m2 = length l1 + length l2)%nat).
    { unfold m1, m2. rewrite !oriented_length. destruct d; lia. }
    repeat (rewrite app_length in Hl; cbn [length] in Hl).
    rewrite <- app_assoc in V0. cbn [app] in V0. rewrite <- app_assoc in V0. cbn [app] in V0.
    destruct (buf_scan_ok m1 (S (length buf)) d buf p0 _ _ Hs V0 Fm1 ltac:(auto) ltac:(lia)) as (p1 & E & V2 & _).
    rewrite E. cbn [bind]. destruct (bview_cons d buf p1 _ _ Hs V2) as (L & B & V3 & _).
    destruct (N.leb_spec (N.of_nat (length buf)) p1); [lia|]. rewrite B.
    assert ((first_mark d false =? SINGLE_MARK) = false) as -> by (destruct d; reflexivity).
    destruct (buf_digits_ok dd (S (length buf)) d buf _ 0 1 0 _ Hs V3 Ddd ltac:(lia) ltac:(lia)) as (p2 & E2 & L2).
    rewrite E2. cbn [bind]. destruct (N.leb_spec (N.of_nat (length buf)) p2); [lia|].
    assert (Vf : fst (fold_digits d dd 0 1) = taille).
    { rewrite <- Vd. apply fold_dir; auto; lia. }
    rewrite Vf. assert ((taille =? 0) = false) as -> by (apply N.eqb_neq; lia). cbn [andb].
    destruct (N.ltb_spec taille 3); [lia|reflexivity].
Qed.

(** dump always succeeds when there is room and enough acceptable random values *)
Definition ok_draw (r : N) : bool :=
  negb ((r mod 256 =? SINGLE_MARK) || (r mod 256 =? low_mark false) || (r mod 256 =? high_mark false)).
Lemma randomize_total : forall draws, (0 < length (filter ok_draw draws))%nat ->
  exists b q, randomize draws = Ok (b, q) /\ (length (filter ok_draw q) = length (filter ok_draw draws) - 1)%nat.
Proof.
  induction draws as [|r q IH]; cbn [filter length]; intro H; [lia|]. cbn [randomize]. unfold ok_draw at 2. unfold ok_draw at 1 in H.
  destruct ((r mod 256 =? SINGLE_MARK) || (r mod 256 =? low_mark false) || (r mod 256 =? high_mark false)) eqn:E; cbn [negb] in *.
  - apply IH. exact H.
  - eexists. exists q. split; [reflexivity|]. cbn [length]. lia.
Qed.
Lemma fill_total : forall n draws, (n <= length (filter ok_draw draws))%nat ->
  exists l q, fill n draws = Ok (l, q) /\ (length (filter ok_draw q) = length (filter ok_draw draws) - n)%nat.
Proof.
  induction n as [|n IH]; intros draws H; cbn [fill].
  - exists [], draws. split; auto. lia.
  - destruct (randomize_total draws ltac:(lia)) as (b & q & E & L). rewrite E. cbn [bind].
    destruct (IH q ltac:(lia)) as (l & q2 & E2 & L2). rewrite E2. cbn [bind]. exists (b :: l), q2. split; auto. lia.
Qed.
