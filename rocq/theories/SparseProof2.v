(** * Proofs about the sparse file layer: reading. *)
From Verif Require Import Base NumModel FileModel InfinintModel InfinintProof2 CrcModel CrcProof EscapeModel EscapeSpec EscapeProof EscapeProof2 EscapeProof3 EscapeProof4 SparseModel SparseProof.
Open Scope nat_scope.

(** the stream does not end by a start of the fixed sequence *)
Definition tail_safe (its : list item) : Prop := forall x p q, its = x ++ map D p -> p <> [] -> fixed S0 <> p ++ q.
Lemma tail_safe_app : forall a b, tail_safe (a ++ b) -> tail_safe b.
Proof. intros a b H x p q E. apply (H (a ++ x)). rewrite E, app_assoc. reflexivity. Qed.
Lemma S0_ok : s0_ok S0.
Proof. unfold s0_ok, S0. lia. Qed.
Lemma denotes_no_bad : forall m its d, denotes m its d -> ~ In Bad its.
Proof.
  intros m its d H. induction H as [|b its d H IH|n its d Hn H IH]; [intros []|intros [X|X]; [discriminate|tauto]|].
  intros [X|X]; [discriminate|]. apply in_app_or in X as [X|X]; [|tauto]. apply in_map_iff in X as (y & X & _). discriminate.
Qed.
Lemma denotes_weaken : forall m its d, denotes m its d -> denotes 0 its d.
Proof. intros m its d H. induction H; constructor; auto. lia. Qed.
Lemma denotes_split : forall m ds its d, denotes m (map D ds ++ its) d -> exists d', d = ds ++ d' /\ denotes m its d'.
Proof.
  intros m ds. induction ds as [|b ds IH]; intros its d H; cbn in H; [exists d; auto|]. inversion H as [|b' its' d' H' E1 E2|]. subst. destruct (IH _ _ H') as (d2 & -> & H2). exists d2. auto.
Qed.
Lemma parse_f_len : forall fuel s0 l, length (parse_f fuel s0 l) <= length l.
Proof.
  induction fuel as [|k IH]; intros s0 l; cbn [parse_f]; [cbn; lia|]. destruct l as [|b r]; [cbn; lia|].
  assert (H0 : length (D b :: parse_f k s0 r) <= length (b :: r)) by (cbn [length]; pose proof (IH s0 r); lia).
  destruct (starts s0 (b :: r)); [|exact H0]. destruct (nth_error (b :: r) 5) as [c|] eqn:E; [|exact H0].
  assert (H : 5 < length (b :: r)) by (apply nth_error_Some; rewrite E; discriminate). pose proof (IH s0 (skipn 6 (b :: r))) as Q. rewrite skipn_length in Q.
  destruct (char2type c) as [[]|]; rewrite ?app_length, ?map_length; change (length (fixed s0)) with 5 in *; change (length [Bad]) with 1; cbn [length] in *; lia.
Qed.
Lemma abs_len : forall s0 r, rinv s0 r -> length (abs s0 r) + 3 <= r_fuel r.
Proof.
  intros s0 r (H1 & _). unfold abs, parse. rewrite app_length, map_length, slice_length by lia. generalize (length (skipn (eo r) (rb r) ++ rest_below r)) as k. intro k.
  pose proof (parse_f_len k s0 (skipn (eo r) (rb r) ++ rest_below r)) as P. rewrite app_length, skipn_length in P. pose proof (rest_le r). unfold r_fuel. lia.
Qed.

(** reading when data is there *)
Lemma read_data : forall n r ds its, rinv S0 r -> abs S0 r = map D ds ++ its -> ~ In Bad its -> tail_safe (abs S0 r) -> n <= length ds ->
  exists r', read S0 n r = Ok (firstn n ds, r') /\ rinv S0 r' /\ abs S0 r' = map D (skipn n ds) ++ its.
Proof.
  intros n r ds its Hi A Hb Ht Hn. assert (Hb' : ~ In Bad (abs S0 r)).
  { rewrite A. intro X. apply in_app_or in X as [X|X]; [|tauto]. apply in_map_iff in X as (y & X & _). discriminate. }
  destruct (read_spec S0 n r S0_ok Hi Hb') as (d & r' & E & I' & A' & L & S').
  assert (Q : length d = n).
  { destruct (Nat.eq_dec (length d) n) as [Q|Q]; [exact Q|exfalso]. destruct (S' ltac:(lia)) as [X|[X|(p & q & X1 & X2 & X3 & _)]].
    - rewrite X, app_nil_r, A in A'. apply (f_equal (@length item)) in A'. rewrite app_length, !map_length in A'. lia.
    - rewrite A in A'. destruct X as (t & w & X). rewrite X in A'.
      assert (Y : nth_error (map D ds ++ its) (length d) = Some (M t)) by (rewrite A', nth_error_app2, map_length, Nat.sub_diag by (rewrite map_length; lia); reflexivity).
      rewrite nth_error_app1 in Y by (rewrite map_length; lia). rewrite nth_error_map in Y. destruct (nth_error ds (length d)); discriminate.
    - apply (Ht (map D d) p q); [rewrite A', X3; reflexivity|exact X1|exact X2]. }
  rewrite A, <- (firstn_skipn n ds), map_app, <- app_assoc in A'.
  assert (Z : map D (firstn n ds) = map D d /\ map D (skipn n ds) ++ its = abs S0 r').
  { clear -A' Q Hn. assert (length (map D (firstn n ds)) = length (map D d)) by (rewrite !map_length, firstn_length; lia).
    revert A' H. generalize (map D (firstn n ds)) (map D d) (map D (skipn n ds) ++ its) (abs S0 r'). induction l as [|x l IH]; intros [|y l0] l1 l2 E L; cbn in *; try lia; [auto|].
    injection E as -> E. destruct (IH l0 l1 l2 E ltac:(lia)) as [-> ->]. auto. }
  destruct Z as [Z1 Z2]. exists r'. split; [|split; [exact I'|congruence]]. rewrite E. do 2 f_equal.
  clear -Z1. revert Z1. generalize (firstn n ds). intro l. revert d. induction l as [|x l IH]; intros [|y d] E; cbn in E; try discriminate; [reflexivity|]. injection E as -> E. f_equal. apply IH; exact E.
Qed.
(** reading up to the next mark or the end *)
Lemma read_any : forall n r its d, rinv S0 r -> abs S0 r = its -> denotes 0 its d -> tail_safe its ->
  exists ds r' its' d', read S0 n r = Ok (ds, r') /\ rinv S0 r' /\ abs S0 r' = its' /\ its = map D ds ++ its' /\ denotes 0 its' d' /\ d = ds ++ d' /\ length ds <= n /\
    (length ds < n -> its' = [] \/ exists w, its' = M seqt_file :: w).
Proof.
  intros n r its d Hi A Hd Ht. subst its. destruct (read_spec S0 n r S0_ok Hi (denotes_no_bad _ _ _ Hd)) as (ds & r' & E & I' & A' & L & S').
  rewrite A' in Hd. destruct (denotes_split _ _ _ _ Hd) as (d' & -> & Hd'). exists ds, r', (abs S0 r'), d'. repeat (split; auto). intro Q. destruct (S' Q) as [X|[X|(p & q & X1 & X2 & X3 & _)]].
  - left; exact X.
  - right. destruct X as (t & w & X). rewrite X in Hd' |- *. inversion Hd'; subst. eauto.
  - exfalso. apply (Ht (map D ds) p q); [rewrite A', X3; reflexivity|exact X1|exact X2].
Qed.
(** the size of a hole *)
Lemma read_inf_spec : forall f fuel skip r its a rest, inf_read_from f skip = Ok (a, rest) -> rinv S0 r -> abs S0 r = map D f ++ its -> ~ In Bad its -> tail_safe (abs S0 r) ->
  length f <= fuel -> exists r', read_inf fuel skip r = Ok (inf_value a, r') /\ rinv S0 r' /\ abs S0 r' = map D rest ++ its.
Proof.
  induction f as [|b f IH]; intros fuel skip r its a rest E Hi A Hb Ht Hf; cbn [inf_read_from] in E; [discriminate|]. destruct fuel as [|k]; [cbn in Hf; lia|]. cbn [length] in Hf.
  destruct (read_data 1 r (b :: f) its Hi A Hb Ht ltac:(cbn; lia)) as (r1 & E1 & I1 & A1). cbn [firstn skipn] in *. cbn [read_inf]. rewrite E1. cbn [bind].
  assert (T1 : tail_safe (abs S0 r1)) by (rewrite A1; rewrite A in Ht; apply (tail_safe_app [D b]); exact Ht).
  destruct (b =? 0)%N; [apply (IH k (skip + 1)%N r1 its a rest); auto; lia|].
  destruct (negb (fold_left N.add (expand_byte b) 0 =? 1)%N); [discriminate|]. set (len := ((skip * 8 + (first_one (expand_byte b) + 1)) * TG)%N) in *.
  destruct (N.ltb_spec (N.of_nat (length (firstn (N.to_nat len) f))) len) as [Q|Q]; [discriminate|]. injection E as <- <-. rewrite firstn_length in Q.
  destruct (read_data (N.to_nat len) r1 f its I1 A1 Hb T1 ltac:(lia)) as (r2 & E2 & I2 & A2). cbn [fill]. rewrite E2. cbn [bind]. rewrite firstn_length.
  replace (Nat.min (N.to_nat len) (length f) <? N.to_nat len) with false by lia. cbn [bind]. exists r2. auto.
Qed.
Lemma read_hole_spec : forall n r its, rinv S0 r -> abs S0 r = map D (dumpN n) ++ its -> ~ In Bad its -> tail_safe (abs S0 r) ->
  exists r', read_hole_size r = Ok (n, r') /\ rinv S0 r' /\ abs S0 r' = its.
Proof.
  intros n r its Hi A Hb Ht. pose proof (readN_dumpN n []) as R. unfold readN in R. rewrite app_nil_r in R. unfold inf_read in R.
  destruct (inf_read_from (dumpN n) 0) as [[a rest]|] eqn:E; cbn [bind] in R; [|discriminate]. injection R as Ra Rb. subst rest.
  pose proof (abs_len S0 r Hi) as L. rewrite A, app_length, map_length in L.
  destruct (read_inf_spec (dumpN n) (r_fuel r) 0 r its a [] E Hi A Hb Ht ltac:(lia)) as (r' & E' & I' & A'). exists r'. unfold read_hole_size. rewrite E', Ra. auto.
Qed.
(** meeting a hole *)
Lemma meet_hole : forall r w d, rinv S0 r -> abs S0 r = M seqt_file :: w -> denotes 0 (M seqt_file :: w) d -> tail_safe (M seqt_file :: w) ->
  exists n its d' r1 r2 r3, w = map D (dumpN n) ++ its /\ (0 < n)%N /\ d = repeat 0%N (N.to_nat n) ++ d' /\ denotes 0 its d' /\ tail_safe its /\
    next_to_read_is_which_mark S0 r = Ok (Some seqt_file, r1) /\ skip_to_next_mark S0 seqt_file false [] r1 = Ok (true, r2) /\ read_hole_size r2 = Ok (n, r3) /\
    rinv S0 r3 /\ abs S0 r3 = its.
Proof.
  intros r w d Hi A Hd Ht. inversion Hd as [| |n its d' Hn Hd' E1 E2]; subst.
  pose proof (denotes_no_bad _ _ _ Hd) as Hb. pose proof (which_mark_spec S0 r S0_ok Hi) as W. rewrite A in W. destruct (W Hb) as (r1 & E1 & I1 & A1).
  destruct (skip_spec S0 seqt_file false [] r1 S0_ok I1) as (found & r2 & E2 & I2 & F2 & F3 & _); [rewrite A1; exact Hb|]. rewrite A1 in F2, F3. cbn in F2. subst found. specialize (F3 eq_refl). cbn in F3.
  destruct (read_hole_spec n r2 its I2 F3 (denotes_no_bad _ _ _ Hd')) as (r3 & E3 & I3 & A3).
  { rewrite F3. apply (tail_safe_app [M seqt_file]). exact Ht. }
  exists n, its, d', r1, r2, r3. repeat (split; auto). apply (tail_safe_app (M seqt_file :: map D (dumpN n))). exact Ht.
Qed.
Lemma meet_end : forall r, rinv S0 r -> abs S0 r = [] -> exists r', next_to_read_is_which_mark S0 r = Ok (None, r') /\ rinv S0 r' /\ abs S0 r' = [].
Proof.
  intros r Hi A. pose proof (which_mark_spec S0 r S0_ok Hi) as W. rewrite A in W. destruct (W ltac:(intros [])) as [H|[_ (its & X)]]; [exact H|]. discriminate.
Qed.

(** [d] is left to read at position [pos] *)
Definition rel (r : rsp) (pos : nat) (d : list N) : Prop :=
  exists its d', rinv S0 (rs_esc r) /\ abs S0 (rs_esc r) = its /\ denotes 0 its d' /\ tail_safe its /\ d = repeat 0%N (N.to_nat (rs_zeros r)) ++ d' /\
    rs_offset r = (N.of_nat pos + rs_zeros r)%N /\
    (rs_mode r = normal -> rs_zeros r = 0%N) /\ (rs_mode r = hole -> rs_zeros r = 0%N -> its = [] \/ exists w, its = M seqt_file :: w).
Definition mu (need : nat) (r : rsp) : nat := 4 * need + match rs_mode r with normal => 3 | hole => if (rs_zeros r =? 0)%N then 2 else 1 end.
Lemma rs_loop_spec : forall fuel n got r pos d, rel r pos d -> length got <= n -> mu (n - length got) r <= fuel ->
  exists r', rs_loop fuel n got r = Ok (got ++ firstn (n - length got) d, r') /\ rel r' (pos + length (firstn (n - length got) d)) (skipn (n - length got) d).
Proof.
  induction fuel as [|k IH]; intros n got r pos d HR Hg Hf.
  { unfold mu in Hf. destruct (rs_mode r); [lia|]. destruct (_ =? _)%N; lia. }
  cbn [rs_loop]. destruct (Nat.ltb_spec (length got) n) as [L|L].
  2:{ exists r. replace (n - length got) with 0 by lia. cbn. rewrite app_nil_r, Nat.add_0_r. auto. }
  pose proof HR as (its & d' & Hi & A & Hd & Ht & Ed & Eo & Hn & Hh). destruct (rs_mode r) eqn:Em.
  - specialize (Hn eq_refl). rewrite Hn in Ed, Eo. cbn in Ed. subst d'. destruct (read_any (n - length got) (rs_esc r) its d Hi A Hd Ht) as (ds & e & its' & d2 & E & I' & A' & Ei & Hd' & E2 & L' & S').
    rewrite E. cbn [bind]. rewrite Hn. set (r1 := mk_rs _ _ _ _ _ _).
    assert (R1 : rel r1 (pos + length ds) d2).
    { exists its', d2. cbn [r1 rs_esc rs_zeros rs_offset rs_mode]. split; [exact I'|]. split; [exact A'|]. split; [exact Hd'|]. split; [rewrite Ei in Ht; apply (tail_safe_app (map D ds)); exact Ht|].
      destruct (Nat.ltb_spec (length ds) (n - length got)) as [Q|Q].
      - split; [reflexivity|]. split; [lia|]. split; [discriminate|]. intros _ _. apply S'; exact Q.
      - split; [reflexivity|]. split; [lia|]. split; [auto|discriminate]. }
    destruct (IH n (got ++ ds) r1 (pos + length ds) d2 R1) as (r' & E' & R').
    { rewrite app_length. lia. }
    { unfold mu in *. rewrite Em in Hf. rewrite app_length. cbn [r1 rs_mode rs_zeros]. destruct (Nat.ltb_spec (length ds) (n - length got)); cbn [N.eqb]; lia. }
    rewrite E'. assert (X1 : firstn (n - length got) d = ds ++ firstn (n - length (got ++ ds)) d2).
    { rewrite E2, firstn_app, firstn_all2 by lia. do 2 f_equal. rewrite app_length. lia. }
    assert (X2 : skipn (n - length got) d = skipn (n - length (got ++ ds)) d2).
    { rewrite E2, skipn_app, skipn_all2 by lia. cbn. f_equal. rewrite app_length. lia. }
    exists r'. rewrite X1, X2, app_assoc. split; [reflexivity|]. rewrite (app_length ds), Nat.add_assoc. exact R'.
  - destruct (N.eqb_spec (rs_zeros r) 0) as [Z|Z].
    + specialize (Hh eq_refl Z). rewrite Z in Ed. cbn in Ed. subst d'. destruct Hh as [->|[w ->]].
      * destruct (meet_end _ Hi A) as (e & -> & I' & A'). cbn [bind]. inversion Hd; subst. rewrite firstn_nil, skipn_nil, app_nil_r. eexists. split; [reflexivity|]. cbn [length]. rewrite Nat.add_0_r.
        exists [], []. cbn [rs_esc rs_zeros rs_offset rs_mode]. rewrite Z in *. repeat (split; auto); try constructor.
      * destruct (meet_hole _ w d Hi A Hd Ht) as (m & its & d2 & e1 & e2 & e3 & -> & Hm & E2 & Hd2 & Ht2 & -> & X2 & X3 & I3 & A3). cbn [bind]. rewrite X2. cbn [bind]. rewrite X3. cbn [bind].
        match goal with |- context [rs_loop k n got ?r1] => destruct (IH n got r1 pos d) as (r' & E' & R') end.
        { exists its, d2. cbn [rs_esc rs_zeros rs_offset rs_mode]. split; [exact I3|]. split; [exact A3|]. split; [exact Hd2|]. split; [exact Ht2|]. split; [exact E2|]. split; [lia|]. split; [discriminate|]. intros _ Q; lia. }
        { exact Hg. }
        { unfold mu in *. rewrite Em, Z in Hf. cbn [rs_mode rs_zeros N.eqb] in *. replace (m =? 0)%N with false by lia. lia. }
        exists r'. auto.
    + set (give := Nat.min (n - length got) (N.to_nat (N.min (rs_zeros r) UI_MAX))).
      assert (G : (if (N.of_nat (n - length got) <? N.min (rs_zeros r) UI_MAX)%N then ((n - length got), (rs_zeros r - N.min (rs_zeros r) UI_MAX + (N.min (rs_zeros r) UI_MAX - N.of_nat (n - length got)))%N)
                   else (N.to_nat (N.min (rs_zeros r) UI_MAX), (rs_zeros r - N.min (rs_zeros r) UI_MAX)%N)) = (give, (rs_zeros r - N.of_nat give)%N)).
      { subst give. destruct (N.ltb_spec (N.of_nat (n - length got)) (N.min (rs_zeros r) UI_MAX)); f_equal; lia. }
      rewrite G. assert (Gp : 0 < give) by (subst give; unfold UI_MAX; lia). assert (Gl : give <= n - length got) by (subst give; lia). assert (Gz : (N.of_nat give <= rs_zeros r)%N) by (subst give; lia). clearbody give. clear G.
      set (r1 := mk_rs _ _ _ _ _ _). assert (R1 : rel r1 (pos + give) (skipn give d)).
      { exists its, d'. cbn [r1 rs_esc rs_zeros rs_offset rs_mode]. repeat (split; [assumption|]). split.
        - rewrite Ed, skipn_app, repeat_length. replace (give - N.to_nat (rs_zeros r)) with 0 by lia. cbn [skipn]. f_equal.
          replace (N.to_nat (rs_zeros r)) with (give + N.to_nat (rs_zeros r - N.of_nat give)) by lia. rewrite repeat_app, skipn_app, repeat_length, skipn_all2 by (rewrite repeat_length; lia). cbn.
          rewrite Nat.sub_diag. reflexivity.
        - split; [lia|]. destruct (N.eqb_spec (rs_zeros r - N.of_nat give) 0); split; auto; try discriminate. lia. }
      destruct (IH n (got ++ repeat 0%N give) r1 (pos + give) (skipn give d) R1) as (r' & E' & R').
      { rewrite app_length, repeat_length. lia. }
      { unfold mu in *. rewrite Em in Hf. rewrite app_length, repeat_length. cbn [r1 rs_mode rs_zeros]. destruct (rs_zeros r =? 0)%N; destruct (N.eqb_spec (rs_zeros r - N.of_nat give) 0); try lia. }
      rewrite E'. rewrite app_length, repeat_length in *. exists r'.
      assert (X1 : firstn (n - length got) d = repeat 0%N give ++ firstn (n - (length got + give)) (skipn give d)).
      { rewrite <- (firstn_skipn give (firstn (n - length got) d)), firstn_firstn, Nat.min_l by lia. rewrite skipn_firstn_comm. replace (n - length got - give) with (n - (length got + give)) by lia. f_equal.
        rewrite Ed, firstn_app, repeat_length. replace (give - N.to_nat (rs_zeros r)) with 0 by lia. cbn [firstn]. rewrite app_nil_r.
        replace (N.to_nat (rs_zeros r)) with (give + (N.to_nat (rs_zeros r) - give)) by lia. rewrite repeat_app. apply firstn_app_exact_n. rewrite repeat_length; reflexivity. }
      assert (X2 : skipn (n - length got) d = skipn (n - (length got + give)) (skipn give d)) by (rewrite skipn_skipn; f_equal; lia).
      rewrite X1, X2, app_assoc. split; [reflexivity|]. rewrite (app_length (repeat 0%N give)), repeat_length, Nat.add_assoc. exact R'.
Qed.
Lemma rs_read_spec : forall n r pos d, rel r pos d -> exists r', rs_read n r = Ok (firstn n d, r') /\ rel r' (pos + length (firstn n d)) (skipn n d).
Proof.
  intros n r pos d HR. unfold rs_read. destruct (rs_loop_spec (4 * (n + length (fdata (r_below (rs_esc r)))) + 4) n [] r pos d HR) as (r' & E & R').
  - cbn; lia.
  - unfold mu. cbn [length]. destruct (rs_mode r); [lia|]. destruct (_ =? _)%N; lia.
  - cbn [length app] in *. rewrite Nat.sub_0_r in *. eauto.
Qed.
Lemma rs_position_spec : forall r pos d, rel r pos d -> rs_position r = Ok (N.of_nat pos).
Proof. intros r pos d (its & d' & _ & _ & _ & _ & _ & E & _). unfold rs_position, nsub. rewrite E. replace (N.of_nat pos + rs_zeros r <? rs_zeros r)%N with false by lia. f_equal. lia. Qed.
