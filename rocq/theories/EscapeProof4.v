(** * Proofs about the escape layer: reading and searching marks. *)
From Verif Require Import Base FileModel EscapeModel EscapeProof EscapeSpec EscapeProof2 EscapeProof3.
Open Scope nat_scope.

Lemma rest_le : forall r, length (rest_below r) <= length (fdata (r_below r)).
Proof. intro r. unfold rest_below. rewrite skipn_length. lia. Qed.

(** the items to read start with a mark *)
Definition at_mark (its : list item) : Prop := exists t r, its = M t :: r.

Lemma abs_mark : forall s0 r, ar r = eo r -> real_mark s0 (skipn (ar r) (rb r)) -> at_mark (abs s0 r).
Proof.
  intros s0 r He H. unfold abs. rewrite <- He, slice_same. cbn [map app].
  destruct (real_mark_head s0 _ (rest_below r) H) as (t & its & _ & _ & E & _). rewrite E. exists t, its. reflexivity.
Qed.

(** moving inside the unescaped data *)
Lemma abs_advance : forall s0 r k, rinv s0 r -> k <= eo r - ar r ->
  abs s0 r = map D (firstn k (skipn (ar r) (rb r))) ++
             abs s0 (mk_r (rb r) (ar r + k) (eo r) (reof r) (alloc r) (cnt r) (r_below r)).
Proof.
  intros s0 r k (H1 & _) Hk. unfold abs. cbn [ar eo rb]. rewrite (slice_split (ar r) (ar r + k) (eo r)) by lia.
  rewrite map_app, <- app_assoc. unfold slice at 1. replace (ar r + k - ar r) with k by lia. reflexivity.
Qed.

Lemma read_loop1_spec : forall fuel s0 n got r, s0_ok s0 -> rinv s0 r -> ~ In Bad (abs s0 r) -> length got <= n ->
  2 * Msr r + (if ar r =? eo r then 1 else 0) < fuel ->
  exists ds done r', read_loop1 fuel s0 n got r = Ok (got ++ ds, done, r') /\ rinv s0 r' /\
    abs s0 r = map D ds ++ abs s0 r' /\ length (got ++ ds) <= n /\ Msr r' <= Msr r /\
    (done = true -> length (got ++ ds) = n) /\
    (done = false -> length (got ++ ds) < n /\
       ((reof r' = true /\ at_mark (abs s0 r')) \/ (rb r' = [] /\ ar r' = 0 /\ eo r' = 0))).
Proof.
  induction fuel as [|k IH]; intros s0 n got r Hs Hi Hb Hn Hf; [lia|].
  cbn [read_loop1]. pose proof Hi as (H1 & H2 & H3 & H4).
  destruct (Nat.ltb_spec (eo r) (ar r)); [lia|].
  set (mc := Nat.min (eo r - ar r) (n - length got)).
  set (ds0 := firstn mc (skipn (ar r) (rb r))).
  assert (Ld : length ds0 = mc) by (unfold ds0; rewrite firstn_length, skipn_length; unfold mc; lia).
  cbn [rb ar eo reof alloc cnt r_below].
  pose proof (abs_advance s0 r mc Hi ltac:(unfold mc; lia)) as Av. fold ds0 in Av.
  set (r1 := mk_r (rb r) (ar r + mc) (eo r) (reof r) (alloc r) (cnt r) (r_below r)) in *.
  assert (I1 : rinv s0 r1).
  { split; [cbn [ar eo rb r1]; unfold mc; lia|]. split; [exact H2|]. split; [exact H3|]. exact H4. }
  set (r2 := if ar r + mc =? length (rb r) then mk_r [] 0 0 (reof r) (alloc r) (cnt r) (r_below r) else r1).
  assert (I2 : rinv s0 r2 /\ abs s0 r2 = abs s0 r1 /\ Msr r2 <= Msr r - mc /\ reof r2 = reof r /\
      (ar r2 = length (rb r2) -> rb r2 = [] /\ ar r2 = 0 /\ eo r2 = 0) /\ (ar r2 <> length (rb r2) -> ar r2 = ar r + mc /\ eo r2 = eo r /\ rb r2 = rb r)).
  { unfold r2. destruct (Nat.eqb_spec (ar r + mc) (length (rb r))) as [Q|Q].
    - assert (Eo : eo r = length (rb r)) by (unfold mc in *; lia).
      assert (Am : ar r + mc = eo r) by lia.
      split; [|split; [|split; [|split; [|split]]]].
      + unfold rinv, rest_below. cbn [ar eo rb alloc reof r_below length skipn]. split; [lia|]. split; [lia|]. split; [lia|].
        intro R. destruct (H4 R) as [|B]; auto. exfalso. apply real_mark_len in B. rewrite skipn_length in B. lia.
      + unfold abs, rest_below, r1. cbn [ar eo rb r_below]. rewrite Am, slice_same, slice_same.
        rewrite (skipn_all2 (n:=eo r)) by lia. reflexivity.
      + unfold Msr, rest_below. cbn [rb ar r_below length]. lia.
      + reflexivity.
      + auto.
      + cbn. lia.
    - split; [exact I1|]. split; [reflexivity|]. split; [unfold Msr, r1, rest_below; cbn [rb ar r_below]; lia|].
      split; [reflexivity|]. split; [cbn [ar rb r1]; lia|]. auto. }
  destruct I2 as (I2 & A2 & M2 & R2 & E2 & N2).
  rewrite app_length, Ld.
  assert (Abs2 : abs s0 r = map D ds0 ++ abs s0 r2) by (rewrite A2; exact Av).
  destruct (Nat.eqb_spec (length got + mc) n) as [Q|Q].
  { exists ds0, true, r2. split; [reflexivity|]. split; [exact I2|]. split; [exact Abs2|]. rewrite app_length, Ld.
    split; [lia|]. split; [lia|]. split; [auto|discriminate]. }
  destruct (Nat.ltb_spec n (length got + mc)); [unfold mc in *; lia|].
  destruct (Nat.eqb_spec (ar r2) (length (rb r2))) as [Q2|Q2]; cbn [negb].
  { exists ds0, false, r2. split; [reflexivity|]. split; [exact I2|]. split; [exact Abs2|]. rewrite app_length, Ld.
    split; [lia|]. split; [lia|]. split; [discriminate|]. intros _. split; [lia|]. right. auto. }
  destruct (N2 Q2) as (Na & Ne & Nr).
  assert (Ae : ar r2 = eo r2) by (unfold mc in *; lia).
  destruct (Nat.eqb_spec (ar r2) (eo r2)); [|lia]. cbn [negb].
  assert (Hb2 : ~ In Bad (abs s0 r2)) by (rewrite Abs2 in Hb; apply bad_app in Hb; exact Hb).
  destruct (mini_read_spec s0 r2 Hs I2 Ae Hb2) as (full & r3 & -> & I3 & A3 & Al3 & M3 & _ & P3 & _ & F3 & G3 & _). cbn [bind].
  pose proof I3 as (J1 & _).
  assert (P4 : ar r3 < length (rb r3)) by (apply P3; destruct I2 as (K & _); lia).
  assert (Mpos : mc = 0 -> ar r = eo r) by (unfold mc in *; lia).
  assert (Mge : mc <= Msr r) by (unfold Msr, mc; lia).
  destruct full.
  - destruct F3 as (F5 & Fm & _); [reflexivity|].
    destruct (Nat.eqb_spec (eo r3) (ar r3)) as [Q3|Q3].
    + exists ds0, false, (set_eof r3). split; [reflexivity|].
      assert (Fm' : real_mark s0 (skipn (eo r3) (rb r3))) by (rewrite Q3; apply Fm; exact Q3).
      split. { destruct I3 as (I3a & I3b & I3c & _). split; [exact I3a|]. split; [exact I3b|]. split; [exact I3c|]. right. exact Fm'. }
      change (abs s0 (set_eof r3)) with (abs s0 r3). split; [rewrite A3; exact Abs2|]. rewrite app_length, Ld.
      split; [lia|]. split; [change (Msr (set_eof r3)) with (Msr r3); lia|]. split; [discriminate|]. intros _. split; [lia|].
      left. split; [reflexivity|]. apply abs_mark; [auto|]. rewrite <- Q3. exact Fm'.
    + destruct (IH s0 n (got ++ ds0) r3 Hs I3) as (ds & done & r' & E & T1 & T2 & T3 & T4 & T5 & T6).
      { rewrite A3. exact Hb2. } { rewrite app_length; lia. }
      { destruct (Nat.eqb_spec (ar r3) (eo r3)); [lia|]. destruct (Nat.eqb_spec (ar r) (eo r)); lia. }
      rewrite <- app_assoc in E, T3, T5, T6. exists (ds0 ++ ds), done, r'. split; [exact E|]. split; [exact T1|].
      split; [rewrite map_app, <- app_assoc, <- T2, A3; exact Abs2|]. split; [exact T3|]. split; [lia|]. auto.
  - destruct G3 as (G3 & G4 & G5); [reflexivity|].
    set (r4 := mk_r (rb r3) (ar r3) (length (rb r3)) (reof r3) (alloc r3) (cnt r3) (r_below r3)).
    assert (A4 : abs s0 r4 = abs s0 r3).
    { unfold abs, r4, rest_below. cbn [rb ar eo r_below]. fold (rest_below r3). rewrite G3, !app_nil_r, skipn_all, parse_nil, app_nil_r.
      rewrite parse_short; [|auto|rewrite skipn_length; lia].
      rewrite (slice_split (ar r3) (eo r3) (length (rb r3))) by lia. rewrite map_app. do 2 f_equal.
      unfold slice. apply firstn_all2. rewrite skipn_length. lia. }
    assert (I4 : rinv s0 r4).
    { destruct I3 as (_ & I3b & _). split; [cbn; lia|]. split; [exact I3b|]. split; [cbn; lia|]. left. exact G3. }
    destruct (IH s0 n (got ++ ds0) r4 Hs I4) as (ds & done & r' & E & T1 & T2 & T3 & T4 & T5 & T6).
    { rewrite A4, A3. exact Hb2. } { rewrite app_length; lia. }
    { change (Msr r4) with (Msr r3). cbn [ar eo r4]. destruct (Nat.eqb_spec (ar r3) (length (rb r3))); [lia|]. destruct (Nat.eqb_spec (ar r) (eo r)); lia. }
    rewrite <- app_assoc in E, T3, T5, T6. exists (ds0 ++ ds), done, r'. split; [exact E|]. split; [exact T1|].
    split; [rewrite map_app, <- app_assoc, <- T2, A4, A3; exact Abs2|]. split; [exact T3|].
    split; [change (Msr r4) with (Msr r3) in T4; lia|]. auto.
Qed.

(** why a read may return less than requested *)
Definition stuck (s0 : N) (r : resc) : Prop :=
  abs s0 r = [] \/ at_mark (abs s0 r) \/
  (exists p q, p <> [] /\ fixed s0 = p ++ q /\ abs s0 r = map D p /\ skipn (ar r) (rb r) = p /\ rest_below r = []).

Lemma esc_read_both : forall fuel s0, s0_ok s0 ->
  (forall n r, rinv s0 r -> ~ In Bad (abs s0 r) -> 2 * Msr r + 2 <= fuel ->
     exists ds r', esc_read fuel s0 n r = Ok (ds, r') /\ rinv s0 r' /\ abs s0 r = map D ds ++ abs s0 r' /\
       length ds <= n /\ (length ds < n -> stuck s0 r')) /\
  (forall n got r, rinv s0 r -> ~ In Bad (abs s0 r) -> rb r = [] -> ar r = 0 -> eo r = 0 -> length got < n ->
     2 * Msr r + 1 <= fuel ->
     exists ds r', read_loop2 fuel s0 n got r = Ok (got ++ ds, r') /\ rinv s0 r' /\ abs s0 r = map D ds ++ abs s0 r' /\
       length (got ++ ds) <= n /\ (length (got ++ ds) < n -> stuck s0 r')).
Proof.
  induction fuel as [|k IH]; intros s0 Hs; [split; intros; lia|].
  specialize (IH s0 Hs). destruct IH as [IH1 IH2]. split.
  - intros n r Hi Hb Hf. cbn [esc_read]. pose proof Hi as (H1 & H2 & H3 & H4).
    destruct (reof r && (ar r =? length (rb r))) eqn:E.
    + apply andb_true_iff in E. destruct E as [E1 E2]. apply Nat.eqb_eq in E2.
      exists [], r. split; [reflexivity|]. split; [exact Hi|]. split; [reflexivity|]. split; [cbn; lia|].
      intros _. left. destruct (H4 E1) as [B|B].
      * unfold abs. assert (eo r = ar r) as -> by lia. rewrite slice_same, B, skipn_all2 by lia. reflexivity.
      * apply real_mark_len in B. rewrite skipn_length in B. lia.
    + destruct (read_loop1_spec (2 * (2 * length (fdata (r_below r)) + length (rb r)) + 3) s0 n [] r Hs Hi Hb) as
        (ds & done & r' & E1 & I1 & A1 & L1 & M1 & D1 & F1).
      { cbn; lia. }
      { pose proof (rest_le r). unfold Msr. destruct (ar r =? eo r); lia. }
      cbn [app] in *. rewrite E1. cbn [bind]. destruct done.
      * exists ds, r'. split; [reflexivity|]. split; [exact I1|]. split; [exact A1|]. split; [exact L1|]. rewrite D1 by reflexivity. lia.
      * destruct F1 as [F0 F1]; [reflexivity|]. destruct (reof r') eqn:R.
        -- exists ds, r'. split; [reflexivity|]. split; [exact I1|]. split; [exact A1|]. split; [exact L1|]. intros _.
           destruct F1 as [[_ F1]|(F1 & F2 & F3)]; [right; left; exact F1|]. left.
           destruct I1 as (_ & _ & _ & I4). destruct (I4 R) as [B|B].
           ++ unfold abs. rewrite F1, F2, F3, B. reflexivity.
           ++ rewrite F1, F3 in B. apply real_mark_len in B. cbn in B. lia.
        -- destruct F1 as [[F1 _]|(F1 & F2 & F3)]; [congruence|].
           destruct (IH2 n ds r') as (ds' & r2 & E2 & I2 & A2 & L2 & S2); auto; [rewrite A1 in Hb; apply bad_app in Hb; exact Hb|lia|].
           exists (ds ++ ds'), r2. split; [exact E2|]. split; [exact I2|]. rewrite map_app, <- app_assoc, <- A2. auto.
  - intros n got r Hi Hb Hrb Har Heo Hn Hf. cbn [read_loop2]. pose proof Hi as (H1 & H2 & H3 & H4).
    assert (A0 : abs s0 r = parse s0 (rest_below r)) by (unfold abs; rewrite Hrb, Har, Heo; reflexivity).
    assert (M0 : Msr r = 2 * length (rest_below r)) by (unfold Msr; rewrite Hrb; cbn [length]; lia).
    unfold SEQ_LEN. destruct (Nat.ltb_spec 6 (n - length got)) as [L|L].
    + pose proof (g_read_rest (n - length got) (r_below r)) as G.
      destruct (g_read (n - length got) (r_below r)) as [raw below]. destruct G as (G1 & G2 & G3 & G4).
      fold (rest_below r) in G1.
      set (bl := skipn (fpos below) (fdata below)) in *.
      destruct (remove_spec s0 raw bl Hs) as (off & delta & a & -> & O1 & O2 & O3 & O4 & O5).
      { rewrite <- G1, <- A0. exact Hb. }
      cbn [bind rb ar eo reof alloc cnt r_below]. destruct (Nat.ltb_spec (length a) off); [lia|].
      assert (Lr : length (rest_below r) = length raw + length bl) by (rewrite G1, app_length; reflexivity).
      assert (Lo : length (firstn off a) = off) by (rewrite firstn_length; lia).
      assert (A1 : abs s0 r = map D (firstn off a) ++ parse s0 (skipn off a ++ bl)) by (rewrite A0, G1, O3; reflexivity).
      assert (Hb1 : ~ In Bad (parse s0 (skipn off a ++ bl))) by (rewrite A1 in Hb; apply bad_app in Hb; exact Hb).
      destruct (Nat.ltb_spec off (length a)) as [Lf|Lf].
      * set (al := if alloc r <? length a - off then length a else alloc r).
        set (r1 := mk_r (skipn off a) 0 0 false al (cnt r + delta) below).
        assert (I1 : rinv s0 r1).
        { unfold rinv, rest_below, r1. cbn [rb ar eo reof alloc r_below skipn]. rewrite skipn_length. split; [lia|].
          split; [unfold al; destruct (Nat.ltb_spec (alloc r) (length a - off)); lia|].
          split; [intros _; apply (O4 Lf)|discriminate]. }
        assert (A2 : abs s0 r1 = parse s0 (skipn off a ++ bl)) by reflexivity.
        rewrite app_length, Lo.
        destruct (Nat.ltb_spec 0 (n - (length got + off))) as [P|P].
        -- destruct (IH1 (n - (length got + off)) r1 I1) as (ds & r2 & E2 & I2 & A3 & L2 & S2).
           { rewrite A2. exact Hb1. }
           { unfold Msr, rest_below, r1. cbn [rb ar r_below]. fold bl. rewrite skipn_length. lia. }
           change (mk_r (skipn off a) 0 0 false (if alloc r <? length a - off then length a else alloc r) (cnt r + delta) below) with r1.
           rewrite E2. cbn [bind]. exists (firstn off a ++ ds), r2. rewrite !app_length, Lo, <- app_assoc.
           split; [reflexivity|]. split; [exact I2|]. split; [rewrite map_app, <- app_assoc, <- A3; exact A1|].
           split; [lia|]. intro Q. apply S2. lia.
        -- exists (firstn off a), r1. rewrite app_length, Lo. split; [reflexivity|]. split; [exact I1|]. split; [exact A1|].
           split; [lia|]. lia.
      * set (e := if length raw <? n - length got then true else reof r).
        set (r1 := mk_r (rb r) (ar r) (length (rb r)) e (alloc r) (cnt r + delta) below).
        assert (Of : off = length a) by lia.
        assert (A2 : abs s0 r1 = parse s0 bl).
        { unfold abs, r1, rest_below. cbn [rb ar eo r_below]. rewrite Hrb, Har. reflexivity. }
        assert (I1 : rinv s0 r1).
        { unfold rinv, rest_below, r1. cbn [rb ar eo reof alloc r_below]. fold bl. rewrite Hrb, Har. cbn [length skipn]. split; [lia|].
          split; [lia|]. split; [lia|]. unfold e. destruct (Nat.ltb_spec (length raw) (n - length got)) as [Q|Q]; [intros _; left; apply G3; lia|].
          intro R. left. destruct (H4 R) as [B|B].
          - apply (f_equal (@length N)) in B. rewrite Lr in B. cbn in B. apply length_zero_iff_nil. lia.
          - rewrite Hrb, Heo in B. apply real_mark_len in B. cbn in B. lia. }
        rewrite app_length, Lo.
        destruct ((length got + off <? n) && negb e) eqn:Go.
        -- apply andb_true_iff in Go. destruct Go as [Go1 Go2]. apply Nat.ltb_lt in Go1. apply negb_true_iff in Go2.
           assert (Lraw : length raw = n - length got).
           { unfold e in Go2. destruct (Nat.ltb_spec (length raw) (n - length got)); [discriminate|lia]. }
           destruct (IH2 n (got ++ firstn off a) r1 I1) as (ds & r2 & E2 & I2 & A3 & L2 & S2); try (cbn [r1 rb ar eo]; auto; fail).
           { rewrite A2. rewrite Of, skipn_all in Hb1. exact Hb1. }
           { cbn [r1 eo]. rewrite Hrb. reflexivity. }
           { rewrite app_length, Lo. exact Go1. }
           { unfold Msr, rest_below, r1. cbn [rb ar r_below]. fold bl. rewrite Hrb. cbn [length]. lia. }
           change (mk_r (rb r) (ar r) (length (rb r)) (if length raw <? n - length got then true else reof r) (alloc r) (cnt r + delta) below) with r1.
           rewrite E2. rewrite <- app_assoc in *. exists (firstn off a ++ ds), r2. split; [reflexivity|]. split; [exact I2|].
           split; [rewrite map_app, <- app_assoc, <- A3, A2, A1, Of, skipn_all; reflexivity|]. auto.
        -- change (mk_r (rb r) (ar r) (length (rb r)) (if length raw <? n - length got then true else reof r) (alloc r) (cnt r + delta) below) with r1.
           exists (firstn off a), r1. rewrite app_length, Lo. split; [reflexivity|]. split; [exact I1|].
           split; [rewrite A2, A1, Of, skipn_all; reflexivity|]. split; [lia|].
           intro Q. apply andb_false_iff in Go. destruct Go as [Go|Go]; [apply Nat.ltb_ge in Go; lia|].
           apply negb_false_iff in Go. left. rewrite A2. destruct I1 as (_ & _ & _ & I4). destruct (I4 Go) as [B|B].
           ++ change (rest_below r1) with bl in B. rewrite B. reflexivity.
           ++ cbn [r1 eo rb] in B. rewrite Hrb in B. apply real_mark_len in B. cbn in B. lia.
    + destruct (mini_read_spec s0 r Hs Hi ltac:(lia) Hb) as (full & r1 & -> & I1 & A1 & Al1 & M1 & M1' & P1 & Z1 & F1 & G1 & R1). cbn [bind].
      assert (Ar1 : ar r1 = 0) by (apply Z1; exact Har).
      destruct (Nat.ltb_spec 0 (eo r1)) as [P|P].
      * destruct (IH1 (n - length got) r1 I1) as (ds & r2 & E2 & I2 & A3 & L2 & S2).
        { rewrite A1. exact Hb. }
        { assert (Msr r1 < Msr r); [|lia]. apply M1'; auto. destruct I1 as (J & _). lia. }
        rewrite E2. cbn [bind]. exists ds, r2. rewrite app_length. split; [reflexivity|]. split; [exact I2|].
        split; [rewrite <- A3, A1; reflexivity|]. split; [lia|]. intro Q. apply S2. lia.
      * exists [], (set_eof r1). rewrite app_nil_r. split; [reflexivity|].
        assert (Eo1 : eo r1 = 0) by lia.
        destruct full.
        -- destruct F1 as (F5 & Fm & _); [reflexivity|]. specialize (Fm ltac:(lia)).
           split. { destruct I1 as (J1 & J2 & J3 & _). split; [exact J1|]. split; [exact J2|]. split; [exact J3|]. intros _. right. cbn [set_eof eo rb]. rewrite Eo1, <- Ar1. exact Fm. }
           split; [exact (eq_sym A1)|]. split; [lia|]. intros _. right; left. change (abs s0 (set_eof r1)) with (abs s0 r1).
           apply abs_mark; [lia|exact Fm].
        -- destruct G1 as (G1 & G2 & G3); [reflexivity|].
           split. { destruct I1 as (J1 & J2 & J3 & _). split; [exact J1|]. split; [exact J2|]. split; [exact J3|]. intros _. left. exact G1. }
           split; [exact (eq_sym A1)|]. split; [lia|]. intros _.
           assert (A2 : abs s0 r1 = map D (rb r1)).
           { unfold abs. rewrite Ar1, Eo1, G1, slice_same, app_nil_r. cbn [map app skipn]. apply parse_short; auto. lia. }
           unfold stuck. change (abs s0 (set_eof r1)) with (abs s0 r1). cbn [set_eof ar rb]. change (rest_below (set_eof r1)) with (rest_below r1).
           destruct (rb r1) as [|b z] eqn:Erb; [left; rewrite A2; reflexivity|].
           right; right. exists (b :: z). destruct I1 as (_ & _ & J3 & _). rewrite Erb, Eo1 in J3. cbn [skipn] in J3.
           assert (Ln : 0 < length (b :: z)) by (cbn; lia).
           destruct (amorce_cases s0 (b :: z) ltac:(discriminate) (J3 Ln)) as [(q & Q)|[_ (q & Q)]].
           ++ assert (q = []) as ->.
              { rewrite Q, app_length in G3. cbn [fixed length] in G3. apply length_zero_iff_nil. lia. }
              rewrite app_nil_r in Q. exists []. rewrite app_nil_r. repeat split; auto; [discriminate|rewrite Ar1; reflexivity].
           ++ exists q. repeat split; auto; [discriminate|rewrite Ar1; reflexivity].
Qed.

Theorem read_spec : forall s0 n r, s0_ok s0 -> rinv s0 r -> ~ In Bad (abs s0 r) ->
  exists ds r', read s0 n r = Ok (ds, r') /\ rinv s0 r' /\ abs s0 r = map D ds ++ abs s0 r' /\
    length ds <= n /\ (length ds < n -> stuck s0 r').
Proof.
  intros s0 n r Hs Hi Hb. unfold read. apply (proj1 (esc_read_both _ s0 Hs)); auto.
  pose proof (rest_le r). unfold r_fuel, Msr. lia.
Qed.

(** ** searching marks *)
Lemma search_data : forall t j u ds its, search t j u (map D ds ++ its) = search t j u its.
Proof. intros. induction ds; cbn; auto. Qed.

Lemma skip_loop_spec : forall fuel s0 t jump unj r, s0_ok s0 -> rinv s0 r -> ~ In Bad (abs s0 r) -> reof r = false ->
  Msr r < fuel ->
  exists found r', skip_loop fuel s0 t jump unj r = Ok (found, r') /\ rinv s0 r' /\
    found = fst (search t jump unj (abs s0 r)) /\
    (found = true -> abs s0 r' = snd (search t jump unj (abs s0 r))) /\
    (found = false -> exists ds, abs s0 r' = map D ds ++ snd (search t jump unj (abs s0 r))).
Proof.
  induction fuel as [|k IH]; intros s0 t jump unj r Hs Hi Hb Hr Hf; [lia|].
  cbn [skip_loop]. pose proof Hi as (H1 & H2 & H3 & H4).
  destruct (Nat.ltb_spec (eo r) (length (rb r))) as [L|L].
  - set (r1 := mk_r (rb r) (eo r) (eo r) (reof r) (alloc r) (cnt r) (r_below r)).
    assert (I1 : rinv s0 r1).
    { split; [cbn [r1 ar eo rb]; lia|]. split; [exact H2|]. split; [exact H3|]. exact H4. }
    assert (A1 : abs s0 r = map D (slice (ar r) (eo r) (rb r)) ++ abs s0 r1).
    { unfold abs at 2. cbn [r1 ar eo rb]. rewrite slice_same. reflexivity. }
    assert (M1 : Msr r1 <= Msr r) by (unfold Msr, rest_below, r1; cbn [rb ar r_below]; lia).
    assert (Hb1 : ~ In Bad (abs s0 r1)) by (rewrite A1 in Hb; apply bad_app in Hb; exact Hb).
    rewrite A1, !search_data.
    destruct (mini_read_spec s0 r1 Hs I1 eq_refl Hb1) as (full & r2 & -> & I2 & A2 & Al2 & M2 & _ & P2 & _ & F2 & G2 & R2). cbn [bind].
    assert (P3 : ar r2 < length (rb r2)) by (apply P2; exact L).
    pose proof I2 as (J1 & J2 & J3 & J4).
    rewrite <- A2 in Hb1 |- *.
    destruct full; cbn [negb].
    + destruct F2 as (F5 & Fm & F6 & _); [reflexivity|]. unfold SEQ_LEN.
      assert (R2' : reof r2 = false).
      { destruct (reof r2); auto. destruct (R2 eq_refl) as [Q|Q]; [cbn in Q; congruence|discriminate]. }
      destruct (Nat.ltb_spec (eo r2 + 6 - 1) (length (rb r2))) as [L6|L6].
      * assert (Rm : real_mark s0 (skipn (eo r2) (rb r2))) by (apply F6; lia).
        destruct (real_mark_head s0 _ (rest_below r2) Rm) as (t' & its & Ht' & Nt & Pt & Eits).
        assert (A3 : abs s0 r2 = map D (slice (ar r2) (eo r2) (rb r2)) ++ M t' :: its) by (unfold abs; rewrite Pt; reflexivity).
        assert (Nt5 : nth (eo r2 + 5) (rb r2) 0%N = type2char t').
        { rewrite <- (firstn_skipn (eo r2) (rb r2)). rewrite app_nth2 by (rewrite firstn_length; lia).
          rewrite firstn_length. replace (eo r2 + 5 - Nat.min (eo r2) (length (rb r2))) with 5 by lia. exact Nt. }
        rewrite Nt5, char2type_type2char, trouve_amorce_spec. cbn [bind].
        rewrite A3, !search_data. cbn [search].
        set (p := eo r2 + 6). set (i := find s0 (skipn p (rb r2))).
        set (r3 := mk_r (rb r2) p (p + i) (reof r2) (alloc r2) (cnt r2) (r_below r2)).
        assert (Li : i <= length (rb r2) - p) by (unfold i; rewrite <- skipn_length; apply find_le).
        assert (A4 : abs s0 r3 = its).
        { rewrite Eits, skipn_skipn. replace (6 + eo r2) with p by (unfold p; lia). rewrite parse_find. fold i.
          unfold abs, r3, slice. cbn [ar eo rb]. replace (p + i - p) with i by lia. rewrite skipn_skipn.
          replace (i + p) with (p + i) by lia. reflexivity. }
        assert (I3 : rinv s0 r3).
        { split; [cbn [r3 ar eo rb]; lia|]. split; [exact J2|]. split.
          - cbn [r3 eo rb]. intro Q. replace (p + i) with (i + p) by lia. rewrite <- skipn_skipn. apply find_at.
            rewrite skipn_length. fold i. lia.
          - cbn [r3 reof]. rewrite R2'. discriminate. }
        assert (M3 : Msr r3 < Msr r2) by (unfold Msr, rest_below, r3, p; cbn [rb ar r_below]; lia).
        assert (Hb3 : ~ In Bad (abs s0 r3)) by (rewrite A3 in Hb1; apply bad_app in Hb1; rewrite A4; intro Q; apply Hb1; right; exact Q).
        assert (X0 : seqt_eqb t' seqt_not_a_sequence = false) by (unfold seqt_eqb; destruct (seqt_eq_dec t' seqt_not_a_sequence); congruence).
        rewrite X0. destruct (seqt_eqb t' t) eqn:Et.
        -- cbn [bind negb andb]. exists true, r3. split; [reflexivity|]. split; [exact I3|]. cbn [fst snd]. split; [reflexivity|].
           split; [intros _; exact A4|discriminate].
        -- destruct (jump && negb (existsb (seqt_eqb t') unj)) eqn:Ej.
           ++ cbn [bind negb andb]. change (reof r3) with (reof r2). rewrite R2'. cbn [negb].
              rewrite <- A4. apply IH; auto. lia.
           ++ cbn [bind negb andb set_eof reof fst snd]. exists false, (set_eof r2). split; [reflexivity|].
              split. { split; [exact J1|]. split; [exact J2|]. split; [exact J3|]. intros _. right. exact Rm. }
              split; [reflexivity|]. split; [discriminate|]. intros _.
              change (abs s0 (set_eof r2)) with (abs s0 r2). rewrite A3. eauto.
      * cbn [bind negb andb]. cbn [reof]. rewrite R2'. cbn [negb].
        set (r3 := mk_r (rb r2) (eo r2) (eo r2) false (alloc r2) (cnt r2) (r_below r2)).
        assert (A3 : abs s0 r2 = map D (slice (ar r2) (eo r2) (rb r2)) ++ abs s0 r3).
        { unfold abs at 2. cbn [r3 ar eo rb]. rewrite slice_same. reflexivity. }
        rewrite A3, !search_data. apply IH; auto.
        -- split; [cbn [r3 ar eo rb]; lia|]. split; [exact J2|]. split; [exact J3|]. discriminate.
        -- rewrite A3 in Hb1. apply bad_app in Hb1. exact Hb1.
        -- assert (Q : eo r2 <> ar r2) by (intro Q; specialize (Fm Q); apply real_mark_len in Fm; rewrite skipn_length in Fm; lia).
           unfold Msr, rest_below in *. cbn [r3 rb ar r_below]. lia.
    + destruct G2 as (G2 & G3 & G4); [reflexivity|]. cbn [bind negb andb clean_read reof].
      set (r3 := clean_read (set_eof r2)).
      assert (A3 : abs s0 r2 = map D (skipn (ar r2) (rb r2))).
      { unfold abs. rewrite G2, app_nil_r, parse_short; [|auto|rewrite skipn_length; lia]. rewrite <- map_app. f_equal.
        unfold slice. rewrite <- (firstn_skipn (eo r2 - ar r2) (skipn (ar r2) (rb r2))) at 2. f_equal.
        rewrite skipn_skipn. f_equal. lia. }
      assert (A4 : abs s0 r3 = []).
      { unfold abs, r3, rest_below. cbn [clean_read set_eof ar eo rb r_below]. fold (rest_below r2). rewrite G2. reflexivity. }
      rewrite A3, <- (app_nil_r (map D _)), search_data, <- A4. apply IH; auto.
      * split; [cbn; lia|]. split; [exact J2|]. split; [cbn; lia|]. discriminate.
      * rewrite A4. intros [].
      * unfold Msr, rest_below in *. cbn [r3 clean_read set_eof rb ar r_below length]. lia.
  - (* end of buffer *)
    assert (A1 : abs s0 r = map D (slice (ar r) (eo r) (rb r)) ++ parse s0 (rest_below r)).
    { unfold abs. rewrite skipn_all2 by lia. reflexivity. }
    pose proof (g_read_rest (alloc r) (r_below r)) as G.
    destruct (g_read (alloc r) (r_below r)) as [buf below]. destruct G as (G1 & G2 & G3 & G4).
    fold (rest_below r) in G1. rewrite trouve_amorce_spec. cbn [bind negb andb]. cbn [reof].
    set (e := if length buf =? 0 then true else reof r).
    set (r1 := mk_r buf 0 (find s0 buf) e (alloc r) (cnt r) below).
    assert (A2 : abs s0 r1 = parse s0 (rest_below r)).
    { rewrite G1, parse_find. unfold abs, r1, slice, rest_below. cbn [ar eo rb r_below]. rewrite Nat.sub_0_r. reflexivity. }
    pose proof (find_le s0 buf) as Fl.
    assert (I1 : rinv s0 r1).
    { split; [cbn [r1 ar eo rb]; lia|]. split; [exact H2|]. split; [cbn [r1 eo rb]; apply find_at|].
      cbn [r1 reof]. unfold e. rewrite Hr. destruct (Nat.eqb_spec (length buf) 0); [|discriminate]. intros _. left. apply G3. lia. }
    rewrite A1, !search_data, <- A2.
    assert (Hb1 : ~ In Bad (abs s0 r1)) by (rewrite A1, <- A2 in Hb; apply bad_app in Hb; exact Hb).
    destruct (Nat.eqb_spec (length buf) 0) as [Z|Z].
    + cbn [negb]. exists false, r1. split; [reflexivity|]. split; [exact I1|].
      assert (abs s0 r1 = []) as ->.
      { rewrite A2, G1. destruct buf; [|cbn in Z; lia]. cbn [app]. rewrite G3 by (cbn; lia). reflexivity. }
      cbn [search fst snd]. split; [reflexivity|]. split; [discriminate|]. intros _. exists []. reflexivity.
    + assert (Er : e = false) by (unfold e; exact Hr).
      replace (negb e) with true by (rewrite Er; reflexivity). apply IH; auto.
      * unfold Msr, rest_below, r1 in *. cbn [rb ar r_below]. apply (f_equal (@length N)) in G1. rewrite app_length in G1. lia.
Qed.

Theorem skip_spec : forall s0 t jump unj r, s0_ok s0 -> rinv s0 r -> ~ In Bad (abs s0 r) ->
  exists found r', skip_to_next_mark s0 t jump unj r = Ok (found, r') /\ rinv s0 r' /\
    found = fst (search t jump unj (abs s0 r)) /\
    (found = true -> abs s0 r' = snd (search t jump unj (abs s0 r))) /\
    (found = false -> exists ds, abs s0 r' = map D ds ++ snd (search t jump unj (abs s0 r))).
Proof.
  intros s0 t jump unj r Hs (H1 & H2 & H3 & H4) Hb. unfold skip_to_next_mark.
  set (r0 := mk_r (rb r) (ar r) (eo r) false (alloc r) 0 (r_below r)).
  change (abs s0 r) with (abs s0 r0) in *. apply skip_loop_spec; auto.
  - split; [exact H1|]. split; [exact H2|]. split; [exact H3|]. discriminate.
  - change (Msr r0) with (Msr r). pose proof (rest_le r). unfold r_fuel, Msr. lia.
Qed.

(** ** next_to_read_is_which_mark *)
Theorem which_mark_spec : forall s0 r, s0_ok s0 -> rinv s0 r -> ~ In Bad (abs s0 r) ->
  match abs s0 r with
  | M t :: _ => exists r', next_to_read_is_which_mark s0 r = Ok (Some t, r') /\ rinv s0 r' /\ abs s0 r' = abs s0 r
  | _ => (exists r', next_to_read_is_which_mark s0 r = Ok (None, r') /\ rinv s0 r' /\ abs s0 r' = abs s0 r) \/
         (next_to_read_is_which_mark s0 r = Err Ebug /\ exists its, abs s0 r = map D (fixed s0) ++ its)
  end.
Proof.
  intros s0 r Hs Hi Hb. unfold next_to_read_is_which_mark.
  destruct (Nat.ltb_spec (ar r) (eo r)) as [L|L].
  - pose proof Hi as (H1 & _). destruct (abs s0 r) as [|[b|t|] its] eqn:A; try (left; exists r; auto; fail).
    + exfalso. unfold abs in A. pose proof (slice_length (ar r) (eo r) (rb r) ltac:(lia)) as Q.
      destruct (slice (ar r) (eo r) (rb r)); [cbn in Q; lia|discriminate].
  - pose proof Hi as (H1 & _). assert (He : ar r = eo r) by lia.
    destruct (mini_read_spec s0 r Hs Hi He Hb) as (full & r2 & E & I2 & A2 & Al2 & M2 & _ & P2 & _ & F2 & G2 & R2).
    rewrite E. cbn [bind]. pose proof I2 as (J1 & _). destruct full.
    + destruct F2 as (F5 & Fm & F6 & F7); [reflexivity|]. unfold SEQ_LEN.
      destruct (Nat.eqb_spec (eo r2) (ar r2)) as [Q|Q].
      * specialize (Fm Q). pose proof (real_mark_len _ _ Fm) as Lm. rewrite skipn_length in Lm.
        destruct (Nat.ltb_spec (length (rb r2) - ar r2) 6); [lia|].
        destruct (real_mark_head s0 _ (rest_below r2) Fm) as (t & its & Ht & Nt & Pt & _).
        assert (Nt5 : nth (ar r2 + 5) (rb r2) 0%N = type2char t).
        { rewrite <- (firstn_skipn (ar r2) (rb r2)). rewrite app_nth2 by (rewrite firstn_length; lia).
          rewrite firstn_length. replace (ar r2 + 5 - Nat.min (ar r2) (length (rb r2))) with 5 by lia. exact Nt. }
        rewrite Nt5, char2type_type2char. cbn [bind]. unfold seqt_eqb. destruct (seqt_eq_dec t seqt_not_a_sequence); [congruence|].
        assert (A3 : abs s0 r2 = M t :: its) by (unfold abs; rewrite Q, slice_same, Pt; reflexivity).
        rewrite <- A2, A3. exists r2. rewrite A3. auto.
      * assert (Hd : exists b its, abs s0 r2 = D b :: its).
        { unfold abs. pose proof (slice_length (ar r2) (eo r2) (rb r2) ltac:(lia)) as Q2.
          destruct (slice (ar r2) (eo r2) (rb r2)); [cbn in Q2; lia|cbn; eauto]. }
        destruct Hd as (b & its & Hd). rewrite <- A2, Hd.
        destruct (Nat.ltb_spec (length (rb r2) - ar r2) 6) as [L6|L6].
        -- right. split; [reflexivity|].
           (* less than six bytes left although six were available: an X was removed, data starts with the sequence *)
           exists (parse s0 (skipn (eo r2) (rb r2) ++ rest_below r2)). rewrite <- Hd. unfold abs. rewrite F7 by lia. reflexivity.
        -- left. exists r2. split; [reflexivity|]. rewrite Hd. auto.
    + destruct G2 as (G2 & G3 & G4); [reflexivity|].
      assert (A3 : abs s0 r2 = map D (skipn (ar r2) (rb r2))).
      { unfold abs. rewrite G2, app_nil_r, parse_short; [|auto|rewrite skipn_length; lia]. rewrite <- map_app. f_equal.
        unfold slice. rewrite <- (firstn_skipn (eo r2 - ar r2) (skipn (ar r2) (rb r2))) at 2. f_equal.
        rewrite skipn_skipn. f_equal. lia. }
      rewrite <- A2, A3. destruct (skipn (ar r2) (rb r2)) as [|b z] eqn:Ez; cbn [map]; left; exists r2; rewrite A3; auto.
Qed.
