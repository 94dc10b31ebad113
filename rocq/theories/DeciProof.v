From Verif Require Import Base InfinintModel InfinintProof DeciModel.
Open Scope N_scope.

Definition sig (ns : list N) : list N := filter (fun c => negb (c =? 15)) ns.

Lemma nibble_sweep : forall a v, a < 256 -> v < 16 ->
  get_left (set_left a v) = v /\ get_right (set_left a v) = get_right a /\
  get_left (set_right a v) = get_left a /\ get_right (set_right a v) = v /\
  set_left a v < 256 /\ set_right a v < 256 /\ get_left a < 16 /\ get_right a < 16.
Proof.
  intros a v Ha Hv.
  assert (T : forallb (fun i => forallb (fun j => let a := N.of_nat i in let v := N.of_nat j in
    (get_left (set_left a v) =? v) && (get_right (set_left a v) =? get_right a) &&
    (get_left (set_right a v) =? get_left a) && (get_right (set_right a v) =? v) &&
    (set_left a v <? 256) && (set_right a v <? 256) && (get_left a <? 16) && (get_right a <? 16)) (seq 0 16)) (seq 0 256) = true)
    by (vm_compute; reflexivity).
  rewrite forallb_forall in T. specialize (T (N.to_nat a)). rewrite in_seq in T. specialize (T ltac:(lia)).
  rewrite forallb_forall in T. specialize (T (N.to_nat v)). rewrite in_seq in T. specialize (T ltac:(lia)).
  cbv zeta in T. rewrite !N2Nat.id in T. rewrite !andb_true_iff in T.
  rewrite !N.eqb_eq, !N.ltb_lt in T. tauto.
Qed.

Lemma nibbles_cons : forall b l, nibbles (b :: l) = get_left b :: get_right b :: nibbles l.
Proof. reflexivity. Qed.
Lemma nibbles_app : forall a b, nibbles (a ++ b) = nibbles a ++ nibbles b.
Proof. intros. unfold nibbles. apply flat_map_app. Qed.
Lemma sig_app : forall a b, sig (a ++ b) = sig a ++ sig b.
Proof. intros. unfold sig. apply filter_app. Qed.
Lemma sig_cons : forall c l, sig (c :: l) = if c =? 15 then sig l else c :: sig l.
Proof. intros. unfold sig. cbn [filter]. destruct (c =? 15); reflexivity. Qed.
Lemma sig_repeat255 : forall n, sig (nibbles (repeat 255 n)) = [].
Proof. induction n; cbn [repeat]; [reflexivity|]. rewrite nibbles_cons. exact IHn. Qed.

(** the scan only turns the leading zeros into filler *)
Lemma red_scan_spec : forall l l' j, bytes_ok l -> red_scan l = (l', j) ->
  sig (nibbles l') = strip0 (sig (nibbles l)) /\ length l' = length l /\ (j <= length l)%nat /\
  sig (nibbles (firstn j l')) = [] /\ (j = length l -> strip0 (sig (nibbles l)) = []) /\
  (strip0 (sig (nibbles l)) = [] -> j = length l).
Proof.
  induction l as [|b r IH]; intros l' j Hb E; cbn [red_scan] in E.
  - inversion E; subst. cbn. auto 10.
  - apply bytes_ok_cons in Hb. destruct Hb as [Hb Hr]. unfold is_byte in Hb.
    destruct (nibble_sweep b 15 Hb ltac:(lia)) as (L1 & L2 & _ & _ & L3 & _).
    set (b1 := if get_left b =? 0 then set_left b 15 else b) in *.
    assert (B1 : b1 < 256) by (unfold b1; destruct (get_left b =? 0); auto).
    assert (R1 : get_right b1 = get_right b) by (unfold b1; destruct (get_left b =? 0); auto).
    destruct (N.eqb_spec (get_left b1) 15) as [EL|EL]; cbn [negb] in E.
    + (* left is filler *)
      assert (SL : strip0 (sig (nibbles (b :: r))) = strip0 (sig (get_right b :: nibbles r))).
      { rewrite nibbles_cons. rewrite (sig_cons (get_left b)). unfold b1 in EL.
        destruct (N.eqb_spec (get_left b) 0) as [Z|Z].
        - rewrite Z. cbn [N.eqb strip0]. reflexivity.
        - rewrite EL. reflexivity. }
      destruct (nibble_sweep b1 15 B1 ltac:(lia)) as (_ & _ & M1 & M2 & _ & M3 & _).
      set (b2 := if get_right b1 =? 0 then set_right b1 15 else b1) in *.
      assert (EL2 : get_left b2 = 15) by (unfold b2; destruct (get_right b1 =? 0); [rewrite M1|]; auto).
      destruct (N.eqb_spec (get_right b2) 15) as [ER|ER]; cbn [negb] in E.
      * destruct (red_scan r) as [r' j'] eqn:E1. inversion E; subst; clear E.
        destruct (IH r' j' Hr eq_refl) as (V & Ln & J & F & Z1 & Z2).
        assert (SR : strip0 (sig (get_right b :: nibbles r)) = strip0 (sig (nibbles r))).
        { rewrite sig_cons. rewrite <- R1. unfold b2 in ER. destruct (N.eqb_spec (get_right b1) 0) as [Z|Z].
          - rewrite Z. reflexivity.
          - rewrite ER. reflexivity. }
        rewrite SL, SR. cbn [firstn length]. rewrite !nibbles_cons, !sig_cons, EL2, ER. cbn [N.eqb Pos.eqb].
        repeat split; auto; try lia.
      * inversion E; subst; clear E. rewrite SL.
        assert (NZ : get_right b <> 0 /\ get_right b <> 15 /\ get_right b2 = get_right b).
        { unfold b2 in *. rewrite R1 in *. destruct (N.eqb_spec (get_right b) 0) as [Z|Z].
          - rewrite M2 in ER. congruence.
          - rewrite R1 in *. auto. }
        destruct NZ as (N1 & N2 & N3).
        rewrite nibbles_cons, !sig_cons, EL2, N3. cbn [N.eqb Pos.eqb].
        apply N.eqb_neq in N2. rewrite N2. cbn [strip0]. apply N.eqb_neq in N1. rewrite N1.
        cbn [length firstn]. repeat split; auto; try lia; intro Q; discriminate.
    + inversion E; subst; clear E.
      assert (NZ : get_left b <> 0 /\ get_left b <> 15 /\ b1 = b).
      { unfold b1 in *. destruct (N.eqb_spec (get_left b) 0) as [Z|Z].
        - rewrite L1 in EL. congruence.
        - auto. }
      destruct NZ as (N1 & N2 & N3). rewrite N3.
      rewrite nibbles_cons, (sig_cons (get_left b)). apply N.eqb_neq in N2. rewrite N2.
      cbn [strip0]. apply N.eqb_neq in N1. rewrite N1. cbn [length firstn]. repeat split; auto; try lia; intro Q; discriminate.
Qed.

Lemma deci_reduce_spec : forall l, bytes_ok l -> l <> [] ->
  sig (nibbles (deci_reduce l)) = reduce (sig (nibbles l)).
Proof.
  intros l Hl Hn. unfold deci_reduce. destruct (red_scan l) as [l' j] eqn:E.
  destruct (red_scan_spec l l' j Hl E) as (V & Ln & J & F & Z1 & Z2).
  destruct (Nat.eqb_spec j (length l')) as [Ej|Ej].
  - rewrite Ln in Ej. unfold reduce. rewrite (Z1 Ej).
    assert (Ls : length (removelast l') = (j - 1)%nat).
    { destruct l' as [|x y] using rev_ind; [destruct l; [congruence|discriminate]|].
      rewrite removelast_last. rewrite app_length in Ln. cbn [length] in Ln. lia. }
    rewrite skipn_app, Ls, Nat.sub_diag. rewrite skipn_all2 by lia. reflexivity.
  - unfold reduce.
    assert (S0 : strip0 (sig (nibbles l)) <> []).
    { intro Q. apply Ej. rewrite Ln. auto. }
    rewrite <- V in *. rewrite <- (firstn_skipn j l') at 2.
    rewrite nibbles_app, sig_app, F. cbn [app].
    rewrite <- (firstn_skipn j l'), nibbles_app, sig_app, F in S0. cbn [app] in S0.
    destruct (sig (nibbles (skipn j l'))); [congruence|reflexivity].
Qed.

(** decimal value of a digit list *)
Definition dval (ds : list N) : N := fold_left (fun a d => a * 10 + d) ds 0.
Lemma dval_acc : forall ds a, fold_left (fun a d => a * 10 + d) ds a = a * 10 ^ N.of_nat (length ds) + dval ds.
Proof.
  unfold dval. induction ds as [|d ds IH]; intro a; cbn [fold_left length].
  - change (N.of_nat 0) with 0. rewrite N.pow_0_r. lia.
  - rewrite IH, (IH (0 * 10 + d)), Nat2N.inj_succ, N.pow_succ_r'. lia.
Qed.
Lemma dval_cons : forall d ds, dval (d :: ds) = d * 10 ^ N.of_nat (length ds) + dval ds.
Proof. intros. unfold dval at 1. cbn [fold_left]. rewrite dval_acc. f_equal. Qed.
Lemma dval_strip0 : forall ds, dval (strip0 ds) = dval ds.
Proof.
  induction ds as [|d ds IH]; cbn [strip0]; auto. destruct (N.eqb_spec d 0) as [->|]; auto.
Qed.
Lemma dval_reduce : forall ds, dval (reduce ds) = dval ds.
Proof.
  intro ds. unfold reduce. rewrite <- (dval_strip0 ds). destruct (strip0 ds); reflexivity.
Qed.

Lemma computer_sig : forall l, deci_computer l = dval (sig (nibbles l)).
Proof.
  intro l. unfold deci_computer, dval. generalize 0. induction (nibbles l) as [|c r IH]; intro a; [reflexivity|].
  rewrite sig_cons. cbn [fold_left]. destruct (c =? 15); cbn [fold_left]; apply IH.
Qed.

Lemma human_sig : forall l, Forall (fun d => d < 10) (sig (nibbles l)) ->
  deci_human l = Ok (map (fun d => 48 + d) (sig (nibbles l))).
Proof.
  intro l. unfold deci_human. induction (nibbles l) as [|c r IH]; intro H; [reflexivity|].
  rewrite sig_cons in *. cbn [human_loop]. destruct (c =? 15); auto.
  inversion H; subst. rewrite IH by auto. unfold digit_ctoh. destruct (N.ltb_spec 9 c); [lia|]. reflexivity.
Qed.

Lemma Forall_strip0 : forall (P : N -> Prop) l, Forall P l -> Forall P (strip0 l).
Proof.
  intros P l H. destruct (strip0_spec l) as [n E]. rewrite E in H. apply Forall_app in H. tauto.
Qed.

(** decicoupe: the significant nibbles are digits whose value is x *)
Lemma decicoupe_spec : forall fuel x recule tmp free written,
  x < 2 ^ N.of_nat (fuel - 2) -> (2 <= fuel \/ (1 <= fuel /\ x = 0%N /\ recule = false))%nat -> tmp < 256 -> bytes_ok written ->
  (recule = true -> get_right tmp < 10) ->
  Forall (fun d => d < 10) (sig (nibbles written)) ->
  exists l, decicoupe fuel x recule tmp free written = Ok l /\ bytes_ok l /\ (length written + free <= length l)%nat /\
    Forall (fun d => d < 10) (sig (nibbles l)) /\
    dval (sig (nibbles l)) =
      x * 10 ^ N.of_nat (length (sig (nibbles written)) + (if recule then 1 else 0))
      + (if recule then get_right tmp * 10 ^ N.of_nat (length (sig (nibbles written))) else 0)
      + dval (sig (nibbles written)).
Proof.
  induction fuel as [|k IH]; intros x recule tmp free written Hx Hf Ht Hw Hr Hd.
  - destruct Hf; lia.
  - cbn [decicoupe].
    assert (Hq : 0 < x -> (2 <= k)%nat /\ x / 10 < 2 ^ N.of_nat (k - 2)).
    { intro Hp. destruct (le_lt_dec 2 k) as [K|K].
      - split; auto. replace (S k - 2)%nat with (S (k - 2)) in Hx by lia. rewrite Nat2N.inj_succ, N.pow_succ_r' in Hx. lia.
      - replace (S k - 2)%nat with 0%nat in Hx by lia. change (2 ^ N.of_nat 0) with 1 in Hx. lia. }
    destruct recule.
    + rewrite orb_true_r.
      destruct (nibble_sweep tmp (if 0 <? x then x mod 10 else 15) Ht) as (A1 & A2 & _ & _ & A3 & _ & _).
      { destruct (0 <? x); lia. }
      set (r := if 0 <? x then x mod 10 else 15) in *.
      replace (if 0 <? x then (x / 10, x mod 10) else (x, 15)) with (x / 10, r)
        by (unfold r; destruct (N.ltb_spec 0 x); auto; f_equal; lia).
      assert (Hr' : get_right tmp =? 15 = false) by (apply N.eqb_neq; specialize (Hr eq_refl); lia).
      assert (Sw : sig (nibbles (set_left tmp r :: written)) =
                   (if 0 <? x then [x mod 10] else []) ++ get_right tmp :: sig (nibbles written)).
      { rewrite nibbles_cons, !sig_cons, A1, A2, Hr'. unfold r. destruct (N.ltb_spec 0 x).
        - destruct (N.eqb_spec (x mod 10) 15); [lia|reflexivity].
        - reflexivity. }
      destruct (IH (x / 10) false (set_left tmp r) ((if free =? 0 then PAS else free) - 1)%nat (set_left tmp r :: written))
        as (l & E & O & L & D & V).
      * destruct (N.eq_dec x 0) as [->|Hz]; [change (0 / 10) with 0; apply N.neq_0_lt_0, N.pow_nonzero; lia|].
        apply Hq. lia.
      * destruct (N.eq_dec x 0) as [->|Hz]; [right; repeat split; auto; lia|left; apply Hq; lia].
      * auto.
      * apply bytes_ok_cons; auto.
      * discriminate.
      * rewrite Sw. apply Forall_app. split; [destruct (0 <? x); constructor; auto; lia|]. constructor; auto.
      * exists l. split; auto. split; auto. split; [|split; auto].
        { cbn [length] in L. destruct (Nat.eqb_spec free 0); unfold PAS in *; lia. }
        rewrite V, Sw. rewrite Nat.add_0_r, N.add_0_r. destruct (N.ltb_spec 0 x) as [Hp|Hp].
        -- cbn [app length]. rewrite !dval_cons. cbn [length]. rewrite Nat.add_1_r, !Nat2N.inj_succ, !N.pow_succ_r'.
           pose proof (N.div_mod x 10 ltac:(lia)) as Dx.
           set (q := x / 10) in *. set (m := x mod 10) in *. clearbody q m. subst x. lia.
        -- assert (x = 0) by lia. subst x. cbn [app length]. rewrite dval_cons. change (0 / 10) with 0. lia.
    + rewrite orb_false_r. destruct (N.ltb_spec 0 x) as [Hp|Hp].
      * destruct (nibble_sweep tmp (x mod 10) Ht ltac:(lia)) as (_ & _ & _ & A2 & _ & A3 & _).
        destruct (Hq Hp) as [K1 K2].
        destruct (IH (x / 10) true (set_right tmp (x mod 10)) free written) as (l & E & O & L & D & V); auto.
        { intros _. rewrite A2. lia. }
        exists l. split; auto. split; auto. split; auto. split; auto.
        rewrite V, A2, Nat.add_1_r, Nat.add_0_r, Nat2N.inj_succ, N.pow_succ_r'.
        pose proof (N.div_mod x 10 ltac:(lia)) as Dx. set (q := x / 10) in *. set (m := x mod 10) in *. clearbody q m. subst x. lia.
      * exists (repeat 255 free ++ written). split; auto. split; [|split; [|split]].
        -- apply bytes_ok_app. split; auto. apply bytes_ok_repeat. reflexivity.
        -- rewrite app_length, repeat_length. lia.
        -- rewrite nibbles_app, sig_app, sig_repeat255. auto.
        -- rewrite nibbles_app, sig_app, sig_repeat255. cbn [app]. assert (x = 0) by lia. subst x. lia.
Qed.

(** strings *)
Definition is_digit (c : N) : Prop := 48 <= c /\ c <= 57.

Lemma digit_htoc_ok : forall c, is_digit c -> digit_htoc c = Ok (c - 48).
Proof.
  intros c [H1 H2]. unfold digit_htoc. destruct (N.ltb_spec c 48); [lia|]. destruct (N.ltb_spec 57 c); [lia|]. reflexivity.
Qed.
Lemma digit_htoc_err : forall c, ~ is_digit c -> digit_htoc c = Err Edeci.
Proof.
  intros c H. unfold digit_htoc, is_digit in *. destruct (N.ltb_spec c 48); [reflexivity|].
  destruct (N.ltb_spec 57 c); [reflexivity|lia].
Qed.

Lemma str_loop_ok : forall rs (recule : bool) tmp free written,
  Forall is_digit rs -> tmp < 256 -> bytes_ok written ->
  (length rs + (if recule then 1 else 0) <= 2 * free)%nat -> (recule = true -> get_right tmp < 10) ->
  exists l, deci_str_loop rs recule tmp free written = Ok l /\ bytes_ok l /\ length l = (free + length written)%nat /\
    sig (nibbles l) = rev (map (fun c => c - 48) rs) ++ (if recule then [get_right tmp] else []) ++ sig (nibbles written).
Proof.
  induction rs as [|c r IH]; intros recule tmp free written Hd Ht Hw Hf Hr; cbn [deci_str_loop].
  - destruct recule; cbn [length] in Hf.
    + destruct free as [|f]; [lia|].
      destruct (nibble_sweep tmp 15 Ht ltac:(lia)) as (A1 & A2 & _ & _ & A3 & _).
      eexists. split; [reflexivity|]. split; [|split].
      * apply bytes_ok_app. split; [apply bytes_ok_repeat; reflexivity|]. apply bytes_ok_cons; auto.
      * rewrite app_length, repeat_length. cbn [length]. lia.
      * rewrite nibbles_app, sig_app, sig_repeat255. cbn [app rev map].
        rewrite nibbles_cons, !sig_cons, A1, A2. cbn [N.eqb Pos.eqb].
        destruct (N.eqb_spec (get_right tmp) 15) as [Q|Q]; [specialize (Hr eq_refl); lia|reflexivity].
    + eexists. split; [reflexivity|]. split; [|split].
      * apply bytes_ok_app. split; auto. apply bytes_ok_repeat; reflexivity.
      * rewrite app_length, repeat_length. lia.
      * rewrite nibbles_app, sig_app, sig_repeat255. reflexivity.
  - inversion Hd as [|? ? Hc Hrest]; subst. rewrite digit_htoc_ok by auto. cbn [bind]. cbn [length] in Hf.
    assert (Hc10 : c - 48 < 10) by (destruct Hc; lia).
    destruct recule.
    + destruct free as [|f]; [lia|].
      destruct (nibble_sweep tmp (c - 48) Ht ltac:(lia)) as (A1 & A2 & _ & _ & A3 & _).
      destruct (IH false (set_left tmp (c - 48)) f (set_left tmp (c - 48) :: written)) as (l & E & O & L & S); auto; try lia; try discriminate.
      { apply bytes_ok_cons; auto. }
      exists l. split; auto. split; auto. split; [rewrite L; cbn [length]; lia|].
      rewrite S. cbn [app map rev]. rewrite nibbles_cons, !sig_cons, A1, A2.
      destruct (N.eqb_spec (c - 48) 15); [lia|].
      destruct (N.eqb_spec (get_right tmp) 15) as [Q|Q]; [specialize (Hr eq_refl); lia|].
      rewrite <- app_assoc. reflexivity.
    + destruct (nibble_sweep tmp (c - 48) Ht ltac:(lia)) as (_ & _ & _ & A2 & _ & A3 & _).
      destruct (IH true (set_right tmp (c - 48)) free written) as (l & E & O & L & S); auto; try lia.
      exists l. split; auto. split; auto. split; auto.
      rewrite S, A2. cbn [map rev]. rewrite <- app_assoc. reflexivity.
Qed.

Lemma str_loop_err : forall rs (recule : bool) tmp free written, ~ Forall is_digit rs ->
  (length rs + (if recule then 1 else 0) <= 2 * free)%nat ->
  deci_str_loop rs recule tmp free written = Err Edeci.
Proof.
  induction rs as [|c r IH]; intros recule tmp free written Hn Hf; cbn [deci_str_loop]; [exfalso; apply Hn; constructor|].
  cbn [length] in Hf.
  assert (D : is_digit c \/ ~ is_digit c) by (unfold is_digit; lia).
  destruct D as [D|D].
  - rewrite digit_htoc_ok by auto. cbn [bind].
    assert (~ Forall is_digit r) by (intro Q; apply Hn; constructor; auto).
    destruct recule.
    + destruct free as [|f]; [lia|]. apply IH; auto; lia.
    + apply IH; auto; lia.
  - rewrite digit_htoc_err by auto. reflexivity.
Qed.

Lemma str_size : forall s : list N, let size := (if Nat.even (length s) then length s / 2 else length s / 2 + 1)%nat in
  (length s <= 2 * size)%nat /\ (size = 0%nat <-> s = []).
Proof.
  intros s size. unfold size.
  pose proof (Nat.div_mod (length s) 2 ltac:(lia)) as D. pose proof (Nat.mod_upper_bound (length s) 2 ltac:(lia)) as M.
  destruct (Nat.even (length s)) eqn:E.
  - apply Nat.even_spec in E. destruct E as [m E]. split; [lia|].
    split; intro H; [destruct s; auto; cbn [length] in *; lia|subst s; reflexivity].
  - split; [lia|]. split; intro H; [lia|subst s; discriminate].
Qed.

Lemma deci_of_string_ok : forall s, s <> [] -> Forall is_digit s ->
  exists l, deci_of_string s = Ok l /\ sig (nibbles l) = reduce (map (fun c => c - 48) s).
Proof.
  intros s Hn Hd. unfold deci_of_string. destruct (str_size s) as [S1 S2]. cbv zeta in *.
  set (size := (if Nat.even (length s) then length s / 2 else length s / 2 + 1)%nat) in *.
  destruct (Nat.eqb_spec size 0) as [Z|Z]; [apply S2 in Z; contradiction|].
  destruct (str_loop_ok (rev s) false 255 size []) as (l & E & O & L & V); auto using bytes_ok_nil.
  - apply Forall_rev; auto.
  - lia.
  - rewrite rev_length. lia.
  - discriminate.
  - rewrite E. cbn [bind]. eexists. split; [reflexivity|]. rewrite deci_reduce_spec; auto.
    + rewrite V. cbn [app]. rewrite app_nil_r, map_rev, rev_involutive. reflexivity.
    + intro Q. subst l. cbn [length] in L. lia.
Qed.

Lemma deci_of_string_err : forall s, s <> [] -> ~ Forall is_digit s -> deci_of_string s = Err Edeci.
Proof.
  intros s Hn Hd. unfold deci_of_string. destruct (str_size s) as [S1 S2]. cbv zeta in *.
  set (size := (if Nat.even (length s) then length s / 2 else length s / 2 + 1)%nat) in *.
  destruct (Nat.eqb_spec size 0) as [Z|Z]; [apply S2 in Z; contradiction|].
  rewrite str_loop_err; auto.
  - intro Q. apply Hd. rewrite <- (rev_involutive s). apply Forall_rev. exact Q.
  - rewrite rev_length. lia.
Qed.

Lemma deci_of_int_ok : forall x, exists l, deci_of_int x = Ok l /\
  Forall (fun d => d < 10) (sig (nibbles l)) /\ dval (sig (nibbles l)) = x /\
  canon (sig (nibbles l)).
Proof.
  intro x. unfold deci_of_int.
  destruct (decicoupe_spec (S (S (N.to_nat (N.size x)))) x false 0 PAS []) as (l & E & O & L & D & V); auto using bytes_ok_nil.
  - replace (S (S (N.to_nat (N.size x))) - 2)%nat with (N.to_nat (N.size x)) by lia. rewrite N2Nat.id. apply N.size_gt.
  - lia.
  - lia.
  - discriminate.
  - constructor.
  - rewrite E. cbn [bind]. eexists. split; [reflexivity|].
    rewrite deci_reduce_spec; auto; [|intro Q; subst l; cbn [length] in L; unfold PAS in L; lia].
    rewrite dval_reduce, V. split; [|split].
    + unfold reduce. pose proof (Forall_strip0 _ _ D) as F. destruct (strip0 (sig (nibbles l))); auto. repeat constructor.
    + unfold dval. cbn [nibbles sig filter flat_map length fold_left Nat.add]. change (N.of_nat 0) with 0. rewrite N.pow_0_r. lia.
    + apply reduce_canon.
Qed.

(** uniqueness of the decimal notation *)
Lemma dval_bound : forall ds, Forall (fun d => d < 10) ds -> dval ds < 10 ^ N.of_nat (length ds).
Proof.
  induction ds as [|d ds IH]; intro H; cbn [length].
  - reflexivity.
  - inversion H; subst. rewrite dval_cons, Nat2N.inj_succ, N.pow_succ_r'. specialize (IH H3). nia.
Qed.
Lemma dval_inj_len : forall a b, length a = length b -> Forall (fun d => d < 10) a -> Forall (fun d => d < 10) b ->
  dval a = dval b -> a = b.
Proof.
  induction a as [|x a IH]; intros [|y b] Hl Ha Hb Hv; cbn [length] in Hl; try lia; auto.
  inversion Ha as [|? ? Hx Ha']; subst. inversion Hb as [|? ? Hy Hb']; subst.
  rewrite !dval_cons in Hv. injection Hl as Hl. rewrite <- Hl in Hv.
  pose proof (dval_bound a Ha') as B1. pose proof (dval_bound b Hb') as B2. rewrite <- Hl in B2.
  assert (x = y) by nia. subst y. f_equal. apply IH; auto. lia.
Qed.
Lemma dcanon_lower : forall a, canon a -> a <> [0] -> 10 ^ N.of_nat (length a - 1) <= dval a.
Proof.
  intros a [H|[b [r [H Hb]]]] Hne; [contradiction|]. subst a.
  cbn [length]. replace (S (length r) - 1)%nat with (length r) by lia.
  rewrite dval_cons. nia.
Qed.
Lemma dcanon_len : forall a b, canon a -> canon b -> Forall (fun d => d < 10) a -> Forall (fun d => d < 10) b ->
  (length a < length b)%nat -> dval a < dval b.
Proof.
  intros a b Ha Hb Hoa Hob Hl.
  assert (Hb0 : b <> [0]).
  { intro E. subst b. cbn [length] in Hl. destruct a; [apply (canon_ne _ Ha); reflexivity|cbn in Hl; lia]. }
  pose proof (dcanon_lower b Hb Hb0) as H1.
  pose proof (dval_bound a Hoa) as H2.
  assert (H3 : 10 ^ N.of_nat (length a) <= 10 ^ N.of_nat (length b - 1)) by (apply N.pow_le_mono_r; lia). lia.
Qed.
Lemma dcanon_unique : forall a b, canon a -> canon b -> Forall (fun d => d < 10) a -> Forall (fun d => d < 10) b ->
  dval a = dval b -> a = b.
Proof.
  intros a b Ha Hb Hoa Hob Hv. apply dval_inj_len; auto.
  destruct (lt_eq_lt_dec (length a) (length b)) as [[H|H]|H]; auto.
  - pose proof (dcanon_len a b Ha Hb Hoa Hob H). lia.
  - pose proof (dcanon_len b a Hb Ha Hob Hoa H). lia.
Qed.

(** the decimal notation of an integer, independent of deci *)
Definition str_value (s : list N) : N := fold_left (fun a c => a * 10 + (c - 48)) s 0.
Lemma str_value_dval : forall s, str_value s = dval (map (fun c => c - 48) s).
Proof.
  intro s. unfold str_value, dval. generalize 0. induction s as [|c s IH]; intro a; cbn [fold_left map]; auto.
Qed.
Definition canonical_numeral (s : list N) : Prop :=
  s <> [] /\ Forall is_digit s /\ (s = [48] \/ hd 48 s <> 48).

Lemma map_digits : forall ds, Forall (fun d => d < 10) ds ->
  Forall is_digit (map (fun d => 48 + d) ds) /\ map (fun c => c - 48) (map (fun d => 48 + d) ds) = ds.
Proof.
  induction ds as [|d ds IH]; intro H; cbn [map]; [auto|].
  inversion H as [|? ? Hd Hds]; subst. destruct (IH Hds) as [A B]. split.
  - constructor; auto. unfold is_digit. lia.
  - rewrite B. f_equal. lia.
Qed.

Lemma int_to_string_spec : forall x, exists s, int_to_string x = Ok s /\ canonical_numeral s /\ str_value s = x.
Proof.
  intro x. unfold int_to_string. destruct (deci_of_int_ok x) as (l & E & D & V & C). rewrite E. cbn [bind].
  rewrite human_sig by auto. eexists. split; [reflexivity|].
  destruct (map_digits _ D) as [M1 M2]. split.
  - split; [|split; auto].
    + intro Q. apply map_eq_nil in Q. apply (canon_ne _ C). exact Q.
    + destruct C as [->|(b & r & -> & Hb)]; [left; reflexivity|right]. cbn [map hd]. lia.
  - rewrite str_value_dval, M2. exact V.
Qed.

Lemma string_to_int_spec : forall s, s <> [] -> Forall is_digit s -> string_to_int s = Ok (str_value s).
Proof.
  intros s Hn Hd. unfold string_to_int. destruct (deci_of_string_ok s Hn Hd) as (l & E & S). rewrite E. cbn [bind].
  rewrite computer_sig, S, dval_reduce, str_value_dval. reflexivity.
Qed.

Lemma canonical_unique : forall s t, canonical_numeral s -> canonical_numeral t -> str_value s = str_value t -> s = t.
Proof.
  intros s t (S1 & S2 & S3) (T1 & T2 & T3) E. rewrite !str_value_dval in E.
  assert (G : forall u, u <> [] -> Forall is_digit u -> (u = [48] \/ hd 48 u <> 48) ->
     canon (map (fun c => c - 48) u) /\ Forall (fun d => d < 10) (map (fun c => c - 48) u) /\ map (fun d => 48 + d) (map (fun c => c - 48) u) = u).
  { clear. intros u U1 U2 U3. split; [|split].
    - destruct U3 as [->|U3]; [left; reflexivity|]. destruct u as [|c r]; [congruence|]. right. cbn [map hd] in *.
      inversion U2 as [|? ? [Q1 Q2] _]; subst. exists (c - 48), (map (fun c => c - 48) r). split; auto. lia.
    - clear - U2. induction U2 as [|c r [Q1 Q2] _ IH]; cbn [map]; constructor; auto. lia.
    - clear - U2. induction U2 as [|c r [Q1 Q2] _ IH]; cbn [map]; auto. rewrite IH. f_equal. lia. }
  destruct (G s S1 S2 S3) as (A1 & A2 & A3). destruct (G t T1 T2 T3) as (B1 & B2 & B3).
  rewrite <- A3, <- B3. f_equal. apply dcanon_unique; auto.
Qed.
