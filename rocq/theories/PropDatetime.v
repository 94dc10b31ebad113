(** * Property C19: dates. *)
From Verif Require Import Base NumModel InfinintModel InfinintProof2 DatetimeModel.
Open Scope N_scope.

(** ** Specification: the instant of a date, in nanoseconds since 1970 *)
Definition G : N := 1000000000.
Definition unit_ns (u : time_unit) : N := match u with tu_s => G | tu_us => 1000 | tu_ns => 1 end.
Definition instant (d : datetime) : N := val d * unit_ns (uni d).

(** ** Dates a program can hold: everything obtained from the constructors, the arithmetic and the readers *)
Inductive date : datetime -> Prop :=
  | d_seconds : forall v, date (dt_seconds v)
  | d_build : forall s n u d, dt_build s n u = Ok d -> date d
  | d_add : forall a b d, date a -> date b -> dt_add a b = Ok d -> date d
  | d_sub : forall a b d, date a -> date b -> dt_sub a b = Ok d -> date d
  | d_diff : forall cap a b d, date a -> date b -> loose_diff cap a b = Ok d -> date d
  | d_read : forall ver f d f', dt_read ver f = Ok (d, f') -> date d.

Lemma euclide_ok : forall a b, b <> 0 -> neuclide a b = Ok (a / b, a mod b).
Proof. intros a b H. unfold neuclide. destruct (N.eqb_spec b 0); [congruence|reflexivity]. Qed.
Lemma scaling_spec : forall s d, unit_lt s d = false -> exists f, scaling s d = Ok f /\ unit_ns s = f * unit_ns d /\ f <> 0.
Proof.
  intros s d H. destruct s, d; try discriminate; cbn; eexists; (split; [reflexivity|]); cbn; unfold G; lia.
Qed.
Definition canonical (d : datetime) : Prop :=
  match uni d with
  | tu_s => True
  | tu_us => val d mod 1000000 <> 0
  | tu_ns => val d mod 1000 <> 0
  end.
Lemma reduce_spec : forall d, exists r, reduce_unit d = Ok r /\ canonical r /\ instant r = instant d.
Proof.
  intros [v u]. unfold reduce_unit. cbn [val uni]. destruct (N.eqb_spec v 0) as [->|Hv].
  - eexists. split; [reflexivity|]. split; [exact I|]. unfold instant. cbn. lia.
  - assert (U : forall q, exists r, reduce_us q = Ok r /\ canonical r /\ instant r = q * 1000).
    { intro q. unfold reduce_us. change (scaling tu_s tu_us) with (@Ok N 1000000). cbn [bind].
      rewrite euclide_ok by lia. cbn [bind]. destruct (N.eqb_spec (q mod 1000000) 0) as [E|E]; cbn [negb]; eexists; (split; [reflexivity|]).
      - split; [exact I|]. unfold instant. cbn [val uni unit_ns]. unfold G. lia.
      - split; [exact E|]. reflexivity. }
    destruct u.
    + change (scaling tu_us tu_ns) with (@Ok N 1000). cbn [bind]. rewrite euclide_ok by lia. cbn [bind].
      destruct (N.eqb_spec (v mod 1000) 0) as [E|E]; cbn [negb].
      * destruct (U (v / 1000)) as (r & -> & C & V). exists r. split; [reflexivity|]. split; [exact C|]. rewrite V. unfold instant. cbn [val uni unit_ns]. lia.
      * eexists. split; [reflexivity|]. split; [exact E|reflexivity].
    + destruct (U v) as (r & -> & C & V). exists r. split; [reflexivity|]. split; [exact C|]. rewrite V. reflexivity.
    + eexists. split; [reflexivity|]. split; [exact I|reflexivity].
Qed.
Lemma canonical_unique : forall a b, canonical a -> canonical b -> instant a = instant b -> a = b.
Proof.
  intros [v u] [w t] A B E. unfold canonical, instant in *. cbn [val uni] in *. destruct u, t; cbn [unit_ns] in E; unfold G in *; f_equal; try lia; exfalso; lia.
Qed.

Lemma cancel_lt : forall a b k, 0 < k -> (a * k < b * k <-> a < b).
Proof. intros a b k H. split; intro Q; nia. Qed.
Lemma cancel_le : forall a b k, 0 < k -> (a * k <= b * k <-> a <= b).
Proof. intros a b k H. split; intro Q; nia. Qed.
Lemma floor_lt : forall f q r w, r < f -> (f * q + r < w * f <-> q < w).
Proof. intros f q r w H. split; intro Q; nia. Qed.

(** ** Theorems *)
(** the order is that of the instants, whatever the units *)
Theorem C19_order : forall a b, dt_lt a b = Ok (instant a <? instant b).
Proof.
  intros [v u] [w t]. unfold dt_lt, instant. cbn [val uni].
  destruct (unit_lt t u) eqn:L1; cbn [negb andb].
  - (* u > t *)
    assert (L2 : unit_lt u t = false) by (destruct u, t; try discriminate; reflexivity).
    assert (L3 : unit_eqb u t = false) by (destruct u, t; try discriminate; reflexivity). rewrite L2, L3.
    destruct (scaling_spec u t L2) as (f & -> & E & Hf). cbn [bind]. rewrite euclide_ok by auto. cbn [bind]. f_equal. rewrite E.
    assert (D : w = f * (w / f) + w mod f) by (apply N.div_mod; auto). assert (M : w mod f < f) by (apply N.mod_lt; auto).
    assert (T : 0 < unit_ns t) by (destruct t; cbn; unfold G; lia).
    clear L1 L2 L3 E. revert D M T. generalize (w / f) (w mod f) (unit_ns t). intros q r k D M T. subst w.
    rewrite N.mul_assoc. destruct (N.ltb_spec (v * f * k) ((f * q + r) * k)) as [H|H].
    + apply cancel_lt in H; [|exact T]. assert (v <= q) by nia. apply orb_true_iff. destruct (N.eq_dec v q) as [->|].
      * left. rewrite N.eqb_refl. cbn [andb]. destruct (N.eqb_spec r 0); [nia|reflexivity].
      * right. apply N.ltb_lt. lia.
    + apply cancel_le in H; [|exact T]. apply orb_false_iff. split.
      * destruct (N.eqb_spec v q) as [->|]; [|reflexivity]. cbn [andb]. destruct (N.eqb_spec r 0); [reflexivity|nia].
      * apply N.ltb_ge. nia.
  - (* u <= t *)
    destruct (scaling_spec t u L1) as (f & Ef & E & Hf). rewrite E.
    assert (T : 0 < unit_ns u) by (destruct u; cbn; unfold G; lia).
    destruct (N.ltb_spec v w) as [H|H].
    + f_equal. symmetry. apply N.ltb_lt. clear - H T Hf. assert (1 <= f) by lia. assert (w <= w * f) by nia. nia.
    + destruct (unit_lt u t) eqn:L2.
      * rewrite Ef. cbn [bind]. rewrite euclide_ok by auto. cbn [bind]. f_equal.
        assert (D : v = f * (v / f) + v mod f) by (apply N.div_mod; auto). assert (M : v mod f < f) by (apply N.mod_lt; auto).
        clear L1 L2 E H. revert D M T. generalize (v / f) (v mod f) (unit_ns u). intros q r k D M T. subst v.
        rewrite N.mul_assoc. apply Bool.eq_iff_eq_true. rewrite !N.ltb_lt, cancel_lt, floor_lt by auto. reflexivity.
      * assert (u = t) as -> by (destruct u, t; try discriminate; reflexivity).
        replace (unit_eqb t t) with true by (destruct t; reflexivity). f_equal.
        assert (f = 1) as -> by (destruct t; cbn in Ef; congruence).
        destruct (N.ltb_spec v w); [lia|]. symmetry. apply N.ltb_ge. nia.
Qed.
Print Assumptions C19_order.

(** sums and differences are exact; a negative result is refused *)
Lemma scale_down : forall a (u : time_unit), exists a', (if unit_lt u (uni a) then let* f := scaling (uni a) u in Ok (DT (val a * f) u) else Ok a) = Ok a' /\
  instant a' = instant a /\ unit_lt u (uni a') = false.
Proof.
  intros [v t] u. cbn [val uni]. destruct (unit_lt u t) eqn:L.
  - destruct (scaling_spec t u) as (f & -> & E & _); [destruct u, t; try discriminate; reflexivity|]. cbn [bind]. eexists. split; [reflexivity|].
    unfold instant. cbn [val uni]. rewrite E. split; [lia|]. destruct u; reflexivity.
  - eexists. split; [reflexivity|]. split; [reflexivity|exact L].
Qed.
Theorem C19_add : forall a b, exists r, dt_add a b = Ok r /\ instant r = instant a + instant b.
Proof.
  intros a b. unfold dt_add. destruct (scale_down a (uni b)) as (a' & -> & E & L). cbn [bind].
  destruct (unit_eqb (uni b) (uni a')) eqn:Q.
  - cbn [bind]. destruct (reduce_spec (DT (val a' + val b) (uni a'))) as (r & -> & _ & V). exists r. split; [reflexivity|].
    rewrite V, <- E. unfold instant. cbn [val uni]. replace (uni b) with (uni a') by (destruct (uni b), (uni a'); try discriminate; reflexivity). lia.
  - destruct (scaling_spec (uni b) (uni a') L) as (f & -> & F & _). cbn [bind].
    destruct (reduce_spec (DT (val a' + val b * f) (uni a'))) as (r & -> & _ & V). exists r. split; [reflexivity|].
    rewrite V, <- E. unfold instant. cbn [val uni]. rewrite F. lia.
Qed.
Print Assumptions C19_add.
Theorem C19_sub : forall a b, (instant b <= instant a -> exists r, dt_sub a b = Ok r /\ instant r = instant a - instant b) /\
  (instant a < instant b -> dt_sub a b = Err Ebug).
Proof.
  intros a b. unfold dt_sub. destruct (scale_down a (uni b)) as (a' & -> & E & L). cbn [bind]. rewrite <- E.
  assert (T : 0 < unit_ns (uni a')) by (destruct (uni a'); cbn; unfold G; lia).
  destruct (unit_eqb (uni b) (uni a')) eqn:Q.
  - assert (U : uni b = uni a') by (destruct (uni b), (uni a'); try discriminate; reflexivity). unfold instant. rewrite U.
    split; intro H.
    + assert (val b <= val a') by (clear - H T; nia). destruct (N.ltb_spec (val a') (val b)); [lia|]. rewrite nsub_ok by lia. cbn [bind].
      destruct (reduce_spec (DT (val a' - val b) (uni a'))) as (r & -> & _ & V). exists r. split; [reflexivity|].
      change (val r * unit_ns (uni r)) with (instant r). rewrite V. unfold instant. cbn [val uni]. apply N.mul_sub_distr_r.
    + assert (val a' < val b) by (clear - H T; nia). destruct (N.ltb_spec (val a') (val b)); [reflexivity|lia].
  - destruct (scaling_spec (uni b) (uni a') L) as (f & -> & F & _). cbn [bind]. unfold instant. rewrite F. rewrite N.mul_assoc. split; intro H.
    + assert (val b * f <= val a') by (clear - H T; nia). destruct (N.ltb_spec (val a') (val b * f)); [lia|]. rewrite nsub_ok by lia. cbn [bind].
      destruct (reduce_spec (DT (val a' - val b * f) (uni a'))) as (r & -> & _ & V). exists r. split; [reflexivity|].
      change (val r * unit_ns (uni r)) with (instant r). rewrite V. unfold instant. cbn [val uni]. apply N.mul_sub_distr_r.
    + assert (val a' < val b * f) by (clear - H T; nia). destruct (N.ltb_spec (val a') (val b * f)); [reflexivity|lia].
Qed.
Print Assumptions C19_sub.
(** a date made of seconds and a fraction is that instant (a fraction given in seconds is ignored) *)
Theorem C19_build : forall sec sub u, exists d, dt_build sec sub u = Ok d /\
  instant d = sec * G + (match u with tu_s => 0 | _ => sub * unit_ns u end).
Proof.
  intros sec sub u. unfold dt_build.
  destruct u; cbn [unit_eqb rank N.eqb Pos.eqb].
  - change (scaling tu_s tu_ns) with (@Ok N 1000000000). cbn [bind]. destruct (reduce_spec (DT (sec * 1000000000 + sub) tu_ns)) as (r & -> & _ & V).
    exists r. split; [reflexivity|]. rewrite V. unfold instant, G. cbn [val uni unit_ns]. lia.
  - change (scaling tu_s tu_us) with (@Ok N 1000000). cbn [bind]. destruct (reduce_spec (DT (sec * 1000000 + sub) tu_us)) as (r & -> & _ & V).
    exists r. split; [reflexivity|]. rewrite V. unfold instant, G. cbn [val uni unit_ns]. lia.
  - cbn [bind]. destruct (reduce_spec (DT sec tu_s)) as (r & -> & _ & V). exists r. split; [reflexivity|]. rewrite V. unfold instant, G. cbn [val uni unit_ns]. unfold G. lia.
Qed.
Print Assumptions C19_build.

Lemma reduce_canonical : forall d r, reduce_unit d = Ok r -> canonical r.
Proof. intros d r H. destruct (reduce_spec d) as (r' & E & C & _). congruence. Qed.
Lemma build_canonical : forall s n u d, dt_build s n u = Ok d -> canonical d.
Proof.
  intros s n u d H. unfold dt_build in H. destruct (if unit_eqb tu_s u then Ok s else let* f := scaling tu_s u in Ok (s * f + n)); [|discriminate].
  cbn [bind] in H. eapply reduce_canonical; eauto.
Qed.
Lemma date_canonical : forall d, date d -> canonical d.
Proof.
  induction 1 as [v|s n u d H|a b d _ _ _ _ H|a b d _ _ _ _ H|cap a b d _ _ _ _ H|ver f d f' H].
  - exact I.
  - eapply build_canonical; eauto.
  - unfold dt_add in H. destruct (scale_down a (uni b)) as (a' & E & _). rewrite E in H. cbn [bind] in H.
    match type of H with bind ?x _ = _ => destruct x; [|discriminate] end. cbn [bind] in H. eapply reduce_canonical; eauto.
  - unfold dt_sub in H. destruct (scale_down a (uni b)) as (a' & E & _). rewrite E in H. cbn [bind] in H.
    match type of H with bind ?x _ = _ => destruct x; [|discriminate] end. cbn [bind] in H. eapply reduce_canonical; eauto.
  - unfold loose_diff in H. cbv zeta in H. destruct (to_unit a _); [|discriminate]. cbn [bind] in H. destruct (to_unit b _); [|discriminate]. cbn [bind] in H.
    destruct (a0 <? a1); [discriminate|]. destruct (nsub a0 a1); [|discriminate]. cbn [bind] in H. eapply reduce_canonical; eauto.
  - unfold dt_read in H. match type of H with bind ?x _ = _ => destruct x as [[u g]|]; [|discriminate] end. cbn [bind] in H.
    destruct (readN g) as [[s g2]|]; [|discriminate]. cbn [bind] in H.
    match type of H with bind ?x _ = _ => destruct x as [[n g3]|]; [|discriminate] end. cbn [bind] in H.
    destruct (dt_build s n u) eqn:E; [|discriminate]. cbn [bind] in H. injection H as <- _. eapply build_canonical; eauto.
Qed.
(** two dates are equal exactly when they are the same instant, whatever the way they were obtained *)
Theorem C19_equality : forall a b, date a -> date b -> (dt_eq a b = true <-> instant a = instant b).
Proof.
  intros a b Ha Hb. apply date_canonical in Ha, Hb. unfold dt_eq. rewrite andb_true_iff, N.eqb_eq. split.
  - intros [U V]. unfold instant. rewrite V. f_equal. destruct (uni a), (uni b); try discriminate; reflexivity.
  - intro E. rewrite (canonical_unique a b Ha Hb E). split; [|reflexivity]. destruct (uni b); reflexivity.
Qed.
Print Assumptions C19_equality.

(** the seconds and the fraction in a given unit *)
Theorem C19_get_value : forall d u, get_value d u = Ok (instant d / G, (instant d mod G) / unit_ns u).
Proof.
  intros [v t] u. unfold get_value, instant. cbn [val uni].
  assert (Hd : forall a b c, b <> 0 -> c <> 0 -> (a * b) / (c * b) = a / c) by (intros; apply N.div_mul_cancel_r; auto).
  destruct t, u; cbn [scaling unit_lt rank N.ltb N.compare Pos.compare Pos.compare_cont bind unit_ns]; unfold G;
    repeat (rewrite euclide_ok by lia; cbn [bind]); f_equal; f_equal; lia.
Qed.
Print Assumptions C19_get_value.

(** A stored date is read back identical, unit included, with the rest of the file untouched. *)
Theorem C19_dump_read : forall d ver rest, date d -> 9 <= ver ->
  exists bytes, dt_dump d = Ok bytes /\ dt_read ver (bytes ++ rest) = Ok (d, rest).
Proof.
  intros d ver rest Hd Hv. apply date_canonical in Hd. unfold dt_dump. rewrite C19_get_value. cbn [bind]. eexists. split; [reflexivity|].
  unfold dt_read. destruct (N.ltb_spec ver 9); [lia|]. cbn [app read1].
  replace (char_unit (unit_char (uni d))) with (@Ok time_unit (uni d)) by (destruct (uni d); reflexivity). cbn [bind].
  rewrite <- app_assoc, readN_dumpN. cbn [bind].
  assert (B : forall sub, (unit_lt (uni d) tu_s = true -> sub = (instant d mod G) / unit_ns (uni d)) -> dt_build (instant d / G) sub (uni d) = Ok d).
  { intros sub Hs. destruct (C19_build (instant d / G) sub (uni d)) as (r & E & V). rewrite E. f_equal. apply canonical_unique; [eapply build_canonical; eauto|exact Hd|].
    rewrite V. unfold instant in *. destruct (uni d); cbn [unit_ns] in *; unfold G in *.
    - rewrite Hs by reflexivity. lia.
    - rewrite Hs by reflexivity. lia.
    - lia. }
  destruct (unit_lt (uni d) tu_s) eqn:L.
  - rewrite readN_dumpN. cbn [bind]. rewrite B by auto. reflexivity.
  - cbn [app bind]. rewrite B by (intro; discriminate). reflexivity.
Qed.
Print Assumptions C19_dump_read.
(** a truncated date is reported *)
Theorem C19_truncated : forall d ver bytes p q, date d -> 9 <= ver -> dt_dump d = Ok bytes -> bytes = p ++ q -> q <> [] -> dt_read ver p = Err Erange.
Proof.
  intros d ver bytes p q Hd Hv Hb E Hq. unfold dt_dump in Hb. rewrite C19_get_value in Hb. cbn [bind] in Hb. injection Hb as <-.
  unfold dt_read. destruct (N.ltb_spec ver 9); [lia|]. destruct p as [|c p]; [reflexivity|]. cbn [app] in E. injection E as <- E. cbn [read1].
  replace (char_unit (unit_char (uni d))) with (@Ok time_unit (uni d)) by (destruct (uni d); reflexivity). cbn [bind].
  remember (dumpN (instant d / G)) as A eqn:EA.
  destruct (Nat.lt_ge_cases (length p) (length A)) as [L|L].
  - assert (exists z, A = p ++ z /\ z <> []) as (z & Ez & Hz).
    { exists (skipn (length p) A). split.
      - assert (F : firstn (length p) (A ++ if unit_lt (uni d) tu_s then dumpN ((instant d mod G) / unit_ns (uni d)) else []) = p).
        { rewrite E. apply firstn_app_exact. }
        rewrite firstn_app in F. replace (length p - length A)%nat with 0%nat in F by lia. rewrite firstn_O, app_nil_r in F.
        rewrite <- F at 1. symmetry. apply firstn_skipn.
      - intro Q. apply (f_equal (@length N)) in Q. rewrite skipn_length in Q. cbn in Q. lia. }
    rewrite EA in Ez. rewrite (readN_prefix _ p z Ez Hz). reflexivity.
  - assert (exists p2, p = A ++ p2) as (p2 & ->).
    { exists (skipn (length A) p). assert (F : firstn (length A) (p ++ q) = A) by (rewrite <- E; apply firstn_app_exact).
      rewrite firstn_app in F. replace (length A - length p)%nat with 0%nat in F by lia. rewrite firstn_O, app_nil_r in F.
      rewrite <- F at 1. symmetry. apply firstn_skipn. }
    rewrite <- app_assoc in E. apply app_inv_head in E. rewrite EA, readN_dumpN. cbn [bind].
    destruct (unit_lt (uni d) tu_s).
    + rewrite (readN_prefix _ p2 q E Hq). reflexivity.
    + symmetry in E. apply app_eq_nil in E. tauto.
Qed.
Print Assumptions C19_truncated.
(** dates of archives older than format 9: a number of seconds *)
Theorem C19_read_old : forall ver s rest, ver < 9 -> dt_read ver (dumpN s ++ rest) = Ok (DT s tu_s, rest).
Proof.
  intros ver s rest H. unfold dt_read. destruct (N.ltb_spec ver 9); [|lia]. cbn [bind]. rewrite readN_dumpN. cbn [bind unit_lt rank N.ltb N.compare Pos.compare Pos.compare_cont].
  unfold dt_build. cbn [unit_eqb rank N.eqb Pos.eqb bind]. unfold reduce_unit. cbn [val uni]. destruct (N.eqb_spec s 0) as [->|]; reflexivity.
Qed.
Print Assumptions C19_read_old.

(** loose_equal compares the instants truncated to the coarser of the two units *)
Theorem C19_loose_equal : forall a b, loose_equal a b =
  Ok (instant a / unit_ns (unit_max (uni a) (uni b)) =? instant b / unit_ns (unit_max (uni a) (uni b))).
Proof.
  intros [v t] [w u]. unfold loose_equal, to_unit, instant. cbn [val uni].
  destruct t, u; cbn [scaling unit_lt unit_eqb unit_max rank N.ltb N.eqb Pos.eqb N.compare Pos.compare Pos.compare_cont bind unit_ns]; unfold G;
    repeat (rewrite euclide_ok by lia; cbn [bind]); f_equal; apply Bool.eq_iff_eq_true; rewrite !N.eqb_eq; lia.
Qed.
Print Assumptions C19_loose_equal.

Example C19_instance : (* 1.5 s < 1500000001 ns; 0.5 s + 0.5 s = 1 s *)
  exists a b c, dt_build 1 500000 tu_us = Ok a /\ dt_build 1 500000001 tu_ns = Ok b /\ dt_lt a b = Ok true /\
    dt_build 0 500000000 tu_ns = Ok c /\ dt_add c c = Ok (DT 1 tu_s) /\ date a /\ date b /\ date c.
Proof.
  do 3 eexists. split; [vm_compute; reflexivity|]. split; [vm_compute; reflexivity|]. split; [vm_compute; reflexivity|]. split; [vm_compute; reflexivity|].
  split; [vm_compute; reflexivity|]. split; [|split].
  - eapply (d_build 1 500000 tu_us). vm_compute. reflexivity.
  - eapply (d_build 1 500000001 tu_ns). vm_compute. reflexivity.
  - eapply (d_build 0 500000000 tu_ns). vm_compute. reflexivity.
Qed.
