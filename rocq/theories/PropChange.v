(** * Property C34: what a differential backup takes for unchanged. *)
From Verif Require Import Base NumModel InfinintModel DatetimeModel PropDatetime.
Open Scope N_scope.

Definition coarser (cap : time_unit) (a b : datetime) : N := unit_ns (unit_max (unit_max (uni a) (uni b)) cap).
Lemma to_unit_spec : forall d tu, unit_lt tu (uni d) = false -> to_unit d tu = Ok (instant d / unit_ns tu).
Proof.
  intros [v u] tu H. unfold to_unit, instant. cbn [val uni] in *.
  destruct u, tu; try discriminate; cbn [scaling unit_lt rank N.ltb N.compare Pos.compare Pos.compare_cont bind unit_ns]; unfold G;
    repeat (rewrite euclide_ok by lia; cbn [bind]); f_equal; lia.
Qed.
Lemma loose_diff_spec : forall cap a b, instant b <= instant a ->
  exists r, loose_diff cap a b = Ok r /\ canonical r /\ instant r = (instant a / coarser cap a b - instant b / coarser cap a b) * coarser cap a b.
Proof.
  intros cap a b H. unfold loose_diff, coarser. cbv zeta.
  replace (if unit_lt (unit_max (uni a) (uni b)) cap then cap else unit_max (uni a) (uni b)) with (unit_max (unit_max (uni a) (uni b)) cap) by reflexivity.
  set (tu := unit_max (unit_max (uni a) (uni b)) cap).
  rewrite to_unit_spec by (subst tu; destruct (uni a), (uni b), cap; reflexivity). cbn [bind].
  rewrite to_unit_spec by (subst tu; destruct (uni a), (uni b), cap; reflexivity). cbn [bind].
  assert (L : instant b / unit_ns tu <= instant a / unit_ns tu) by (apply N.div_le_mono; [destruct tu; cbn; unfold G; lia|exact H]).
  destruct (N.ltb_spec (instant a / unit_ns tu) (instant b / unit_ns tu)); [lia|]. rewrite nsub_ok by lia. cbn [bind].
  destruct (reduce_spec (DT (instant a / unit_ns tu - instant b / unit_ns tu) tu)) as (r & E & C & V). exists r. auto.
Qed.
Definition ndist (a b : N) : N := (a - b) + (b - a).
(** the comparison with an hour shift: truncated to the coarser precision, the dates differ by a whole number of hours, at most
    the shift *)
Lemma hourshift_spec : forall cap h a b, exists r, equal_with_hourshift cap h a b = Ok r /\
  (r = true <-> exists k, k <= h /\ ndist (instant a / coarser cap a b) (instant b / coarser cap a b) * coarser cap a b = k * (3600 * G)).
Proof.
  intros cap h a b. unfold equal_with_hourshift. rewrite C19_order. cbn [bind].
  assert (Cs : coarser cap a b = coarser cap b a) by (unfold coarser; destruct (uni a), (uni b), cap; reflexivity).
  assert (Cp : 0 < coarser cap a b) by (unfold coarser; destruct (unit_max _ _); cbn; unfold G; lia).
  assert (exists d, (if instant b <? instant a then loose_diff cap a b else loose_diff cap b a) = Ok d /\ canonical d /\
     instant d = ndist (instant a / coarser cap a b) (instant b / coarser cap a b) * coarser cap a b) as (d & -> & C & V).
  { destruct (N.ltb_spec (instant b) (instant a)) as [L|L].
    - destruct (loose_diff_spec cap a b) as (d & E & C & V); [lia|]. exists d. split; [exact E|]. split; [exact C|]. rewrite V. f_equal. unfold ndist.
      assert (instant b / coarser cap a b <= instant a / coarser cap a b) by (apply N.div_le_mono; lia). lia.
    - destruct (loose_diff_spec cap b a) as (d & E & C & V); [lia|]. exists d. split; [exact E|]. split; [exact C|]. rewrite V, <- Cs. f_equal. unfold ndist.
      assert (instant a / coarser cap a b <= instant b / coarser cap a b) by (apply N.div_le_mono; lia). lia. }
  rewrite <- V. clear V Cs Cp. cbn [bind]. destruct d as [v u]. unfold canonical, instant in *. cbn [val uni] in *.
  destruct (N.eqb_spec v 0) as [->|Hv].
  - eexists. split; [reflexivity|]. split; [|reflexivity]. intros _. exists 0. lia.
  - destruct u; cbn [unit_eqb rank N.eqb Pos.eqb negb unit_ns] in *.
    + eexists. split; [reflexivity|]. split; [discriminate|]. intros (k & _ & E). unfold G in E. exfalso. lia.
    + eexists. split; [reflexivity|]. split; [discriminate|]. intros (k & _ & E). unfold G in E. exfalso. lia.
    + unfold second_value. rewrite C19_get_value. cbn [bind]. unfold instant. cbn [val uni unit_ns].
      replace (v * G / G) with v by (symmetry; apply N.div_mul; unfold G; lia). rewrite euclide_ok by lia. cbn [bind].
      destruct (N.eqb_spec (v mod 3600) 0) as [M|M]; cbn [negb].
      * eexists. split; [reflexivity|]. rewrite N.leb_le. split.
        -- intro L. exists (v / 3600). split; [exact L|]. unfold G. lia.
        -- intros (k & L & E). unfold G in E. lia.
      * eexists. split; [reflexivity|]. split; [discriminate|]. intros (k & L & E). unfold G in E. exfalso. lia.
Qed.

(** the modification date is seen to have moved: with no hour shift, the dates rounded down to the coarser of their two precisions
    differ; otherwise their distance (at the coarser precision) is not a whole number of hours at most [h] *)
Definition date_seen (cap : time_unit) (this ref : inode) (h : N) : Prop :=
  if h =? 0 then let g := unit_ns (unit_max (uni (i_mod ref)) (uni (i_mod this))) in instant (i_mod ref) / g <> instant (i_mod this) / g
  else ~ exists k, k <= h /\ ndist (instant (i_mod ref) / coarser cap (i_mod ref) (i_mod this)) (instant (i_mod this) / coarser cap (i_mod ref) (i_mod this)) * coarser cap (i_mod ref) (i_mod this) = k * (3600 * G).
(** exactly what makes a file be considered changed *)
Theorem C34_changed_exactly : forall cap this ref h what, exists b, file_has_changed_since cap this ref h what = Ok b /\
  (b = true <-> (what <> F_inode_type /\ date_seen cap this ref h) \/
     (what = F_all /\ (i_uid this <> i_uid ref \/ i_gid this <> i_gid ref)) \/
     ((what = F_all \/ what = F_ignore_owner) /\ i_perm this <> i_perm ref) \/ i_size this <> i_size ref).
Proof.
  intros cap this ref h what. unfold file_has_changed_since, has_changed_since.
  assert (D : exists d, (if negb (h =? 0) then let* e := equal_with_hourshift cap h (i_mod ref) (i_mod this) in Ok (negb e)
           else let* e := loose_equal (i_mod ref) (i_mod this) in Ok (negb e)) = Ok d /\ (d = true <-> date_seen cap this ref h)).
  { unfold date_seen. destruct (h =? 0); cbn [negb].
    - rewrite C19_loose_equal. cbn [bind]. eexists. split; [reflexivity|]. rewrite negb_true_iff, N.eqb_neq. reflexivity.
    - destruct (hourshift_spec cap h (i_mod ref) (i_mod this)) as (r & -> & S). cbn [bind]. eexists. split; [reflexivity|].
      rewrite <- S. destruct r; cbn [negb]; (split; intro Q); try discriminate; try reflexivity. exfalso. apply Q. reflexivity. }
  destruct D as (d & E & S).
  assert (Ns : forall a b, negb (a =? b) = true <-> a <> b) by (intros; rewrite negb_true_iff, N.eqb_neq; reflexivity).
  assert (B : forall (c s : bool), exists b, (if c then Ok true else Ok s) = Ok b /\ (b = true <-> c = true \/ s = true)).
  { intros [|] s; eexists; (split; [reflexivity|]); split; auto; intros [?|?]; auto; discriminate. }
  destruct what; rewrite ?E; cbn [bind]; match goal with |- exists b, (if ?c then Ok true else Ok ?s) = Ok b /\ _ => destruct (B c s) as (b & Eb & Hb) end;
    exists b; (split; [exact Eb|]); rewrite Hb, ?orb_true_iff, ?Ns, ?S; clear; intuition (try discriminate; try congruence); cbn in *; try discriminate; tauto.
Qed.

(** The comparison always answers, and answers "unchanged" for an inode that did not change. *)
Theorem C34_unchanged_skipped : forall cap this ref h what,
  i_uid this = i_uid ref -> i_gid this = i_gid ref -> i_perm this = i_perm ref -> i_size this = i_size ref -> instant (i_mod this) = instant (i_mod ref) ->
  file_has_changed_since cap this ref h what = Ok false.
Proof.
  intros cap this ref h what H1 H2 H3 H4 H5. destruct (C34_changed_exactly cap this ref h what) as (b & E & S). rewrite E. f_equal.
  destruct b; [|reflexivity]. exfalso. destruct (proj1 S eq_refl) as [[_ D]|[[_ [D|D]]|[[_ D]|D]]]; try congruence.
  unfold date_seen in D. rewrite H5 in D. destruct (h =? 0); [congruence|]. apply D. exists 0. split; [lia|]. unfold ndist. rewrite N.sub_diag. reflexivity.
Qed.
Print Assumptions C34_unchanged_skipped.
(** Ownership, permission and size changes are always seen, according to the fields asked for. *)
Theorem C34_metadata_seen : forall cap this ref h what,
  (what = F_all -> i_uid this <> i_uid ref \/ i_gid this <> i_gid ref -> file_has_changed_since cap this ref h what = Ok true) /\
  (what = F_all \/ what = F_ignore_owner -> i_perm this <> i_perm ref -> file_has_changed_since cap this ref h what = Ok true) /\
  (i_size this <> i_size ref -> file_has_changed_since cap this ref h what = Ok true).
Proof.
  intros cap this ref h what. destruct (C34_changed_exactly cap this ref h what) as (b & E & S). rewrite E. repeat split; intros; f_equal; apply S; tauto.
Qed.
Print Assumptions C34_metadata_seen.
(** A modification date moved by one second or more is seen, when no hour shift is allowed ... *)
Theorem C34_date_seen : forall cap this ref what, what <> F_inode_type ->
  G <= ndist (instant (i_mod this)) (instant (i_mod ref)) -> file_has_changed_since cap this ref 0 what = Ok true.
Proof.
  intros cap this ref what Hw Hd. destruct (C34_changed_exactly cap this ref 0 what) as (b & E & S). rewrite E. f_equal. apply S. left. split; [exact Hw|].
  unfold date_seen. cbn [N.eqb]. unfold ndist, G in Hd. destruct (unit_max _ _); cbn [unit_ns]; unfold G; lia.
Qed.
Print Assumptions C34_date_seen.
(** ... as well as any change of date between two dates recorded with the same precision ... *)
Theorem C34_same_precision_seen : forall cap this ref what, what <> F_inode_type -> uni (i_mod this) = uni (i_mod ref) ->
  instant (i_mod this) <> instant (i_mod ref) -> file_has_changed_since cap this ref 0 what = Ok true.
Proof.
  intros cap this ref what Hw Hu Hd. destruct (C34_changed_exactly cap this ref 0 what) as (b & E & S). rewrite E. f_equal. apply S. left. split; [exact Hw|].
  unfold date_seen. cbn [N.eqb]. rewrite Hu. unfold instant in *. rewrite Hu in *. destruct (uni (i_mod ref)); cbn [unit_max unit_lt rank N.ltb N.compare unit_ns Pos.compare Pos.compare_cont] in *; unfold G in *; lia.
Qed.
Print Assumptions C34_same_precision_seen.
(** ... but a smaller change is missed when one of the two dates happens to be a whole number of seconds: a file whose date was
    exactly 10 s, rewritten half a second later with the same size, is taken for unchanged by the next differential backup. *)
Theorem C34_subsecond_refuted : exists this ref, date (i_mod this) /\ date (i_mod ref) /\ instant (i_mod this) <> instant (i_mod ref) /\
  forall cap, file_has_changed_since cap this ref 0 F_all = Ok false.
Proof.
  exists {| i_uid := 1; i_gid := 1; i_perm := 420; i_mod := DT 10500000 tu_us; i_size := 7 |}, {| i_uid := 1; i_gid := 1; i_perm := 420; i_mod := DT 10 tu_s; i_size := 7 |}.
  split; [apply (d_build 10 500000000 tu_ns); vm_compute; reflexivity|]. split; [apply (d_build 10 0 tu_ns); vm_compute; reflexivity|].
  split; [vm_compute; discriminate|]. intro cap. vm_compute. reflexivity.
Qed.
Print Assumptions C34_subsecond_refuted.
(** With an hour shift, a date that moved by one second or more is ignored only if it moved by whole hours (to the second), at
    most the shift. *)
Theorem C34_hourshift : forall cap this ref h what, what <> F_inode_type -> h <> 0 ->
  i_uid this = i_uid ref -> i_gid this = i_gid ref -> i_perm this = i_perm ref -> i_size this = i_size ref ->
  file_has_changed_since cap this ref h what = Ok false ->
  exists k, k <= h /\ k * 3600 * G < ndist (instant (i_mod this)) (instant (i_mod ref)) + G /\ ndist (instant (i_mod this)) (instant (i_mod ref)) < k * 3600 * G + G.
Proof.
  intros cap this ref h what Hw Hh H1 H2 H3 H4 H. destruct (C34_changed_exactly cap this ref h what) as (b & E & S). rewrite H in E. injection E as <-.
  assert (Q : ~ date_seen cap this ref h) by (intro Q; assert (false = true) by (apply S; left; auto); discriminate).
  unfold date_seen in Q. destruct (N.eqb_spec h 0); [congruence|].
  set (g := coarser cap (i_mod ref) (i_mod this)) in *. set (x := instant (i_mod ref)) in *. set (y := instant (i_mod this)) in *.
  (* the hours at most h are decided by search among the possible values *)
  assert (De : forall D, (exists k, k <= h /\ D = k * (3600 * G)) \/ ~ (exists k, k <= h /\ D = k * (3600 * G))).
  { intro D. destruct (N.eq_dec (D mod (3600 * G)) 0) as [M|M].
    - destruct (N.le_gt_cases (D / (3600 * G)) h) as [L|L].
      + left. exists (D / (3600 * G)). split; [exact L|]. pose proof (N.div_mod D (3600 * G) ltac:(unfold G; lia)). lia.
      + right. intros (k & Lk & ->). rewrite N.div_mul in L by (unfold G; lia). lia.
    - right. intros (k & Lk & ->). apply M. apply N.mod_mul. unfold G. lia. }
  destruct (De (ndist (x / g) (y / g) * g)) as [(k & Lk & Ek)|N]; [|contradiction].
  exists k. split; [exact Lk|].
  assert (Hg : 0 < g /\ g <= G) by (subst g; unfold coarser; destruct (unit_max _ cap); cbn; unfold G; lia).
  assert (X1 : x = g * (x / g) + x mod g) by (apply N.div_mod; lia). assert (X2 : x mod g < g) by (apply N.mod_lt; lia).
  assert (Y1 : y = g * (y / g) + y mod g) by (apply N.div_mod; lia). assert (Y2 : y mod g < g) by (apply N.mod_lt; lia).
  assert (Z : k * 3600 * G = ndist (x / g) (y / g) * g) by lia. rewrite Z. clear Z Ek.
  clearbody x y g. revert X1 X2 Y1 Y2. generalize (x / g) (x mod g) (y / g) (y mod g). intros p r q s X1 X2 Y1 Y2. subst x y. clear - Hg X2 Y2.
  unfold ndist. destruct (N.le_ge_cases p q).
  - replace (p - q) with 0 by lia. rewrite N.add_0_l. assert (exists e, q = p + e) as (e & ->) by (exists (q - p); lia).
    replace (p + e - p) with e by lia. replace (g * (p + e)) with (g * p + e * g) by lia. generalize dependent (e * g). generalize (g * p). intros a b. lia.
  - replace (q - p) with 0 by lia. rewrite N.add_0_r. assert (exists e, p = q + e) as (e & ->) by (exists (p - q); lia).
    replace (q + e - q) with e by lia. replace (g * (q + e)) with (g * q + e * g) by lia. generalize dependent (e * g). generalize (g * q). intros a b. lia.
Qed.
Print Assumptions C34_hourshift.

(** "more recent" (used when an entry to restore or merge meets an existing one): strictly later, and not just moved by a whole
    number of hours within the shift (dates being taken at the coarser precision of the two) *)
Theorem C34_more_recent : forall cap this ref h, exists r, more_recent cap this ref h = Ok r /\
  let g := coarser cap (i_mod ref) (i_mod this) in
  let tref := instant (i_mod ref) in let tthis := instant (i_mod this) in
  (r = true <-> tref < tthis /\ forall k, k <= h -> (tthis / g - tref / g) * g <> k * (3600 * G)).
Proof.
  intros cap this ref h. unfold more_recent. rewrite C19_order. cbn [bind]. cbv zeta. destruct (N.ltb_spec (instant (i_mod ref)) (instant (i_mod this))) as [L|L].
  2:{ eexists. split; [reflexivity|]. split; [discriminate|]. intros [? _]. lia. }
  destruct (hourshift_spec cap h (i_mod ref) (i_mod this)) as (e & -> & S). cbn [bind]. eexists. split; [reflexivity|]. set (g := coarser cap (i_mod ref) (i_mod this)) in *.
  assert (Hg : g <> 0) by (subst g; unfold coarser; destruct (unit_max _ cap); cbn; unfold G; lia).
  assert (E : ndist (instant (i_mod ref) / g) (instant (i_mod this) / g) = instant (i_mod this) / g - instant (i_mod ref) / g).
  { unfold ndist. assert (instant (i_mod ref) / g <= instant (i_mod this) / g) by (apply N.div_le_mono; lia). lia. }
  rewrite E in S. destruct e; cbn [negb]; split; intro Q.
  - discriminate.
  - destruct (proj1 S eq_refl) as (k & Lk & Ek). exfalso. apply (proj2 Q k Lk Ek).
  - split; [exact L|]. intros k Lk Ek. assert (false = true) by (apply S; exists k; auto). discriminate.
  - reflexivity.
Qed.
Print Assumptions C34_more_recent.
Example C34_more_recent_instance :
  let ref := {| i_uid := 1; i_gid := 1; i_perm := 420; i_mod := DT 10000 tu_s; i_size := 7 |} in
  let this := {| i_uid := 1; i_gid := 1; i_perm := 420; i_mod := DT 13600 tu_s; i_size := 7 |} in
  more_recent tu_ns this ref 0 = Ok true /\ more_recent tu_ns this ref 1 = Ok false /\ more_recent tu_ns ref this 0 = Ok false.
Proof. vm_compute. auto. Qed.

Example C34_instance : 
  let ref := {| i_uid := 1; i_gid := 1; i_perm := 420; i_mod := DT 10000 tu_s; i_size := 7 |} in
  let this := {| i_uid := 1; i_gid := 1; i_perm := 420; i_mod := DT 13600 tu_s; i_size := 7 |} in
  file_has_changed_since tu_ns this ref 0 F_all = Ok true /\ file_has_changed_since tu_ns this ref 1 F_all = Ok false.
Proof. vm_compute. auto. Qed.
