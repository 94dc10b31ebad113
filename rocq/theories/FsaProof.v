(** * FsaProof: lemmas about lists of filesystem specific attributes *)
From Coq Require Import List Sorted.
From Verif Require Import Base InfinintModel InfinintProof2 DatetimeModel FsaModel FsaSpec PropDatetime.
Local Open Scope N_scope.

(** ** The order *)
Definition key (a : fsa) : N := fam_rank (fam a) * 16 + nat_rank (ntr a).

Lemma nat_rank_lt n : nat_rank n < 16.
Proof. destruct n; cbn; lia. Qed.
Lemma nat_rank_inj n m : nat_rank n = nat_rank m -> n = m.
Proof. destruct n, m; cbn; intro H; reflexivity || discriminate. Qed.
Lemma fam_rank_inj f g : fam_rank f = fam_rank g -> f = g.
Proof. destruct f, g; cbn; intro H; reflexivity || discriminate. Qed.

Lemma fsa_lt_key a b : fsa_lt a b = (key a <? key b).
Proof.
  unfold fsa_lt, key. pose proof (nat_rank_lt (ntr a)). pose proof (nat_rank_lt (ntr b)).
  destruct (N.ltb_spec (fam_rank (fam a)) (fam_rank (fam b))).
  - symmetry. apply N.ltb_lt. lia.
  - destruct (N.ltb_spec (fam_rank (fam b)) (fam_rank (fam a))).
    + symmetry. apply N.ltb_ge. lia.
    + assert (E : fam_rank (fam a) = fam_rank (fam b)) by lia. rewrite E.
      destruct (N.ltb_spec (nat_rank (ntr a)) (nat_rank (ntr b))); symmetry; [apply N.ltb_lt|apply N.ltb_ge]; lia.
Qed.

Lemma key_kind a b : key a = key b <-> same_kind a b.
Proof.
  unfold key, same_kind. pose proof (nat_rank_lt (ntr a)). pose proof (nat_rank_lt (ntr b)). split.
  - intro E. split; [apply fam_rank_inj|apply nat_rank_inj]; lia.
  - intros [-> ->]. reflexivity.
Qed.

Lemma same_type_key a b : same_type a b = (key a =? key b).
Proof.
  unfold same_type. destruct (N.eqb_spec (key a) (key b)) as [E|E].
  - apply key_kind in E. destruct E as [-> ->]. now rewrite !N.eqb_refl.
  - destruct (N.eqb_spec (fam_rank (fam a)) (fam_rank (fam b))) as [F|F]; [|reflexivity].
    destruct (N.eqb_spec (nat_rank (ntr a)) (nat_rank (ntr b))) as [G0|G0]; [|reflexivity].
    exfalso. apply E. apply key_kind. split; [apply fam_rank_inj, F|apply nat_rank_inj, G0].
Qed.

Lemma value_eq x y : equal_value x y = true <-> x = y.
Proof.
  destruct x as [a|[a u]], y as [b|[b w]]; cbn; split; intro H; try discriminate.
  - f_equal. now apply eqb_prop.
  - inversion H. apply eqb_reflx.
  - unfold dt_eq in H. cbn [uni val] in H. apply andb_true_iff in H. destruct H as [H1 H2]. apply N.eqb_eq in H2. subst.
    destruct u, w; try discriminate; reflexivity.
  - inversion H; subst. unfold dt_eq. cbn [uni val]. rewrite N.eqb_refl. destruct w; reflexivity.
Qed.

Lemma fsa_eq_iff a b : fsa_eq a b = true <-> a = b.
Proof.
  unfold fsa_eq. rewrite andb_true_iff, same_type_key, N.eqb_eq, key_kind, value_eq. split.
  - intros [[H1 H2] H3]. destruct a, b; cbn in *; congruence.
  - intros ->. repeat split.
Qed.

(** ** Sorted lists *)
Definition sl (l : list fsa) : Prop := StronglySorted (fun a b => key a < key b) l.

Lemma sl_nth l : sl l -> forall i j a b, nth_error l i = Some a -> nth_error l j = Some b -> (i < j)%nat -> key a < key b.
Proof.
  induction 1 as [|x l S IH F]; intros i j a b Hi Hj L; [destruct i; discriminate|].
  destruct j; [lia|]. cbn in Hj. destruct i; cbn in Hi.
  - inversion Hi; subst. rewrite Forall_forall in F. apply F. eapply nth_error_In, Hj.
  - eapply IH; eauto. lia.
Qed.

Lemma sl_kind l : sl l -> forall a b, In a l -> In b l -> key a = key b -> a = b.
Proof.
  intros S a b Ha Hb E. apply In_nth_error in Ha, Hb. destruct Ha as [i Hi], Hb as [j Hj].
  destruct (Nat.lt_trichotomy i j) as [L|[L|L]].
  - pose proof (sl_nth l S _ _ _ _ Hi Hj L). lia.
  - subst. congruence.
  - pose proof (sl_nth l S _ _ _ _ Hj Hi L). lia.
Qed.

(** Two parts of a list around the place of [x]. *)
Definition split_at (l : list fsa) (x : fsa) (i : nat) : Prop :=
  (i <= length l)%nat /\
  (forall j a, nth_error l j = Some a -> (j < i)%nat -> key a < key x) /\
  (forall j a, nth_error l j = Some a -> (i <= j)%nat -> key x <= key a).

Lemma bsearch_ok l x : sl l -> forall fuel mn mx,
  (mn < mx)%nat -> (mx <= length l)%nat -> (mx - mn < fuel)%nat ->
  (forall j a, nth_error l j = Some a -> (j < mn)%nat -> key a < key x) ->
  (forall j a, nth_error l j = Some a -> (mx <= j)%nat -> key x <= key a) ->
  exists b i, bsearch fuel l x mn mx = (b, i) /\
    (b = true -> exists a, nth_error l i = Some a /\ key a = key x) /\
    (b = false -> split_at l x i /\ forall a, In a l -> key a <> key x).
Proof.
  intros S. induction fuel as [|fuel IH]; intros mn mx L1 L2 L3 Hlo Hhi; [lia|].
  cbn [bsearch]. set (ix := Nat.div2 (mn + mx)).
  assert (IX : (mn <= ix < mx)%nat).
  { unfold ix. rewrite Nat.div2_div. split.
    - apply Nat.div_le_lower_bound; lia.
    - apply Nat.div_lt_upper_bound; lia. }
  clearbody ix.
  destruct (nth_error l ix) as [t|] eqn:T; [|apply nth_error_None in T; lia].
  rewrite fsa_lt_key, same_type_key.
  destruct (N.ltb_spec (key t) (key x)) as [C|C].
  - destruct (N.eqb_spec (key t) (key x)) as [E|E]; [lia|]. cbn [negb andb].
    assert (Hlo' : forall j a, nth_error l j = Some a -> (j < Datatypes.S ix)%nat -> key a < key x).
    { intros j a Hj Lj. destruct (Nat.eq_dec j ix) as [->|Ne]; [congruence|].
      pose proof (sl_nth l S _ _ _ _ Hj T ltac:(lia)). lia. }
    destruct (Nat.ltb_spec (Datatypes.S ix) mx) as [M|M].
    + apply IH; auto; lia.
    + assert (mx = Datatypes.S ix) by lia. subst mx.
      replace (Nat.leb (Datatypes.S ix) (Datatypes.S ix)) with true by (symmetry; apply Nat.leb_le; lia).
      destruct (nth_error l (Datatypes.S ix)) as [u|] eqn:U.
      * rewrite same_type_key.
        assert (LT : (Datatypes.S ix < length l)%nat) by (apply nth_error_Some; congruence).
        replace (Nat.ltb (Datatypes.S ix) (length l)) with true by (symmetry; apply Nat.ltb_lt; lia). cbn [andb].
        eexists _, _. split; [reflexivity|]. split.
        -- intro B. apply N.eqb_eq in B. eauto.
        -- intro B. apply N.eqb_neq in B. split; [split; [lia|split; auto]|].
           intros a Ha Q. apply In_nth_error in Ha. destruct Ha as [j Hj].
           destruct (Nat.lt_ge_cases j (Datatypes.S ix)) as [J|J].
           ++ specialize (Hlo' _ _ Hj J). lia.
           ++ destruct (Nat.eq_dec j (Datatypes.S ix)) as [->|Ne]; [congruence|].
              pose proof (sl_nth l S _ _ _ _ U Hj ltac:(lia)). pose proof (Hhi _ _ U ltac:(lia)). lia.
      * rewrite andb_false_r. eexists _, _. split; [reflexivity|]. split; [discriminate|]. intros _.
        split; [split; [lia|split; auto]|]. intros a Ha Q. apply In_nth_error in Ha. destruct Ha as [j Hj].
        apply nth_error_None in U. assert (j < length l)%nat by (apply nth_error_Some; congruence).
        specialize (Hlo' _ _ Hj ltac:(lia)). lia.
  - assert (Hhi' : forall j a, nth_error l j = Some a -> (ix <= j)%nat -> key x <= key a).
    { intros j a Hj Lj. destruct (Nat.eq_dec j ix) as [->|Ne]; [replace a with t by congruence; lia|].
      pose proof (sl_nth l S _ _ _ _ T Hj ltac:(lia)). lia. }
    destruct (N.eqb_spec (key t) (key x)) as [E|E].
    + cbn [negb andb]. exists true, ix.
      destruct (Nat.leb_spec ix mn) as [M|M].
      * assert (mn = ix) by lia. subst mn. rewrite T, same_type_key, E, N.eqb_refl.
        replace (Nat.ltb ix (length l)) with true by (symmetry; apply Nat.ltb_lt; lia).
        split; [reflexivity|]. split; [eauto|discriminate].
      * rewrite T, same_type_key, E, N.eqb_refl.
        replace (Nat.ltb mn (length l)) with true by (symmetry; apply Nat.ltb_lt; lia).
        split; [reflexivity|]. split; [eauto|discriminate].
    + cbn [negb andb]. destruct (Nat.ltb_spec mn ix) as [M|M].
      * apply IH; auto; lia.
      * assert (mn = ix) by lia. subst mn. replace (Nat.leb ix ix) with true by (symmetry; apply Nat.leb_le; lia).
        rewrite T, same_type_key. destruct (N.eqb_spec (key t) (key x)); [contradiction|]. rewrite andb_false_r.
        eexists _, _. split; [reflexivity|]. split; [discriminate|]. intros _.
        split; [split; [lia|split; auto]|]. intros a Ha Q. apply In_nth_error in Ha. destruct Ha as [j Hj].
        destruct (Nat.lt_trichotomy j ix) as [J|[J|J]].
        -- specialize (Hlo _ _ Hj J). lia.
        -- subst. congruence.
        -- pose proof (sl_nth l S _ _ _ _ T Hj J). lia.
Qed.

Lemma search_ok l x : sl l -> exists b i, binary_search l x = (b, i) /\
    (b = true -> exists a, nth_error l i = Some a /\ key a = key x) /\
    (b = false -> split_at l x i /\ forall a, In a l -> key a <> key x).
Proof.
  intro S. destruct l as [|y l].
  - exists false, O. split; [reflexivity|]. split; [discriminate|]. intros _. split.
    + split; [cbn; lia|]. split; intros [|j] a H; discriminate.
    + intros a [].
  - unfold binary_search. apply bsearch_ok; auto; try (cbn [length]; lia).
    intros j a H L. assert (j < length (y :: l))%nat by (apply nth_error_Some; congruence). lia.
Qed.

Lemma sl_app l m : sl l -> sl m -> (forall a b, In a l -> In b m -> key a < key b) -> sl (l ++ m).
Proof.
  induction 1 as [|x l S IH F]; intros Sm H; [exact Sm|].
  cbn. constructor.
  - apply IH; auto. intros a b Ha Hb. apply H; [right; exact Ha|exact Hb].
  - rewrite Forall_app. split; [exact F|]. apply Forall_forall. intros b Hb. apply H; [left; reflexivity|exact Hb].
Qed.

Lemma sl_firstn l n : sl l -> sl (firstn n l).
Proof.
  intro S. revert n. induction S as [|x l S IH F]; intros [|n]; cbn; try constructor; auto.
  - apply IH.
  - rewrite Forall_forall in *. intros y Hy. apply F.
    clear -Hy. revert n Hy. induction l; intros [|n] Hy; cbn in *; try contradiction; destruct Hy; eauto.
Qed.
Lemma sl_skipn l n : sl l -> sl (skipn n l).
Proof. intro S. revert n. induction S as [|x l S IH F]; intros [|n]; cbn; try constructor; auto. Qed.

Lemma in_firstn l n (a : fsa) : In a (firstn n l) -> exists j, nth_error l j = Some a /\ (j < n)%nat.
Proof.
  revert n. induction l as [|y l IH]; intros [|n] H; cbn in H; try contradiction.
  destruct H as [->|H]; [exists O; split; [reflexivity|lia]|].
  destruct (IH _ H) as (j & Hj & L). exists (S j). split; [exact Hj|lia].
Qed.
Lemma in_skipn l n (a : fsa) : In a (skipn n l) -> exists j, nth_error l j = Some a /\ (n <= j)%nat.
Proof.
  revert n. induction l as [|y l IH]; intros [|n] H; cbn in H; try contradiction.
  - destruct H as [->|H]; [exists O; split; [reflexivity|lia]|].
    apply In_nth_error in H. destruct H as [j Hj]. exists (S j). split; [exact Hj|lia].
  - destruct (IH _ H) as (j & Hj & L). exists (S j). split; [exact Hj|lia].
Qed.

Lemma replace_in l i x y : nth_error l i = Some y -> sl l -> key y = key x ->
  sl (replace l i x) /\ forall a, In a (replace l i x) <-> a = x \/ (In a l /\ key a <> key x).
Proof.
  intros Hi S K. revert i Hi. induction S as [|z l S IH F]; intros i Hi; [destruct i; discriminate|].
  rewrite Forall_forall in F. destruct i as [|i]; cbn in Hi |- *.
  - inversion Hi; subst. split.
    + constructor; [exact S|]. apply Forall_forall. intros b Hb. specialize (F b Hb). lia.
    + intro a. split.
      * intros [->|H]; [left; reflexivity|right]. split; [right; exact H|]. specialize (F a H). lia.
      * intros [->|[[->|H] N0]]; [left; reflexivity|congruence|right; exact H].
  - destruct (IH i Hi) as [I1 I2].
    assert (Y : In y l) by (eapply nth_error_In, Hi). pose proof (F y Y) as FY. split.
    + constructor; [exact I1|]. apply Forall_forall. intros b Hb. apply I2 in Hb. destruct Hb as [->|[Hb _]]; [lia|apply F, Hb].
    + intro a. split.
      * intros [->|H]; [right; split; [left; reflexivity|lia]|]. apply I2 in H. destruct H as [->|[H N0]]; [left; reflexivity|]. right. split; [right; exact H|exact N0].
      * intros [->|[[->|H] N0]]; [right; apply I2; left; reflexivity|left; reflexivity|right; apply I2; right; split; assumption].
Qed.

Lemma priv_add_ok l x : sl l -> sl (priv_add l x) /\ forall a, In a (priv_add l x) <-> a = x \/ (In a l /\ key a <> key x).
Proof.
  intro S. unfold priv_add. destruct (search_ok l x S) as (b & i & -> & T & Fa).
  destruct b.
  - destruct (T eq_refl) as (y & Hy & K). apply replace_in with (y := y); assumption.
  - destruct (Fa eq_refl) as ((L & Lo & Hi) & Ne). split.
    + apply sl_app; [apply sl_firstn, S| |].
      * constructor; [apply sl_skipn, S|]. apply Forall_forall. intros a Ha. apply in_skipn in Ha. destruct Ha as (j & Hj & J).
        specialize (Hi _ _ Hj J). assert (key a <> key x) by (apply Ne; eapply nth_error_In, Hj). lia.
      * intros a c Ha Hc. apply in_firstn in Ha. destruct Ha as (j & Hj & J). pose proof (Lo _ _ Hj J).
        destruct Hc as [<-|Hc]; [assumption|]. apply in_skipn in Hc. destruct Hc as (k & Hk & J2).
        eapply (sl_nth l S); eauto. lia.
    + intro a. rewrite in_app_iff. cbn [In]. rewrite <- (firstn_skipn i l) at 3. rewrite in_app_iff. split.
      * intros [H|[H|H]]; [right|left; congruence|right]; (split; [tauto|apply Ne; rewrite <- (firstn_skipn i l); apply in_app_iff; tauto]).
      * intros [->|[[H|H] _]]; auto.
Qed.

Lemma fold_add_ok arg : forall l, sl l -> sl arg ->
  sl (fold_left priv_add arg l) /\
  forall a, In a (fold_left priv_add arg l) <-> In a arg \/ (In a l /\ forall b, In b arg -> key b <> key a).
Proof.
  induction arg as [|x arg IH]; intros l S Sa; cbn [fold_left].
  - split; [exact S|]. intro a. split; [intro H; right; split; [exact H|intros b []]|intros [[]|[H _]]; exact H].
  - destruct (priv_add_ok l x S) as [S1 M1]. inversion Sa as [|? ? Sa' Fa]; subst. rewrite Forall_forall in Fa.
    destruct (IH _ S1 Sa') as [S2 M2]. split; [exact S2|].
    intro a. rewrite M2, M1. split.
    + intros [H|[[->|[H N0]] H2]].
      * left. right. exact H.
      * left. left. reflexivity.
      * right. split; [exact H|]. intros b [<-|Hb]; [congruence|apply H2, Hb].
    + intros [[<-|H]|[H H2]].
      * right. split; [left; reflexivity|]. intros b Hb. specialize (Fa b Hb). lia.
      * left. exact H.
      * right. split; [right; split; [exact H|]|].
        -- intro E. apply (H2 x (or_introl eq_refl)). congruence.
        -- intros b Hb. apply H2. right. exact Hb.
Qed.

(** ** Sorting *)
Lemma insert_in x l a : In a (insert x l) <-> a = x \/ In a l.
Proof.
  induction l as [|y l IH]; cbn.
  - intuition.
  - destruct (fsa_lt y x); cbn; rewrite ?IH; intuition.
Qed.
Lemma sort_in l a : In a (sort l) <-> In a l.
Proof. induction l as [|x l IH]; cbn; [tauto|]. rewrite insert_in, IH. intuition. Qed.

Lemma insert_sl x l : sl l -> (forall a, In a l -> key a <> key x) -> sl (insert x l).
Proof.
  induction 1 as [|y l S IH F]; intro H; cbn.
  - constructor; constructor.
  - rewrite fsa_lt_key. rewrite Forall_forall in F. destruct (N.ltb_spec (key y) (key x)).
    + constructor.
      * apply IH. intros a Ha. apply H. right. exact Ha.
      * apply Forall_forall. intros a Ha. apply insert_in in Ha. destruct Ha as [->|Ha]; [assumption|apply F, Ha].
    + assert (key y <> key x) by (apply H; left; reflexivity). constructor.
      * constructor; [exact S|]. now apply Forall_forall.
      * apply Forall_forall. intros a [->|Ha]; [lia|]. specialize (F a Ha). lia.
Qed.

Lemma sort_sl_id l : sl l -> sort l = l.
Proof.
  induction 1 as [|x l S IH F]; [reflexivity|]. cbn. rewrite IH. destruct l as [|y l]; [reflexivity|]. cbn.
  rewrite fsa_lt_key. inversion F; subst. destruct (N.ltb_spec (key y) (key x)); [lia|reflexivity].
Qed.

Lemma sort_distinct l : (forall i j a b, nth_error l i = Some a -> nth_error l j = Some b -> same_kind a b -> i = j) -> sl (sort l).
Proof.
  induction l as [|x l IH]; intro H; cbn; [constructor|].
  apply insert_sl.
  - apply IH. intros i j a b Hi Hj K. specialize (H (S i) (S j) a b Hi Hj K). lia.
  - intros a Ha E. apply (proj1 (sort_in _ _)) in Ha. apply In_nth_error in Ha. destruct Ha as [j Hj].
    specialize (H (S j) O a x Hj eq_refl (proj1 (key_kind _ _) E)). lia.
Qed.

(** ** Writing and reading back *)
Lemma write_read_one a : typed a -> forall ver rest, 9 <= ver ->
  exists b, write_one a = Ok b /\ read_one ver (b ++ rest) = Ok (a, rest).
Proof.
  intros T ver rest V. destruct a as [f n x]. unfold typed in T. cbn [ntr FsaModel.v] in T. unfold write_one. cbn [fam ntr FsaModel.v].
  assert (B : forall b, exists y, write_value (VBool b) = Ok [y] /\ forall r, read_bool (y :: r) = Ok (VBool b, r)).
  { intros [|]; cbn; eauto. }
  destruct n.
  1: { destruct T as (d & -> & D). destruct (C19_dump_read d ver rest D V) as (bs & W & R).
       cbn [write_value]. rewrite W. cbn [bind]. eexists. split; [reflexivity|].
       destruct f; cbn [fam_sig nat_sig app read_one]; cbn [sig_fam sig_nat N.eqb Pos.eqb andb bind]; rewrite R; reflexivity. }
  all: destruct T as (b & ->); destruct (B b) as (y & W & R); rewrite W; cbn [bind]; eexists; (split; [reflexivity|]);
    destruct f; cbn [fam_sig nat_sig app read_one]; cbn [sig_fam sig_nat N.eqb Pos.eqb andb bind]; rewrite R; reflexivity.
Qed.

Lemma write_read_all l : Forall typed l -> forall ver rest, 9 <= ver ->
  exists b, write_all l = Ok b /\ read_loop (length l) ver (b ++ rest) = Ok (l, rest).
Proof.
  induction 1 as [|a l T F IH]; intros ver rest V.
  - exists []. split; reflexivity.
  - destruct (IH ver rest V) as (y & W & R). destruct (write_read_one a T ver (y ++ rest) V) as (x & W1 & R1).
    cbn [write_all]. rewrite W1, W. cbn [bind]. eexists. split; [reflexivity|].
    cbn [length read_loop]. rewrite <- app_assoc, R1. cbn [bind]. rewrite R. reflexivity.
Qed.

Lemma write_read l : sl l -> Forall typed l -> forall ver rest, 9 <= ver ->
  exists b, write l = Ok b /\ read ver (b ++ rest) = Ok (l, rest).
Proof.
  intros S T ver rest V. destruct (write_read_all l T ver rest V) as (b & W & R).
  unfold write. rewrite W. cbn [bind]. eexists. split; [reflexivity|].
  unfold read. rewrite <- app_assoc, readN_dumpN. cbn [bind]. rewrite Nnat.Nat2N.id, R. cbn [bind].
  rewrite sort_sl_id by exact S. reflexivity.
Qed.

Lemma fsa_list_ok l : fsa_list l -> sl l /\ Forall typed l.
Proof.
  induction 1 as [|l T D|l a H [S T] Ta|l m H [S T] H' [S' T']|l bytes rest ver m r H [S T] W V R].
  - split; constructor.
  - split; [apply sort_distinct, D|]. rewrite Forall_forall in *. intros a Ha. apply T, sort_in, Ha.
  - unfold add. destruct (priv_add_ok l a S) as [S1 M1]. rewrite sort_sl_id by exact S1. split; [exact S1|].
    rewrite Forall_forall in *. intros b Hb. apply M1 in Hb. destruct Hb as [->|[Hb _]]; auto.
  - unfold plus. destruct (fold_add_ok m l S S') as [S1 M1]. rewrite sort_sl_id by exact S1. split; [exact S1|].
    rewrite Forall_forall in *. intros b Hb. apply M1 in Hb. destruct Hb as [Hb|[Hb _]]; auto.
  - destruct (write_read l S T ver rest V) as (b & W' & R'). rewrite W in W'. injection W' as <-. rewrite R in R'.
    injection R' as -> ->. split; assumption.
Qed.

(** ** Inclusion *)
Lemma advance_spec a rt : sl rt -> rt <> [] ->
  (exists pre r post, rt = pre ++ r :: post /\ advance a rt = Ok (r :: post) /\ (forall p, In p pre -> key p < key a) /\ key a <= key r)
  \/ (advance a rt = Err UB /\ forall p, In p rt -> key p < key a).
Proof.
  induction 1 as [|x rt S IH F]; [congruence|]. intros _. cbn [advance]. rewrite fsa_lt_key.
  destruct (N.ltb_spec (key x) (key a)) as [C|C].
  - destruct rt as [|y rt].
    + right. split; [reflexivity|]. intros p [<-|[]]. exact C.
    + destruct IH as [(pre & r & post & E & A & B & D)|[A B]]; [discriminate| |].
      * left. exists (x :: pre), r, post. rewrite E. split; [reflexivity|]. rewrite <- E. split; [exact A|]. split; [|exact D].
        intros p [<-|Hp]; auto.
      * right. split; [exact A|]. intros p [<-|Hp]; auto.
  - left. exists [], x, rt. split; [reflexivity|]. split; [reflexivity|]. split; [intros p []|exact C].
Qed.

Lemma sl_suffix l m : sl (l ++ m) -> sl m.
Proof. induction l as [|x l IH]; [auto|]. cbn. intro H. inversion H; subst. auto. Qed.

Lemma included_spec scope l : sl l -> forall rt, sl rt -> rt <> [] ->
  (is_included_in l rt scope = Ok true /\ forall a, In a l -> in_scope scope (fam a) = true -> In a rt) \/
  ((is_included_in l rt scope = Ok false \/ is_included_in l rt scope = Err UB) /\
   exists a, In a l /\ in_scope scope (fam a) = true /\ ~ In a rt).
Proof.
  induction 1 as [|a l S IH F]; intros rt Sr Ne.
  - left. split; [reflexivity|]. intros a [].
  - cbn [is_included_in]. destruct rt as [|r0 rt0] eqn:ER; [congruence|]. rewrite <- ER in *.
    destruct (in_scope scope (fam a)) eqn:SC.
    + destruct (advance_spec a rt Sr Ne) as [(pre & r & post & E & A & B & D)|[A B]]; rewrite A; cbn [bind].
      * assert (Sp : sl (r :: post)) by (rewrite E in Sr; eapply sl_suffix, Sr).
        destruct (fsa_eq r a) eqn:Q.
        -- apply fsa_eq_iff in Q. subst r. rewrite Forall_forall in F.
           destruct (IH (a :: post) Sp ltac:(discriminate)) as [[I1 I2]|[I1 (b & Hb & Sb & Nb)]].
           ++ left. split; [exact I1|]. intros b [<-|Hb] Sb; rewrite E; apply in_or_app; right; [left; reflexivity|auto].
           ++ right. split; [exact I1|]. exists b. split; [right; exact Hb|]. split; [exact Sb|]. rewrite E. intro Hi. apply in_app_or in Hi.
              destruct Hi as [Hi|Hi]; [|auto]. specialize (B b Hi). specialize (F b Hb). lia.
        -- right. split; [left; reflexivity|]. exists a. split; [left; reflexivity|]. split; [exact SC|]. rewrite E. intro Hi. apply in_app_or in Hi.
           destruct Hi as [Hi|[->|Hi]].
           ++ specialize (B a Hi). lia.
           ++ rewrite (proj2 (fsa_eq_iff a a) eq_refl) in Q. discriminate.
           ++ inversion Sp as [|? ? _ Fp]; subst. rewrite Forall_forall in Fp. specialize (Fp a Hi). lia.
      * right. split; [right; reflexivity|]. exists a. split; [left; reflexivity|]. split; [exact SC|]. intro Hi. specialize (B a Hi). lia.
    + destruct (IH rt Sr Ne) as [[I1 I2]|[I1 (b & Hb & Sb & Nb)]].
      * left. split; [exact I1|]. intros b [<-|Hb] Sb; [congruence|auto].
      * right. split; [exact I1|]. exists b. split; [right; exact Hb|]. auto.
Qed.

Lemma in_scope_iff scope f : in_scope scope f = true <-> In f scope.
Proof.
  unfold in_scope. rewrite existsb_exists. split.
  - intros (g & Hg & E). apply N.eqb_eq, fam_rank_inj in E. congruence.
  - intro H. exists f. split; [exact H|apply N.eqb_refl].
Qed.

(** ** Sizes *)
Lemma dt_size d : exists s b, dt_storage_size d = Ok s /\ dt_dump d = Ok b /\
  N.of_nat (length b) = s + (match uni d with tu_s => 1 | _ => 0 end).
Proof.
  unfold dt_storage_size, dt_dump. rewrite C19_get_value. cbn [bind].
  eexists _, _. split; [reflexivity|]. split; [reflexivity|].
  destruct d as [x u]. cbn [uni val]. destruct u; cbn [unit_lt rank N.ltb N.compare Pos.compare Pos.compare_cont]; cbn [length]; rewrite app_length; cbn [length]; lia.
Qed.

Lemma sizes_ok l : exists s b, sizes l = Ok s /\ write_all l = Ok b /\ N.of_nat (length b) = s + whole_seconds l.
Proof.
  induction l as [|a l (s & b & S & W & L)].
  - exists 0, []. repeat split.
  - assert (V : exists s b, value_size (v a) = Ok s /\ write_value (v a) = Ok b /\
       N.of_nat (length b) = s + (match v a with VTime (DT _ tu_s) => 1 | _ => 0 end)).
    { destruct (v a) as [x|[x u]].
      - exists 1. eexists. split; [reflexivity|]. split; [reflexivity|]. reflexivity.
      - destruct (dt_size (DT x u)) as (s1 & b1 & A & B & C). exists s1, b1. auto. }
    destruct V as (s1 & b1 & A & B & C). cbn [sizes write_all whole_seconds]. unfold write_one. rewrite A, B, S, W. cbn [bind].
    eexists _, _. split; [reflexivity|]. split; [reflexivity|].
    assert (N2 : length (nat_sig (ntr a)) = 2%nat) by (destruct (ntr a); reflexivity).
    cbn [app length]. rewrite !app_length, N2. lia.
Qed.

(** ** Flags *)
Definition W (imm : bool) (l : list fsa) (i : N) (b : bool) : Prop :=
  exists a, In a l /\ fam a = ExtX /\ bit (ntr a) = Some i /\ v a = VBool b /\ imm = is_immutable (ntr a).

Lemma bit_inj n m i : bit n = Some i -> bit m = Some i -> n = m.
Proof. destruct n, m; cbn; intros; congruence. Qed.

Lemma set_one_cases imm f a :
  (exists i b, fam a = ExtX /\ bit (ntr a) = Some i /\ v a = VBool b /\ imm = is_immutable (ntr a) /\
     forall j, N.testbit (set_one imm f a) j = if j =? i then b else N.testbit f j) \/
  (set_one imm f a = f /\ forall i b, ~ W imm [a] i b).
Proof.
  unfold set_one, W. destruct (fam a) eqn:FA.
  { right. split; [reflexivity|]. intros i b (c & [<-|[]] & Q & _). congruence. }
  destruct (bit (ntr a)) as [i|] eqn:BI.
  2:{ right. split; [reflexivity|]. intros i b (c & [<-|[]] & _ & Q & _). congruence. }
  destruct (Bool.eqb imm (is_immutable (ntr a))) eqn:EI.
  2:{ right. split; [reflexivity|]. intros j b (c & [<-|[]] & _ & _ & _ & Q). rewrite Q, eqb_reflx in EI. discriminate. }
  apply eqb_prop in EI. destruct (v a) as [b|d] eqn:VA.
  2:{ right. split; [reflexivity|]. intros j b (c & [<-|[]] & _ & _ & Q & _). congruence. }
  left. exists i, b. do 4 (split; [auto|]). intro j. destruct b.
  - rewrite N.setbit_eqb, N.eqb_sym. destruct (j =? i); reflexivity.
  - rewrite N.clearbit_eqb, N.eqb_sym. destruct (j =? i); [apply andb_false_r|apply andb_true_r].
Qed.

Lemma fold_flags imm l : sl l -> forall f i,
  (forall b, W imm l i b -> N.testbit (fold_left (set_one imm) l f) i = b) /\
  ((forall b, ~ W imm l i b) -> N.testbit (fold_left (set_one imm) l f) i = N.testbit f i).
Proof.
  induction 1 as [|a l S IH F]; intros f i.
  - split; [intros b (c & [] & _)|reflexivity].
  - cbn [fold_left]. rewrite Forall_forall in F. destruct (IH (set_one imm f a) i) as [I1 I2]. split.
    + intros b (c & [<-|Hc] & C1 & C2 & C3 & C4).
      * rewrite I2.
        -- destruct (set_one_cases imm f a) as [(j & b' & _ & Q2 & Q3 & _ & T)|[_ Q]].
           ++ rewrite T. rewrite C2 in Q2. injection Q2 as <-. rewrite N.eqb_refl. congruence.
           ++ exfalso. apply (Q i b). exists a. repeat split; auto. left. reflexivity.
        -- intros b' (c & Hc & D1 & D2 & _). specialize (F c Hc).
           assert (key a = key c) by (apply key_kind; split; [congruence|eapply bit_inj; eauto]). lia.
      * apply I1. exists c. auto.
    + intro Q. rewrite I2.
      * destruct (set_one_cases imm f a) as [(j & b' & Q1 & Q2 & Q3 & Q4 & T)|[E _]]; [|now rewrite E].
        rewrite T. destruct (N.eqb_spec i j) as [->|]; [|reflexivity].
        exfalso. apply (Q b'). exists a. repeat split; auto. left. reflexivity.
      * intros b (c & Hc & R). apply (Q b). exists c. split; [right; exact Hc|exact R].
Qed.

Lemma no_ext_no_W imm l : existsb (fun a => match fam a with ExtX => true | Hfs => false end) l = false -> forall i b, ~ W imm l i b.
Proof.
  intros E i b (c & Hc & C1 & _). assert (X : existsb (fun a => match fam a with ExtX => true | Hfs => false end) l = true).
  { apply existsb_exists. exists c. split; [exact Hc|]. now rewrite C1. }
  congruence.
Qed.

Lemma masks_apart i : N.testbit mask_IMMUT i && N.testbit mask_SYS_RES i = false.
Proof. rewrite <- N.land_spec. reflexivity. Qed.

Lemma land_eq x y m : N.land x m = N.land y m <-> forall i, N.testbit m i = true -> N.testbit x i = N.testbit y i.
Proof.
  split.
  - intros E i M. pose proof (f_equal (fun z => N.testbit z i) E) as Q. cbv beta in Q. rewrite !N.land_spec, M, !andb_true_r in Q. exact Q.
  - intro H. apply N.bits_inj. intro i. rewrite !N.land_spec. destruct (N.testbit m i) eqn:M; [|rewrite !andb_false_r; reflexivity].
    now rewrite H.
Qed.

(** Bit by bit: what the three steps leave. *)
Lemma steps_bits f orig (do2 do3 : bool) i :
  let tmp := N.lor (N.ldiff (N.ldiff f mask_IMMUT) mask_SYS_RES) (N.land orig (N.lor mask_IMMUT mask_SYS_RES)) in
  let d2 := if do2 then N.lor (N.land f mask_IMMUT) (N.ldiff tmp mask_IMMUT) else tmp in
  let out := if do3 then N.lor (N.land f mask_SYS_RES) (N.ldiff d2 mask_SYS_RES) else d2 in
  (N.testbit tmp i = if N.testbit mask_IMMUT i || N.testbit mask_SYS_RES i then N.testbit orig i else N.testbit f i) /\
  (N.testbit d2 i = if N.testbit mask_IMMUT i then (if do2 then N.testbit f i else N.testbit orig i) else N.testbit tmp i) /\
  (N.testbit out i = if N.testbit mask_IMMUT i then (if do2 then N.testbit f i else N.testbit orig i)
     else if N.testbit mask_SYS_RES i then (if do3 then N.testbit f i else N.testbit orig i) else N.testbit f i).
Proof.
  intros tmp d2 out. pose proof (masks_apart i) as A.
  assert (T : N.testbit tmp i = if N.testbit mask_IMMUT i || N.testbit mask_SYS_RES i then N.testbit orig i else N.testbit f i).
  { unfold tmp. rewrite !N.lor_spec, !N.ldiff_spec, !N.land_spec, !N.lor_spec.
    destruct (N.testbit mask_IMMUT i), (N.testbit mask_SYS_RES i), (N.testbit f i), (N.testbit orig i); reflexivity || discriminate. }
  clearbody tmp.
  assert (D : N.testbit d2 i = if N.testbit mask_IMMUT i then (if do2 then N.testbit f i else N.testbit orig i) else N.testbit tmp i).
  { unfold d2. destruct do2; rewrite ?N.lor_spec, ?N.ldiff_spec, ?N.land_spec, ?T.
    all: destruct (N.testbit mask_IMMUT i), (N.testbit mask_SYS_RES i), (N.testbit f i), (N.testbit orig i); reflexivity || discriminate. }
  clearbody d2.
  split; [exact T|]. split; [exact D|].
  unfold out. destruct do3; rewrite ?N.lor_spec, ?N.ldiff_spec, ?N.land_spec, ?D, ?T.
  all: destruct (N.testbit mask_IMMUT i), (N.testbit mask_SYS_RES i), do2, (N.testbit f i), (N.testbit orig i); reflexivity || discriminate.
Qed.

Lemma set_extX_spec imm l k orig : sl l -> exists out r, set_extX imm l k orig = (out, r) /\
  (forall i, N.testbit out i = N.testbit orig i \/ W imm l i (N.testbit out i)) /\
  (r = Err Erange /\ out = orig \/ exists b, r = Ok b /\ (b = true <-> out <> orig)) /\
  (k_get k = true -> k_set1 k = true -> k_capa_immut k = true -> k_set2 k = true -> k_capa_sys k = true -> k_set3 k = true ->
     (exists b, r = Ok b) /\
     (forall i b, W imm l i b -> N.testbit out i = b) /\ (forall i, (forall b, ~ W imm l i b) -> N.testbit out i = N.testbit orig i)).
Proof.
  intro S. unfold set_extX. destruct (existsb _ l) eqn:EX.
  2:{ eexists _, _. split; [reflexivity|]. split; [auto|]. split.
      - right. exists false. split; [reflexivity|]. split; [discriminate|congruence].
      - intros _ _ _ _ _ _. split; [eauto|]. split; [|auto]. intros i b H. exfalso. eapply no_ext_no_W; eauto. }
  destruct (k_get k).
  2:{ eexists _, _. split; [reflexivity|]. split; [auto|]. split; [left; auto|discriminate]. }
  pose proof (fold_flags imm l S orig) as FF. set (f := fold_left (set_one imm) l orig) in *. clearbody f.
  assert (WF : forall i, N.testbit f i = N.testbit orig i \/ W imm l i (N.testbit f i)).
  { intro i. destruct (FF i) as [F1 F2].
    destruct (Bool.bool_dec (N.testbit f i) (N.testbit orig i)) as [E|E]; [left; exact E|].
    assert (D : forall b, W imm l i b \/ ~ W imm l i b).
    { intro b. destruct (existsb (fun a => match fam a, bit (ntr a), v a with ExtX, Some j, VBool c => (j =? i) && Bool.eqb b c && Bool.eqb imm (is_immutable (ntr a)) | _, _, _ => false end) l) eqn:Q.
      - left. apply existsb_exists in Q. destruct Q as (a & Ha & Q). exists a. split; [exact Ha|].
        destruct (fam a); [discriminate|]. destruct (bit (ntr a)) as [j|]; [|discriminate]. destruct (v a) as [c|]; [|discriminate].
        apply andb_true_iff in Q. destruct Q as [Q Q3]. apply andb_true_iff in Q. destruct Q as [Q1 Q2].
        apply N.eqb_eq in Q1. apply eqb_prop in Q2, Q3. subst. repeat split; auto.
      - right. intros (a & Ha & A1 & A2 & A3 & A4).
        assert (X : existsb (fun a => match fam a, bit (ntr a), v a with ExtX, Some j, VBool c => (j =? i) && Bool.eqb b c && Bool.eqb imm (is_immutable (ntr a)) | _, _, _ => false end) l = true); [|congruence].
        apply existsb_exists. exists a. split; [exact Ha|]. rewrite A1, A2, A3, <- A4, N.eqb_refl, !eqb_reflx. reflexivity. }
    right. destruct (D true) as [D1|D1]; [rewrite (F1 _ D1); exact D1|].
    destruct (D false) as [D2|D2]; [rewrite (F1 _ D2); exact D2|].
    exfalso. apply E, F2. intros [|]; assumption. }
  set (tmp := N.lor (N.ldiff (N.ldiff f mask_IMMUT) mask_SYS_RES) (N.land orig (N.lor mask_IMMUT mask_SYS_RES))).
  destruct (negb (tmp =? orig) && negb (k_set1 k)) eqn:C1.
  { eexists _, _. split; [reflexivity|]. split; [auto|]. split; [left; auto|].
    intros _ K. rewrite K in C1. rewrite andb_false_r in C1. discriminate. }
  cbv zeta.
  set (do2 := negb (N.land f mask_IMMUT =? N.land tmp mask_IMMUT) && k_capa_immut k && k_set2 k).
  set (d2 := if do2 then N.lor (N.land f mask_IMMUT) (N.ldiff tmp mask_IMMUT) else tmp).
  set (do3 := negb (N.land f mask_SYS_RES =? N.land d2 mask_SYS_RES) && k_capa_sys k && k_set3 k).
  eexists _, _. split; [reflexivity|].
  assert (SB := fun i => steps_bits f orig do2 do3 i). cbv zeta in SB. fold tmp in SB. fold d2 in SB.
  set (out := if do3 then N.lor (N.land f mask_SYS_RES) (N.ldiff d2 mask_SYS_RES) else d2) in *.
  split.
  { intro i. destruct (SB i) as (_ & _ & B). rewrite B.
    destruct (N.testbit mask_IMMUT i), (N.testbit mask_SYS_RES i), do2, do3; auto. }
  split.
  { right. eexists. split; [reflexivity|]. split.
    - intros R Q. apply orb_true_iff in R. rewrite Q in SB. destruct R as [R|R].
      + apply orb_true_iff in R. destruct R as [R|R].
        * apply negb_true_iff, N.eqb_neq in R. apply R. apply N.bits_inj. intro i. destruct (SB i) as (B1 & _ & B3). rewrite B1.
          destruct (N.testbit mask_IMMUT i); [reflexivity|]. destruct (N.testbit mask_SYS_RES i); [reflexivity|]. cbn [orb]. symmetry. exact B3.
        * assert (R2 : do2 = true) by exact R. unfold do2 in R. apply andb_true_iff in R. destruct R as [R _]. apply andb_true_iff in R. destruct R as [R _].
          apply negb_true_iff, N.eqb_neq in R. apply R. apply land_eq. intros i M. destruct (SB i) as (B1 & _ & B3). rewrite M, R2 in B3. rewrite M in B1. cbn [orb] in B1.
          congruence.
      + assert (R2 : do3 = true) by exact R. unfold do3 in R. apply andb_true_iff in R. destruct R as [R _]. apply andb_true_iff in R. destruct R as [R _].
        apply negb_true_iff, N.eqb_neq in R. apply R. apply land_eq. intros i M. destruct (SB i) as (B1 & B2 & B3). pose proof (masks_apart i) as A.
        rewrite M, andb_true_r in A. rewrite A, M, R2 in B3. rewrite A in B2. rewrite A, M in B1. cbn [orb] in B1. congruence.
    - intro Q. destruct do2 eqn:E2; [now rewrite orb_true_r|]. destruct do3 eqn:E3; [now rewrite orb_true_r|]. cbn [orb]. rewrite !orb_false_r.
      apply negb_true_iff, N.eqb_neq. exact Q. }
  intros _ K1 K2 K3 K4 K5. split; [eauto|].
  assert (OF : forall i, N.testbit out i = N.testbit f i).
  { intro i. destruct (SB i) as (B1 & B2 & B3). rewrite B3. destruct (N.testbit mask_IMMUT i) eqn:MI.
    - destruct do2 eqn:E2; [reflexivity|]. unfold do2 in E2. rewrite K2, K3, !andb_true_r in E2. apply negb_false_iff, N.eqb_eq in E2.
      rewrite land_eq in E2. specialize (E2 i MI). cbn [orb] in B1. congruence.
    - destruct (N.testbit mask_SYS_RES i) eqn:MS; [|reflexivity].
      destruct do3 eqn:E3; [reflexivity|]. unfold do3 in E3. rewrite K4, K5, !andb_true_r in E3. apply negb_false_iff, N.eqb_eq in E3.
      rewrite land_eq in E3. specialize (E3 i MS). cbn [orb] in B1. congruence. }
  split.
  - intros i b H. rewrite OF. apply FF, H.
  - intros i H. rewrite OF. apply FF, H.
Qed.

(** ** Reading whatever bytes *)
Lemma read_one_kind ver f a g : read_one ver f = Ok (a, g) -> match ntr a with Creation_date => exists d, v a = VTime d | _ => exists b, v a = VBool b end.
Proof.
  unfold read_one. destruct f as [|c f1]; [discriminate|]. destruct (sig_fam c) as [fa|]; [|discriminate]. cbn [bind].
  destruct f1 as [|d [|e f2]]; try discriminate. destruct (sig_nat d e) as [na|]; [|discriminate]. cbn [bind].
  assert (RB : forall x g', read_bool f2 = Ok (x, g') -> exists b, x = VBool b).
  { intros x g'. destruct f2 as [|y r]; cbn; [discriminate|]. destruct (y =? 84); [intro H; inversion H; eauto|].
    destruct (y =? 70); [intro H; inversion H; eauto|discriminate]. }
  destruct na.
  1: { destruct (dt_read ver f2) as [[t f3]|]; [|discriminate]. cbn [bind]. intro H. inversion H; subst. cbn. eauto. }
  all: destruct (read_bool f2) as [[x f3]|] eqn:R; [|discriminate]; cbn [bind]; intro H; inversion H; subst; cbn; eapply RB; eauto.
Qed.

Lemma read_loop_kind n ver : forall f l g, read_loop n ver f = Ok (l, g) ->
  Forall (fun a => match ntr a with Creation_date => exists d, v a = VTime d | _ => exists b, v a = VBool b end) l.
Proof.
  induction n as [|n IH]; intros f l g; cbn [read_loop].
  - intro H. inversion H. constructor.
  - destruct (read_one ver f) as [[a f1]|] eqn:R; [|discriminate]. cbn [bind].
    destruct (read_loop n ver f1) as [[l' f2]|] eqn:R2; [|discriminate]. cbn [bind]. intro H. inversion H; subst.
    constructor; [eapply read_one_kind; eauto|eapply IH; eauto].
Qed.
