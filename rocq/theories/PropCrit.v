(** * Property C24: overwriting policies evaluate as the manual (man/dar.1, option -/) says. *)
From Verif Require Import Base NumModel InfinintModel DatetimeModel CrcModel PropDatetime PropChange DbModel DbMap CritModel.
Open Scope N_scope.

(** ** The manual *)
(** an entry designates an inode directly or as a hard link to it *)
Definition designates (e : entry) (i : ino) : Prop := e = EInode i \/ exists f, e = EMirage i f.
Definition is_device_kind (k : kind) : Prop := k = K_char \/ k = K_block.
Definition plain (k : kind) : Prop := k = K_file \/ k = K_door.
Definition with_ea (i : ino) : Prop := e_ea i <> ea_none /\ e_ea i <> ea_removed.
(** dates a whole number of hours apart, at most [h] of them, as far as the precision of the dates allows to tell (see C34) *)
Definition shifted (cap : time_unit) (h : N) (a b : datetime) : Prop :=
  exists k, k <= h /\ ndist (instant a / coarser cap a b) (instant b / coarser cap a b) * coarser cap a b = k * (3600 * G).
Definition recent (cap : time_unit) (h : N) (a b : datetime) : Prop := instant b <= instant a \/ shifted cap h a b.
(** the value of a field, or zero for an entry without it *)
Definition field (P : ino -> Prop) (f : ino -> N) (e : entry) (v : N) : Prop :=
  (exists i, designates e i /\ P i /\ v = f i) \/ ((~ exists i, designates e i /\ P i) /\ v = 0).
Definition field_date (P : ino -> Prop) (f : ino -> datetime) (e : entry) (v : datetime) : Prop :=
  (exists i, designates e i /\ P i /\ v = f i) \/ ((~ exists i, designates e i /\ P i) /\ v = date0).
Definition same_kind (a b : kind) : Prop := (a = b /\ a <> K_ignored_dir) \/ (plain a /\ plain b).
Fixpoint holds (cap : time_unit) (c : crit) (a b : entry) : Prop :=
  match c with
  | C_is_inode => exists i, designates a i
  | C_is_dir => exists i, designates a i /\ e_kind i = K_dir
  | C_is_file => exists i, designates a i /\ e_kind i = K_file
  | C_hardlinked => exists i f, a = EMirage i f
  | C_new_hardlinked => exists i, a = EMirage i true
  | C_data_recent h => forall i j, designates a i -> designates b j -> recent cap h (e_mtime i) (e_mtime j)
  | C_data_recent_to d h => exists m, field_date (fun _ => True) e_mtime a m /\ recent cap h m (dt_seconds d)
  | C_data_bigger => forall i j, designates a i -> designates b j -> plain (e_kind i) -> plain (e_kind j) -> e_size j <= e_size i
  | C_data_saved => forall i, designates a i -> e_saved i = ss_saved
  | C_dirty => exists i, designates a i /\ plain (e_kind i) /\ e_dirty i = true
  | C_sparse => exists i, designates a i /\ plain (e_kind i) /\ e_sparse i = true
  | C_sig => exists i, designates a i /\ plain (e_kind i) /\ e_sig i = true
  | C_patch => exists i, designates a i /\ plain (e_kind i) /\ e_saved i = ss_delta
  | C_same_data => exists i j, designates a i /\ designates b j /\ same_kind (e_kind i) (e_kind j) /\
      e_uid i = e_uid j /\ e_gid i = e_gid j /\ e_perm i = e_perm j /\ instant (e_mtime i) = instant (e_mtime j) /\
      (plain (e_kind i) -> e_size i = e_size j) /\
      (e_saved i = ss_saved -> e_saved j = ss_saved ->     (* otherwise these fields are not known *)
        (is_device_kind (e_kind i) -> e_major i = e_major j /\ e_minor i = e_minor j) /\
        (e_kind i = K_lien -> e_target i = e_target j))
  | C_EA_present => exists i, designates a i /\ with_ea i
  | C_EA_recent h => forall j m, designates b j -> with_ea j -> field_date with_ea e_ctime a m -> recent cap h m (e_ctime j)
  | C_EA_recent_to d h => exists m, field_date with_ea e_ctime a m /\ recent cap h m (dt_seconds d)
  | C_more_EA => exists x y, field (fun i => e_ea i = ea_full) e_ea_count a x /\ field (fun i => e_ea i = ea_full) e_ea_count b y /\ y <= x
  | C_EA_bigger => exists x y, field (fun i => e_ea i = ea_full) e_ea_space a x /\ field (fun i => e_ea i = ea_full) e_ea_space b y /\ y <= x
  | C_EA_saved => exists i, designates a i /\ e_ea i = ea_full
  | C_same_type => (a = EDetruit /\ b = EDetruit) \/ exists i j, designates a i /\ designates b j /\ same_kind (e_kind i) (e_kind j)
  | C_not c => ~ holds cap c a b
  | C_invert c => holds cap c b a
  | C_and l => (fix all l := match l with [] => True | c :: r => holds cap c a b /\ all r end) l
  | C_or l => (fix any l := match l with [] => False | c :: r => holds cap c a b \/ any r end) l
  end.

(** what is asked for: operators have operands, dates are well formed (C19), a directory is not hard linked *)
Fixpoint proper (c : crit) : Prop :=
  match c with
  | C_not c | C_invert c => proper c
  | C_and l | C_or l => l <> [] /\ (fix all l := match l with [] => True | c :: r => proper c /\ all r end) l
  | _ => True
  end.
Definition entry_ok (e : entry) : Prop :=
  (forall i, designates e i -> PropDatetime.date (e_mtime i) /\ PropDatetime.date (e_ctime i)) /\ (forall i f, e = EMirage i f -> e_kind i <> K_dir).
(** the two cases where the code departs from the manual, see the refutations below *)
Fixpoint agreed (c : crit) (a b : entry) : Prop :=
  match c with
  | C_EA_present => forall i f, a = EMirage i f -> ~ with_ea i
  | C_data_recent_to d _ => (exists i, designates a i) \/ d = 0
  | C_not c => agreed c a b
  | C_invert c => agreed c b a
  | C_and l | C_or l => (fix all l := match l with [] => True | c :: r => agreed c a b /\ all r end) l
  | _ => True
  end.

(** ** Proofs *)
Section CritInd.
  Variable P : crit -> Prop.
  Hypothesis Hatom : forall c, (forall d, c <> C_not d) -> (forall d, c <> C_invert d) -> (forall l, c <> C_and l) -> (forall l, c <> C_or l) -> P c.
  Hypothesis Hnot : forall c, P c -> P (C_not c).
  Hypothesis Hinv : forall c, P c -> P (C_invert c).
  Hypothesis Hand : forall l, Forall P l -> P (C_and l).
  Hypothesis Hor : forall l, Forall P l -> P (C_or l).
  Fixpoint crit_ind2 (c : crit) : P c.
  Proof.
    destruct c; try (apply Hatom; intros; discriminate).
    - apply Hnot, crit_ind2.
    - apply Hinv, crit_ind2.
    - apply Hand. induction l; constructor; auto.
    - apply Hor. induction l; constructor; auto.
  Defined.
End CritInd.

Lemma designates_iff : forall e i, designates e i <-> get_inode e = Some i.
Proof.
  intros e i. unfold designates. destruct e as [j|j f| |]; cbn; split; intro H.
  - destruct H as [H|[f H]]; congruence.
  - left; congruence.
  - destruct H as [H|[g H]]; congruence.
  - right; exists f; congruence.
  - destruct H as [H|[g H]]; discriminate.
  - discriminate.
  - destruct H as [H|[g H]]; discriminate.
  - discriminate.
Qed.
Lemma dge_true : forall a b, dge a b = true <-> instant b <= instant a.
Proof. intros. rewrite dge_spec. lia. Qed.
Lemma recent_spec : forall cap h a b, exists r, (if dge a b then Ok true else equal_with_hourshift cap h a b) = Ok r /\ (r = true <-> recent cap h a b).
Proof.
  intros cap h a b. unfold recent. destruct (dge a b) eqn:E.
  - exists true. split; [reflexivity|]. apply dge_true in E. tauto.
  - destruct (hourshift_spec cap h a b) as (r & -> & H). exists r. split; [reflexivity|]. rewrite H. unfold shifted.
    split; [auto|]. intros [X|X]; [|exact X]. apply dge_true in X. congruence.
Qed.
Lemma has_ea_iff : forall i, has_ea (e_ea i) = true <-> with_ea i.
Proof. intro i. unfold with_ea. destruct (e_ea i); cbn; split; intro; try discriminate; try tauto; try (split; congruence); destruct H; congruence. Qed.
Lemma is_file_iff : forall k, is_file_kind k = true <-> plain k.
Proof. intros []; cbn; unfold plain; split; intro H; try discriminate; auto; destruct H; discriminate. Qed.
Lemma get_file_iff : forall e i, get_file e = Some i <-> designates e i /\ plain (e_kind i).
Proof.
  intros e i. rewrite designates_iff. unfold get_file. destruct (get_inode e) as [j|]; [|split; [discriminate|intros []; discriminate]].
  destruct (is_file_kind (e_kind j)) eqn:E; split.
  - intros [= ->]. split; [reflexivity|apply is_file_iff; exact E].
  - intros [X _]. exact X.
  - discriminate.
  - intros [[= ->] X]. apply is_file_iff in X. congruence.
Qed.
Lemma same_class_iff : forall a b, same_class a b = true <-> same_kind a b.
Proof.
  intros a b. unfold same_kind, plain. destruct a, b; cbn; split; intro H; try discriminate; try reflexivity; auto;
    try (left; split; congruence);
    repeat match goal with H : _ \/ _ |- _ => destruct H | H : _ /\ _ |- _ => destruct H end; congruence.
Qed.
Lemma saved_eqb_iff : forall a b, saved_eqb a b = true <-> a = b.
Proof. intros [] []; cbn; split; congruence. Qed.
Lemma bytes_eqb_iff : forall a b, bytes_eqb a b = true <-> a = b.
Proof.
  induction a as [|x a IH]; destruct b as [|y b]; cbn; try (split; congruence). rewrite andb_true_iff, IH, N.eqb_eq. split; [intros []; congruence|].
  intros [= -> ->]; auto.
Qed.
Lemma file_flag : forall (f : ino -> bool) a, match get_file a with Some i => f i | None => false end = true <-> exists i, designates a i /\ plain (e_kind i) /\ f i = true.
Proof.
  intros f a. destruct (get_file a) as [i|] eqn:E.
  - apply get_file_iff in E as [E1 E2]. split; [intro H; exists i; auto|]. intros (j & D & _ & H).
    apply designates_iff in E1, D. congruence.
  - split; [discriminate|]. intros (j & D & K & _). assert (get_file a = Some j) by (apply get_file_iff; auto). congruence.
Qed.
Lemma field_spec : forall f e v, field (fun i => e_ea i = ea_full) f e v <-> v = ea_full_or_0 f e.
Proof.
  intros f e v. unfold field, ea_full_or_0. destruct (get_inode e) as [i|] eqn:E.
  - pose proof E as D. apply designates_iff in D. destruct (e_ea i) eqn:Ea;
    (split; [intros [(j & Dj & Hj & ->)|[Hn ->]]; [apply designates_iff in Dj; rewrite E in Dj; injection Dj as <-; congruence|
       try reflexivity; exfalso; apply Hn; exists i; auto] | intros ->]); try (left; exists i; auto; fail);
    (right; split; [|reflexivity]; intros (j & Dj & Hj); apply designates_iff in Dj; rewrite E in Dj; injection Dj as <-; congruence).
  - split; [intros [(j & Dj & _)|[_ ->]]; [apply designates_iff in Dj; congruence|reflexivity]|].
    intros ->. right. split; [|reflexivity]. intros (j & Dj & _). apply designates_iff in Dj. congruence.
Qed.
Lemma ea_ctime_spec : forall e v, field_date with_ea e_ctime e v <-> v = ea_ctime e.
Proof.
  intros e v. unfold field_date, ea_ctime. destruct (get_inode e) as [i|] eqn:E.
  - pose proof E as D. apply designates_iff in D. destruct (has_ea (e_ea i)) eqn:Ea.
    + apply has_ea_iff in Ea. split; [|intros ->; left; exists i; auto].
      intros [(j & Dj & _ & ->)|[Hn _]]; [apply designates_iff in Dj; congruence|exfalso; apply Hn; exists i; auto].
    + assert (~ with_ea i) by (rewrite <- has_ea_iff; congruence). split.
      * intros [(j & Dj & Hj & _)|[_ ->]]; [apply designates_iff in Dj; congruence|reflexivity].
      * intros ->. right. split; [|reflexivity]. intros (j & Dj & Hj). apply designates_iff in Dj. congruence.
  - split; [intros [(j & Dj & _)|[_ ->]]; [apply designates_iff in Dj; congruence|reflexivity]|].
    intros ->. right. split; [|reflexivity]. intros (j & Dj & _). apply designates_iff in Dj. congruence.
Qed.
Lemma same_type_iff : forall a b, same_type a b = true <-> (a = EDetruit /\ b = EDetruit) \/ exists i j, designates a i /\ designates b j /\ same_kind (e_kind i) (e_kind j).
Proof.
  intros a b.
  assert (X : match get_inode a, get_inode b with Some i, Some j => same_class (e_kind i) (e_kind j) | _, _ => false end = true <->
              exists i j, designates a i /\ designates b j /\ same_kind (e_kind i) (e_kind j)).
  { split.
    - destruct (get_inode a) as [i|] eqn:Ea; [|discriminate]. destruct (get_inode b) as [j|] eqn:Eb; [|discriminate].
      intro H. exists i, j. rewrite !designates_iff, <- same_class_iff. auto.
    - intros (i & j & Da & Db & K). apply designates_iff in Da, Db. rewrite Da, Db. apply same_class_iff. exact K. }
  rewrite <- X. unfold same_type. destruct a, b; cbn; split; intro H; try tauto; try discriminate; destruct H as [[H1 H2]|H]; try discriminate; exact H.
Qed.
Definition decides (r : res bool) (P : Prop) : Prop := exists x, r = Ok x /\ (x = true <-> P).
Lemma same_data_spec : forall cap a b, entry_ok a -> entry_ok b -> decides (same_inode_data a b) (holds cap C_same_data a b).
Proof.
  intros cap a b [Oa _] [Ob _]. unfold decides, same_inode_data.
  destruct (same_type a b) eqn:Et.
  2:{ exists false. split; [reflexivity|]. split; [discriminate|]. cbn. intros (i & j & Da & Db & K & _).
      assert (same_type a b = true) by (apply same_type_iff; right; exists i, j; auto). congruence. }
  cbn [negb]. destruct (is_inode a) eqn:Ei.
  2:{ exists false. split; [reflexivity|]. split; [discriminate|]. cbn. intros (i & j & Da & _). destruct Da as [->|[f ->]]; discriminate. }
  cbn [negb]. apply same_type_iff in Et as [[-> _]|(i & j & Da & Db & K)]; [discriminate|].
  pose proof (Oa i Da) as [Di _]. pose proof (Ob j Db) as [Dj _].
  pose proof Da as Ga. pose proof Db as Gb. apply designates_iff in Ga, Gb. rewrite Ga, Gb.
  assert (HH : holds cap C_same_data a b <-> e_uid i = e_uid j /\ e_gid i = e_gid j /\ e_perm i = e_perm j /\ instant (e_mtime i) = instant (e_mtime j) /\
      (plain (e_kind i) -> e_size i = e_size j) /\
      (e_saved i = ss_saved -> e_saved j = ss_saved ->
        (is_device_kind (e_kind i) -> e_major i = e_major j /\ e_minor i = e_minor j) /\ (e_kind i = K_lien -> e_target i = e_target j))).
  { cbn. split; [|intro H; exists i, j; tauto]. intros (i' & j' & Da' & Db' & _ & H). apply designates_iff in Da', Db'.
    rewrite Ga in Da'; rewrite Gb in Db'. injection Da' as <-. injection Db' as <-. exact H. }
  setoid_rewrite HH. clear HH.
  destruct (N.eqb_spec (e_uid i) (e_uid j)) as [E1|E1]; cbn [negb]; [|exists false; split; [reflexivity|split; [discriminate|tauto]]].
  destruct (N.eqb_spec (e_gid i) (e_gid j)) as [E2|E2]; cbn [negb]; [|exists false; split; [reflexivity|split; [discriminate|tauto]]].
  destruct (N.eqb_spec (e_perm i) (e_perm j)) as [E3|E3]; cbn [negb]; [|exists false; split; [reflexivity|split; [discriminate|tauto]]].
  destruct (dt_eq (e_mtime i) (e_mtime j)) eqn:E4; cbn [negb].
  2:{ exists false. split; [reflexivity|]. split; [discriminate|]. intros (_ & _ & _ & X & _). apply C19_equality in X; auto. congruence. }
  apply C19_equality in E4; auto. apply same_class_iff in K.
  assert (P : forall k, plain k <-> is_file_kind k = true) by (intro; symmetry; apply is_file_iff). setoid_rewrite P. clear P.
  assert (Q : forall k, is_device_kind k <-> is_device k = true) by (intros []; cbn; unfold is_device_kind; split; intro H; try discriminate; auto; destruct H; discriminate).
  setoid_rewrite Q. clear Q.
  assert (L : forall k, k = K_lien <-> is_lien k = true) by (intros []; cbn; split; congruence). setoid_rewrite L. clear L.
  setoid_rewrite <- saved_eqb_iff.
  destruct (e_kind i), (e_kind j); cbn in K; try discriminate; cbn [is_file_kind is_device is_lien andb bind negb];
    destruct (saved_eqb (e_saved i) ss_saved), (saved_eqb (e_saved j) ss_saved); cbn [bind negb];
    repeat match goal with |- context [?x =? ?y] => destruct (N.eqb_spec x y); cbn [bind negb] end;
    try (exists true; split; [reflexivity|]; split; [intros _; repeat split; auto; intros; try discriminate; congruence|reflexivity]; fail);
    try (exists false; split; [reflexivity|]; split; [discriminate|];
      intros (_ & _ & _ & _ & X & Y); try (specialize (X eq_refl); congruence); specialize (Y eq_refl eq_refl) as [Y _]; specialize (Y eq_refl) as [Y Z]; congruence);
    try (eexists; split; [reflexivity|]; rewrite bytes_eqb_iff; split;
      [intro; repeat split; auto; intros; try discriminate; congruence|intros (_ & _ & _ & _ & _ & Y); specialize (Y eq_refl eq_refl) as [_ Y]; exact (Y eq_refl)]).
Qed.
Lemma decides_ok : forall b P, (b = true <-> P) -> decides (Ok b) P.
Proof. intros b P H. exists b. auto. Qed.
Definition and_go cap a b := fix go l := match l with [] => Ok true | c :: r => let* x := evaluate cap c a b in if x : bool then go r else Ok false end.
Definition or_go cap a b := fix go l := match l with [] => Ok false | c :: r => let* x := evaluate cap c a b in if x : bool then Ok true else go r end.
Definition all_hold cap a b := fix all l := match l with [] => True | c :: r => holds cap c a b /\ all r end.
Definition any_hold cap a b := fix any l := match l with [] => False | c :: r => holds cap c a b \/ any r end.
Lemma eval_and : forall cap a b l, l <> [] -> evaluate cap (C_and l) a b = and_go cap a b l.
Proof. intros cap a b [|c l] H; [congruence|reflexivity]. Qed.
Lemma eval_or : forall cap a b l, l <> [] -> evaluate cap (C_or l) a b = or_go cap a b l.
Proof. intros cap a b [|c l] H; [congruence|reflexivity]. Qed.
(** every criterium evaluates, to what the manual says *)
Theorem C24_criteria : forall cap c a b, proper c -> entry_ok a -> entry_ok b -> agreed c a b ->
  exists r, evaluate cap c a b = Ok r /\ (r = true <-> holds cap c a b).
Proof.
  intros cap c. change (forall a b, proper c -> entry_ok a -> entry_ok b -> agreed c a b -> decides (evaluate cap c a b) (holds cap c a b)).
  induction c as [c H1 H2 H3 H4|c IH|c IH|l IH|l IH] using crit_ind2; intros a b Hp Oa Ob Hg.
  - destruct c; try (exfalso; eapply H1; reflexivity); try (exfalso; eapply H2; reflexivity); try (exfalso; eapply H3; reflexivity);
      try (exfalso; eapply H4; reflexivity); clear H1 H2 H3 H4; cbn [evaluate holds].
    + apply decides_ok. destruct a; cbn; split; intro H; try discriminate; try reflexivity; try (eexists; left; reflexivity); try (eexists; right; eexists; reflexivity);
        destruct H as [j [H|[g H]]]; discriminate.
    + apply decides_ok. destruct a as [i|i f| |]; cbn.
      * split; [intro H; exists i; split; [left; reflexivity|destruct (e_kind i); congruence]|].
        intros (j & [D|[g D]] & K); [injection D as ->; rewrite K; reflexivity|discriminate].
      * split; [discriminate|]. intros (j & [D|[g D]] & K); [discriminate|]. injection D as -> <-. destruct Oa as [_ Oa]. exfalso. eapply Oa; eauto.
      * split; [discriminate|]. intros (j & [D|[g D]] & K); discriminate.
      * split; [discriminate|]. intros (j & [D|[g D]] & K); discriminate.
    + apply decides_ok. destruct (get_inode a) as [i|] eqn:E.
      * split; [intro H; exists i; split; [apply designates_iff; exact E|destruct (e_kind i); congruence]|].
        intros (j & D & K). apply designates_iff in D. rewrite E in D. injection D as ->. rewrite K. reflexivity.
      * split; [discriminate|]. intros (j & D & K). apply designates_iff in D. congruence.
    + apply decides_ok. destruct a as [i|i f| |]; split; intro H; try discriminate; try reflexivity; try (exists i, f; reflexivity); destruct H as (j & g & H); discriminate.
    + apply decides_ok. destruct a as [i|i f| |]; try (split; [discriminate|intros (j & H); discriminate]).
      split; [intros ->; exists i; reflexivity|]. intros (j & H). congruence.
    + destruct (get_inode a) as [i|] eqn:Ea.
      2:{ apply decides_ok. split; [|reflexivity]. intros _ i j D. apply designates_iff in D. congruence. }
      destruct (get_inode b) as [j|] eqn:Eb.
      * destruct (recent_spec cap h (e_mtime i) (e_mtime j)) as (r & -> & Hr). exists r. split; [reflexivity|]. rewrite Hr. split.
        -- intros R i' j' Di Dj. apply designates_iff in Di, Dj. congruence.
        -- intro R. apply R; apply designates_iff; assumption.
      * assert (X : dge (e_mtime i) date0 = true) by (apply dge_true; unfold date0, instant; cbn; lia). rewrite X.
        apply decides_ok. split; [|reflexivity]. intros _ i' j' _ D. apply designates_iff in D. congruence.
    + destruct (get_inode a) as [i|] eqn:Ea.
      * destruct (recent_spec cap h (e_mtime i) (dt_seconds date)) as (r & -> & Hr). exists r. split; [reflexivity|]. rewrite Hr. split.
        -- intro R. exists (e_mtime i). split; [|exact R]. left. exists i. split; [apply designates_iff; exact Ea|auto].
        -- intros (m & [(i' & D & _ & ->)|[Hn _]] & R); [apply designates_iff in D; congruence|]. exfalso. apply Hn. exists i. split; [apply designates_iff; exact Ea|exact I].
      * apply decides_ok. split; [intros _|reflexivity]. cbn in Hg. destruct Hg as [[i D]| ->]; [apply designates_iff in D; congruence|].
        exists date0. split; [right; split; [intros (i & D & _); apply designates_iff in D; congruence|reflexivity]|]. left. unfold date0, dt_seconds, instant. cbn. lia.
    + apply decides_ok. destruct (get_file a) as [i|] eqn:Ea.
      * apply get_file_iff in Ea as [Da Ka]. destruct (get_file b) as [j|] eqn:Eb.
        -- apply get_file_iff in Eb as [Db Kb]. rewrite N.leb_le. split; [|intro H; apply H; assumption].
           intros L i' j' Da' Db' _ _. apply designates_iff in Da, Db, Da', Db'. congruence.
        -- split; [|reflexivity]. intros _ i' j' _ Db _ Kb. assert (get_file b = Some j') by (apply get_file_iff; auto). congruence.
      * split; [|reflexivity]. intros _ i' j' Da _ Ka _. assert (get_file a = Some i') by (apply get_file_iff; auto). congruence.
    + apply decides_ok. destruct (get_inode a) as [i|] eqn:Ea.
      * rewrite saved_eqb_iff. split; [|intro H; apply H, designates_iff; exact Ea]. intros H i' D. apply designates_iff in D. congruence.
      * split; [|reflexivity]. intros _ i' D. apply designates_iff in D. congruence.
    + apply decides_ok, file_flag.
    + apply decides_ok, file_flag.
    + apply decides_ok, file_flag.
    + apply decides_ok. rewrite (file_flag (fun i => saved_eqb (e_saved i) ss_delta)). split; intros (i & D & K & H); exists i; repeat split; auto; apply saved_eqb_iff; exact H.
    + apply (same_data_spec cap); assumption.
    + apply decides_ok. destruct a as [i|i f| |].
      * rewrite has_ea_iff. split; [intro H; exists i; split; [left; reflexivity|exact H]|]. intros (j & [D|[g D]] & H); [congruence|discriminate].
      * split; [discriminate|]. intros (j & [D|[g D]] & H); [discriminate|]. injection D as -> <-. exfalso. cbn in Hg. eapply Hg; eauto.
      * split; [discriminate|]. intros (j & [D|[g D]] & H); discriminate.
      * split; [discriminate|]. intros (j & [D|[g D]] & H); discriminate.
    + destruct (get_inode b) as [j|] eqn:Eb.
      2:{ apply decides_ok. split; [|reflexivity]. intros _ j m D. apply designates_iff in D. congruence. }
      destruct (has_ea (e_ea j)) eqn:Ee; cbn [negb].
      * apply has_ea_iff in Ee. destruct (recent_spec cap h (ea_ctime a) (e_ctime j)) as (r & -> & Hr). exists r. split; [reflexivity|]. rewrite Hr. split.
        -- intros R j' m D _ F. apply designates_iff in D. apply ea_ctime_spec in F. congruence.
        -- intro R. apply R; [apply designates_iff; exact Eb|exact Ee|apply ea_ctime_spec; reflexivity].
      * apply decides_ok. split; [|reflexivity]. intros _ j' m D W _. apply designates_iff in D. apply has_ea_iff in W. congruence.
    + destruct (recent_spec cap h (ea_ctime a) (dt_seconds date)) as (r & -> & Hr). exists r. split; [reflexivity|]. rewrite Hr. split.
      * intro R. exists (ea_ctime a). split; [apply ea_ctime_spec; reflexivity|exact R].
      * intros (m & F & R). apply ea_ctime_spec in F. congruence.
    + apply decides_ok. rewrite N.leb_le. split; [intro L; eexists _, _; rewrite !field_spec; eauto|]. intros (x & y & X & Y & L). rewrite field_spec in X, Y. congruence.
    + apply decides_ok. rewrite N.leb_le. split; [intro L; eexists _, _; rewrite !field_spec; eauto|]. intros (x & y & X & Y & L). rewrite field_spec in X, Y. congruence.
    + apply decides_ok. destruct (get_inode a) as [i|] eqn:Ea.
      * split; [intro H; exists i; split; [apply designates_iff; exact Ea|destruct (e_ea i); congruence]|].
        intros (j & D & K). apply designates_iff in D. rewrite Ea in D. injection D as ->. rewrite K. reflexivity.
      * split; [discriminate|]. intros (j & D & K). apply designates_iff in D. congruence.
    + apply decides_ok, same_type_iff.
  - cbn in *. destruct (IH a b Hp Oa Ob Hg) as (x & -> & Hx). cbn. apply decides_ok. rewrite <- Hx. destruct x; cbn; split; intro; congruence.
  - cbn in *. apply (IH b a); assumption.
  - cbn in Hp, Hg. destruct Hp as [Hne Hp]. rewrite eval_and by exact Hne. change (decides (and_go cap a b l) (all_hold cap a b l)). clear Hne. revert IH Hp Hg.
    induction l as [|c l IHl]; intros F Hp Hg; [apply decides_ok; cbn; tauto|]. destruct Hp as [Hp1 Hp2]. destruct Hg as [Hg1 Hg2].
    inversion F as [|c' l' F1 F2]; subst. destruct (F1 a b Hp1 Oa Ob Hg1) as (x & Ex & Hx). cbn [and_go or_go all_hold any_hold]. rewrite Ex. cbn [bind]. destruct x.
    + destruct (IHl F2 Hp2 Hg2) as (y & Ey & Hy). exists y. split; [exact Ey|]. rewrite Hy. split; [split; [apply Hx; reflexivity|assumption]|tauto].
    + apply decides_ok. split; [discriminate|]. intros [X _]. apply Hx in X. discriminate.
  - cbn in Hp, Hg. destruct Hp as [Hne Hp]. rewrite eval_or by exact Hne. change (decides (or_go cap a b l) (any_hold cap a b l)). clear Hne. revert IH Hp Hg.
    induction l as [|c l IHl]; intros F Hp Hg; [apply decides_ok; cbn; split; [discriminate|tauto]|]. destruct Hp as [Hp1 Hp2]. destruct Hg as [Hg1 Hg2].
    inversion F as [|c' l' F1 F2]; subst. destruct (F1 a b Hp1 Oa Ob Hg1) as (x & Ex & Hx). cbn [and_go or_go all_hold any_hold]. rewrite Ex. cbn [bind]. destruct x.
    + apply decides_ok. split; [left; apply Hx; reflexivity|reflexivity].
    + destruct (IHl F2 Hp2 Hg2) as (y & Ey & Hy). exists y. split; [exact Ey|]. rewrite Hy. split; [right; assumption|].
      intros [X|X]; [apply Hx in X; discriminate|exact X].
Qed.
(** an operator without operand is rejected *)
Theorem C24_no_operand : forall cap a b, evaluate cap (C_and []) a b = Err Erange /\ evaluate cap (C_or []) a b = Err Erange /\ get_action cap (P_chain []) a b = Err Erange.
Proof. intros. repeat split. Qed.

(** ** Actions *)
(** the last defined action of a list, if any *)
Definition last_data (l : list (adata * aea)) (d : adata) : Prop :=
  (exists l1 e l2, l = l1 ++ (d, e) :: l2 /\ d <> D_undefined /\ forall x, In x l2 -> fst x = D_undefined) \/
  (d = D_undefined /\ forall x, In x l -> fst x = D_undefined).
Definition last_ea (l : list (adata * aea)) (e : aea) : Prop :=
  (exists l1 d l2, l = l1 ++ (d, e) :: l2 /\ e <> A_undefined /\ forall x, In x l2 -> snd x = A_undefined) \/
  (e = A_undefined /\ forall x, In x l -> snd x = A_undefined).
(** both actions are defined by the list *)
Definition complete (l : list (adata * aea)) : Prop := (exists x, In x l /\ fst x <> D_undefined) /\ (exists x, In x l /\ snd x <> A_undefined).
Definition chain_go (cap : time_unit) (a b : entry) : list policy -> adata -> aea -> res (adata * aea) :=
  fix go l d e :=
      match l with
      | [] => Ok (d, e)
      | p :: r =>
        if d_undef d || e_undef e then
          let* '(td, te) := get_action cap p a b in
          go r (if d_undef d || negb (d_undef td) then td else d) (if e_undef e || negb (e_undef te) then te else e)
        else Ok (d, e)
      end.
Lemma last_data_snoc : forall l d x, last_data l d -> last_data (l ++ [x]) (if d_undef d || negb (d_undef (fst x)) then fst x else d).
Proof.
  intros l d [td te] H. cbn. destruct (d_undef td) eqn:Et.
  - assert (td = D_undefined) by (destruct td; cbn in Et; congruence). subst td. cbn [negb]. rewrite orb_false_r. destruct (d_undef d) eqn:Ed.
    + assert (d = D_undefined) by (destruct d; cbn in Ed; congruence). subst d. right. split; [reflexivity|].
      destruct H as [(l1 & e & l2 & _ & X & _)|[_ H]]; [congruence|]. intros x Hin. apply in_app_or in Hin as [Hin|[<-|[]]]; [auto|reflexivity].
    + destruct H as [(l1 & e & l2 & -> & X & H)|[-> _]]; [|discriminate]. left. exists l1, e, (l2 ++ [(D_undefined, te)]). split; [rewrite <- app_assoc; reflexivity|].
      split; [exact X|]. intros x Hin. apply in_app_or in Hin as [Hin|[<-|[]]]; [auto|reflexivity].
  - cbn [negb]. rewrite orb_true_r. left. exists l, te, []. split; [reflexivity|]. split; [destruct td; cbn in Et; congruence|intros x []].
Qed.
Lemma last_ea_snoc : forall l d x, last_ea l d -> last_ea (l ++ [x]) (if e_undef d || negb (e_undef (snd x)) then snd x else d).
Proof.
  intros l d [te td] H. cbn. destruct (e_undef td) eqn:Et.
  - assert (td = A_undefined) by (destruct td; cbn in Et; congruence). subst td. cbn [negb]. rewrite orb_false_r. destruct (e_undef d) eqn:Ed.
    + assert (d = A_undefined) by (destruct d; cbn in Ed; congruence). subst d. right. split; [reflexivity|].
      destruct H as [(l1 & e & l2 & _ & X & _)|[_ H]]; [congruence|]. intros x Hin. apply in_app_or in Hin as [Hin|[<-|[]]]; [auto|reflexivity].
    + destruct H as [(l1 & e & l2 & -> & X & H)|[-> _]]; [|discriminate]. left. exists l1, e, (l2 ++ [(te, A_undefined)]). split; [rewrite <- app_assoc; reflexivity|].
      split; [exact X|]. intros x Hin. apply in_app_or in Hin as [Hin|[<-|[]]]; [auto|reflexivity].
  - cbn [negb]. rewrite orb_true_r. left. exists l, te, []. split; [reflexivity|]. split; [destruct td; cbn in Et; congruence|intros x []].
Qed.
Lemma last_complete : forall l d e, last_data l d -> last_ea l e -> (d_undef d || e_undef e = false <-> complete l).
Proof.
  intros l d e Hd He. unfold complete. rewrite orb_false_iff. split.
  - intros [Xd Xe]. split.
    + destruct Hd as [(l1 & y & l2 & -> & H & _)|[-> _]]; [|discriminate]. exists (d, y). split; [apply in_elt|exact H].
    + destruct He as [(l1 & y & l2 & -> & H & _)|[-> _]]; [|discriminate]. exists (y, e). split; [apply in_elt|exact H].
  - intros [(x & Hx & Xd) (y & Hy & Ye)]. split.
    + destruct Hd as [(_ & _ & _ & _ & H & _)|[_ H]]; [destruct d; cbn; congruence|]. apply H in Hx. congruence.
    + destruct He as [(_ & _ & _ & _ & H & _)|[_ H]]; [destruct e; cbn; congruence|]. apply H in Hy. congruence.
Qed.
Lemma chain_go_spec : forall cap a b l0 seen d e rest rs, last_data seen d -> last_ea seen e ->
  Forall2 (fun p r => get_action cap p a b = Ok r) l0 rs ->
  (forall r1 r2, rs = r1 ++ r2 -> r2 <> [] -> ~ complete (seen ++ r1)) ->
  (rest = [] \/ complete (seen ++ rs)) ->
  exists d' e', chain_go cap a b (l0 ++ rest) d e = Ok (d', e') /\ last_data (seen ++ rs) d' /\ last_ea (seen ++ rs) e'.
Proof.
  intros cap a b l0. induction l0 as [|p l0 IH]; intros seen d e rest rs Hd He F Hmin Hend.
  - inversion F; subst. rewrite app_nil_r in *. exists d, e. split; [|auto]. cbn. destruct rest as [|p r]; [reflexivity|]. destruct Hend as [?|Hc]; [discriminate|].
    cbn. apply (last_complete _ _ _ Hd He) in Hc. rewrite Hc. reflexivity.
  - inversion F as [|x [td te] y z G F' X Y]; subst. cbn [app chain_go]. destruct (d_undef d || e_undef e) eqn:E.
    + rewrite G. cbn [bind]. specialize (IH (seen ++ [(td, te)]) _ _ rest z (last_data_snoc _ _ (td, te) Hd) (last_ea_snoc _ _ (td, te) He) F').
      rewrite <- !app_assoc in IH. cbn in IH. apply IH; [|exact Hend]. intros r1 r2 -> Hne. rewrite <- app_assoc. apply (Hmin ((td, te) :: r1) r2); [reflexivity|exact Hne].
    + exfalso. apply (Hmin [] ((td, te) :: z)); [reflexivity|discriminate|]. rewrite app_nil_r. apply (last_complete _ _ _ Hd He). exact E.
Qed.
(** the expressions of a chain are evaluated in turn until both actions are defined, and no further; each action is the last one
    defined so far: '*' never overwrites a defined action, another action does *)
Theorem C24_chain : forall cap a b evaluated others rs, evaluated <> [] ->
  Forall2 (fun p r => get_action cap p a b = Ok r) evaluated rs ->
  (forall r1 r2, rs = r1 ++ r2 -> r2 <> [] -> ~ complete r1) -> (others = [] \/ complete rs) ->
  exists d e, get_action cap (P_chain (evaluated ++ others)) a b = Ok (d, e) /\ last_data rs d /\ last_ea rs e.
Proof.
  intros cap a b l0 rest rs Hne F Hmin Hend.
  assert (Hd : last_data [] D_undefined) by (right; split; [reflexivity|intros x []]).
  assert (He : last_ea [] A_undefined) by (right; split; [reflexivity|intros x []]).
  destruct (chain_go_spec cap a b l0 [] D_undefined A_undefined rest rs Hd He F Hmin Hend) as (d & e & G & X & Y).
  exists d, e. split; [|auto]. destruct l0 as [|p l0]; [congruence|]. exact G.
Qed.
(** a test selects by its criterium *)
Theorem C24_test : forall cap c t f a b, proper c -> entry_ok a -> entry_ok b -> agreed c a b ->
  (holds cap c a b -> get_action cap (P_test c t f) a b = get_action cap t a b) /\
  (~ holds cap c a b -> get_action cap (P_test c t f) a b = get_action cap f a b).
Proof.
  intros cap c t f a b Hp Oa Ob Hg. destruct (C24_criteria cap c a b Hp Oa Ob Hg) as (r & E & H). cbn. rewrite E. cbn.
  destruct r; split; intro X; try reflexivity; [exfalso; apply X, H; reflexivity|apply H in X; discriminate].
Qed.
(** every policy made of non empty chains gives an action *)
Fixpoint proper_policy (p : policy) : Prop :=
  match p with
  | P_const _ _ => True
  | P_test c t f => proper c /\ proper_policy t /\ proper_policy f
  | P_chain l => l <> [] /\ (fix all l := match l with [] => True | p :: r => proper_policy p /\ all r end) l
  end.
Lemma evaluate_total : forall cap c a b, proper c -> entry_ok a -> entry_ok b -> exists r, evaluate cap c a b = Ok r.
Proof.
  intros cap c. induction c as [c H1 H2 H3 H4|c IH|c IH|l IH|l IH] using crit_ind2; intros a b Hp Oa Ob.
  - destruct c; try (exfalso; eapply H1; reflexivity); try (exfalso; eapply H2; reflexivity); try (exfalso; eapply H3; reflexivity);
      try (exfalso; eapply H4; reflexivity); clear H1 H2 H3 H4; cbn [evaluate]; try (eexists; reflexivity).
    + destruct (get_inode a); [|eexists; reflexivity]. match goal with |- context [dge ?x ?y] => destruct (recent_spec cap h x y) as (r & -> & _) end. eexists; reflexivity.
    + destruct (get_inode a); [|eexists; reflexivity]. match goal with |- context [dge ?x ?y] => destruct (recent_spec cap h x y) as (r & -> & _) end. eexists; reflexivity.
    + destruct (same_data_spec cap a b Oa Ob) as (r & -> & _). eexists; reflexivity.
    + destruct (get_inode b); [|eexists; reflexivity]. destruct (negb _); [eexists; reflexivity|].
      match goal with |- context [dge ?x ?y] => destruct (recent_spec cap h x y) as (r & -> & _) end. eexists; reflexivity.
    + match goal with |- context [dge ?x ?y] => destruct (recent_spec cap h x y) as (r & -> & _) end. eexists; reflexivity.
  - cbn in *. destruct (IH a b Hp Oa Ob) as (r & ->). eexists; reflexivity.
  - cbn in *. auto.
  - cbn in Hp. destruct Hp as [Hne Hp]. rewrite eval_and by exact Hne. clear Hne. revert IH Hp.
    induction l as [|c l IHl]; intros F Hp; [eexists; reflexivity|]. destruct Hp as [Hp1 Hp2]. inversion F as [|c' l' F1 F2]; subst.
    destruct (F1 a b Hp1 Oa Ob) as (x & Ex). cbn [and_go or_go]. rewrite Ex. cbn [bind]. destruct x; [auto|eexists; reflexivity].
  - cbn in Hp. destruct Hp as [Hne Hp]. rewrite eval_or by exact Hne. clear Hne. revert IH Hp.
    induction l as [|c l IHl]; intros F Hp; [eexists; reflexivity|]. destruct Hp as [Hp1 Hp2]. inversion F as [|c' l' F1 F2]; subst.
    destruct (F1 a b Hp1 Oa Ob) as (x & Ex). cbn [and_go or_go]. rewrite Ex. cbn [bind]. destruct x; [eexists; reflexivity|auto].
Qed.
Section PolicyInd.
  Variable P : policy -> Prop.
  Hypothesis Hc : forall d e, P (P_const d e).
  Hypothesis Ht : forall c t f, P t -> P f -> P (P_test c t f).
  Hypothesis Hl : forall l, Forall P l -> P (P_chain l).
  Fixpoint policy_ind2 (p : policy) : P p.
  Proof. destruct p; [apply Hc|apply Ht; apply policy_ind2|apply Hl; induction l; constructor; auto]. Defined.
End PolicyInd.
Theorem C24_total : forall cap p a b, proper_policy p -> entry_ok a -> entry_ok b -> exists d e, get_action cap p a b = Ok (d, e).
Proof.
  intros cap p a b Hp Oa Ob. induction p as [d e|c t f IHt IHf|l IH] using policy_ind2.
  - exists d, e. reflexivity.
  - destruct Hp as (Hc & H1 & H2). cbn. destruct (evaluate_total cap c a b Hc Oa Ob) as (r & ->). cbn. destruct r; auto.
  - destruct Hp as [Hne Hp].
    assert (X : get_action cap (P_chain l) a b = chain_go cap a b l D_undefined A_undefined) by (destruct l; [congruence|reflexivity]).
    rewrite X. clear X Hne. generalize D_undefined. generalize A_undefined. revert IH Hp.
    induction l as [|p l IHl]; intros IH Hp e d; [exists d, e; reflexivity|]. destruct Hp as [Hp1 Hp2]. inversion IH as [|p' l' F1 F2]; subst. cbn [chain_go].
    destruct (_ || _); [|exists d, e; reflexivity]. destruct (F1 Hp1) as (td & te & ->). cbn [bind]. apply IHl; assumption.
Qed.
(** the confirmation asked when merging: accepting changes nothing, refusing for data preserves it *)
Theorem C24_confirm : forall d e, confirm_merge true true d e = (d, e) /\ fst (confirm_merge false true d e) <> D_overwrite /\
  snd (confirm_merge false true d e) = e /\ (d <> D_undefined -> d <> D_ask -> fst (confirm_merge false true d e) = D_preserve).
Proof. intros [] []; cbn; repeat split; congruence. Qed.

(** ** Findings *)
Definition day1 : datetime := DT 86400 tu_s.
Definition plain_file : ino := Inode K_file 0 0 420 day1 day1 ss_saved 10 false false false 0 0 [] ea_full 1 12.
(** 'e' is false for a hard linked inode having EA *)
Theorem C24_EA_hardlink_refuted : exists a b, entry_ok a /\ entry_ok b /\ holds tu_s C_EA_present a b /\ evaluate tu_s C_EA_present a b = Ok false.
Proof.
  exists (EMirage plain_file true), (EInode plain_file).
  assert (D : PropDatetime.date day1) by apply (PropDatetime.d_seconds 86400).
  split; [|split; [|split]].
  - split; [intros i [X|[f X]]; [discriminate|]; injection X as <- _; cbn; auto|]. intros i f X. injection X as <- _. cbn. discriminate.
  - split; [intros i [X|[f X]]; [|discriminate]; injection X as <-; cbn; auto|]. intros i f X. discriminate.
  - exists plain_file. split; [right; exists true; reflexivity|split; discriminate].
  - reflexivity.
Qed.
(** 'R(date)' is true for an entry without mtime, whatever the date *)
Theorem C24_date_no_inode_refuted : exists d, evaluate tu_s (C_data_recent_to d 0) EDetruit EDetruit = Ok true /\ ~ holds tu_s (C_data_recent_to d 0) EDetruit EDetruit.
Proof.
  exists 86400. split; [reflexivity|]. cbn. intros (m & [(i & [X|[f X]] & _)|[_ ->]] & [L|(k & Hk & E)]); try discriminate.
  - unfold date0, dt_seconds, instant in L. cbn in L. unfold G in L. lia.
  - assert (k = 0) by lia. subst k. vm_compute in E. discriminate.
Qed.
(** the user refuses that the EA be overwritten: they are, and it is the data that is preserved *)
Theorem C24_confirm_EA_refuted : confirm_merge true false D_overwrite A_overwrite = (D_preserve, A_overwrite).
Proof. reflexivity. Qed.
(** the manual says that an action still undefined at the end of the policy is 'preserve': it is an error when restoring *)
Theorem C24_undefined_refuted : default_merge D_undefined = Ok D_preserve /\ default_restore D_undefined = Err Erange.
Proof. split; reflexivity. Qed.

(** ** Example: the policy {R}[P* ] O* ; {r}[*p] *o *)
Definition example_policy : policy :=
  P_chain [P_test (C_data_recent 0) (P_const D_preserve A_undefined) (P_const D_overwrite A_undefined);
           P_test (C_EA_recent 0) (P_const D_undefined A_preserve) (P_const D_undefined A_overwrite); P_const D_remove A_clear].
Definition newer : ino := Inode K_file 0 0 420 (DT 172800 tu_s) day1 ss_saved 10 false false false 0 0 [] ea_full 1 12.
Example C24_example : get_action tu_s example_policy (EInode plain_file) (EInode newer) = Ok (D_overwrite, A_preserve) /\
  get_action tu_s example_policy (EInode newer) (EInode plain_file) = Ok (D_preserve, A_preserve) /\
  evaluate tu_s (C_and [C_is_file; C_not (C_same_data)]) (EInode plain_file) (EInode newer) = Ok true.
Proof. repeat split; vm_compute; reflexivity. Qed.
