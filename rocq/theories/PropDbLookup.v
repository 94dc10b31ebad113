(** * Property C21: what the database answers about a file at a date. *)
From Verif Require Import Base NumModel InfinintModel DatetimeModel CrcModel PropDatetime DbModel DbMap PropDbDelta PropDbPerm.
Open Scope N_scope.

(** ** Specification *)
(** the records of the database are in chronological order (what the database checks and warns about before restoring) *)
Definition chronological {A} (f : A -> datetime) (m : amap A) : Prop :=
  forall before k s k' s' mid after, m = before ++ (k, s) :: mid ++ (k', s') :: after -> instant (f s) <= instant (f s').
(** the records up to a date; no date given: all *)
Definition upto {A} (f : A -> datetime) (d : datetime) (m : amap A) : amap A :=
  filter (fun p => is_null d || (instant (f (snd p)) <=? instant d)) m.
(** what is known of the data of a file after some records: nothing; it was removed by an archive; it exists but cannot be rebuilt;
    it is the full copy of an archive, the patches of others and the metadata of yet another *)
Inductive known := Never | Gone (by_archive : N) | Lost | Have (full : N) (patches : list N) (meta : option N).
Definition learn (ewr : bool) (st : known) (k : N) (e : etat) : known :=
  match e with
  | et_saved => Have k [] None
  | et_patch => match st with Have f ps _ => Have f (ps ++ [k]) None | _ => Lost end
  | et_patch_unusable => Lost
  | et_inode => match st with Have f ps _ => Have f ps (Some k) | _ => Lost end
  | et_present => match st with Have f ps i => Have f ps i | _ => Lost end
  | et_removed | et_absent => if ewr then st else Gone k
  end.
Definition history (ewr : bool) (m : amap statusp) : known := fold_left (fun st p => learn ewr st (fst p) (present (snd p))) m Never.
Definition answer (st : known) : lookup :=
  match st with Never => not_found | Gone _ => found_removed | Lost => not_restorable | Have _ _ _ => found_present end.
Definition needed (st : known) : list N := match st with Have f ps i => f :: ps ++ match i with Some k => [k] | None => [] end | Gone k => [k] | _ => [] end.
(** no archive states a file unchanged right after it was removed *)
Definition no_revival (ewr : bool) (m : amap statusp) : Prop :=
  forall before k s after, m = before ++ (k, s) :: after -> present s = et_present -> forall j, history ewr before <> Gone j.

(** ** Chronological order and prefixes *)
Lemma chrono_tail : forall A (f : A -> datetime) x m, chronological f (x :: m) -> chronological f m.
Proof. intros A f x m H before k s k' s' mid after E. apply (H (x :: before) k s k' s' mid after). rewrite E. reflexivity. Qed.
Lemma chrono_head : forall A (f : A -> datetime) k s m, chronological f ((k, s) :: m) -> forall k' s', In (k', s') m -> instant (f s) <= instant (f s').
Proof.
  intros A f k s m H k' s' Hin. apply in_split in Hin as (m1 & m2 & ->). apply (H [] k s k' s' m1 m2). reflexivity.
Qed.
Lemma chrono_nil : forall A (f : A -> datetime), chronological f [].
Proof. intros A f before k s k' s' mid after E. destruct before; discriminate. Qed.
Lemma chrono_cons : forall A (f : A -> datetime) k s m, (forall k' s', In (k', s') m -> instant (f s) <= instant (f s')) -> chronological f m -> chronological f ((k, s) :: m).
Proof.
  intros A f k s m H Hm before k1 s1 k2 s2 mid after E. destruct before as [|b before]; cbn in E; injection E; intros; subst.
  - apply (H k2 s2). apply in_or_app. right; left; reflexivity.
  - eapply Hm. reflexivity.
Qed.
Lemma upto_prefix : forall A (f : A -> datetime) d m, chronological f m -> exists rest, m = upto f d m ++ rest.
Proof.
  intros A f d m. induction m as [|[k s] r IH]; intros H; [exists []; reflexivity|]. unfold upto. cbn.
  destruct (is_null d || (instant (f s) <=? instant d)) eqn:E.
  - destruct (IH (chrono_tail _ _ _ _ H)) as [rest Hr]. exists rest. cbn. f_equal. exact Hr.
  - exists ((k, s) :: r). assert (X : filter (fun p : N * A => is_null d || (instant (f (snd p)) <=? instant d)) r = []).
    { pose proof (chrono_head _ _ _ _ _ H) as Hh. apply orb_false_iff in E as [E1 E2]. rewrite E1. cbn [orb].
      clear IH H. induction r as [|[k' s'] r' IH]; [reflexivity|]. cbn. assert (instant (f s) <= instant (f s')) by (apply (Hh k'); left; reflexivity).
      replace (instant (f s') <=? instant d) with false by lia. apply IH. intros k2 s2 Hin. apply (Hh k2). right; exact Hin. }
    rewrite X. reflexivity.
Qed.

(** ** get_data *)
Fixpoint feed (ewr : bool) (c : cand) (m : amap statusp) : res cand :=
  match m with [] => Ok c | (k, s) :: r => let* c := cand_add ewr c k (present s) in feed ewr c r end.
Lemma data_loop_feed : forall m ewr d max c, chronological date m -> (forall k s, In (k, s) m -> instant max <= instant (date s)) ->
  data_loop ewr d max c m = feed ewr c (upto date d m).
Proof.
  induction m as [|[k s] r IH]; intros ewr d max c Hc Hm; [reflexivity|]. cbn.
  rewrite dge_spec, dle_spec. replace (instant max <=? instant (date s)) with true by (specialize (Hm k s (or_introl eq_refl)); lia). cbn [andb].
  destruct (is_null d || (instant (date s) <=? instant d)); cbn.
  - destruct (cand_add ewr c k (present s)) as [c'|]; [|reflexivity]. cbn. apply IH; [eapply chrono_tail; eauto|eapply chrono_head; eauto].
  - apply IH; [eapply chrono_tail; eauto|]. intros k' s' Hin. apply (Hm k'). right; exact Hin.
Qed.

Definition tag (ps : list N) : cand := map (fun k => (k, et_patch)) ps.
Definition rep (st : known) (c : cand) : Prop :=
  match st with
  | Never => c = []
  | Gone k => exists e, c = [(k, e)] /\ (e = et_removed \/ e = et_absent)
  | Lost => exists k e r, c = (k, e) :: r /\ (e = et_patch \/ e = et_patch_unusable \/ e = et_inode \/ e = et_present) /\
      (forall x, In x r -> snd x = et_patch \/ snd x = et_inode) /\ (e = et_present -> r = [])
  | Have f ps i => c = (f, et_saved) :: tag ps ++ match i with Some k => [(k, et_inode)] | None => [] end
  end.
Lemma back_app : forall c x, back (c ++ [x]) = Some x.
Proof. intros c x. unfold back. rewrite rev_app_distr. reflexivity. Qed.
Lemma back_cons : forall x c, exists y, back (x :: c) = Some y /\ (c = [] /\ y = x \/ In y c).
Proof.
  intros x c. destruct c as [|z c] using rev_ind; [exists x; split; [reflexivity|auto]|]. exists z. split.
  - change (x :: c ++ [z]) with ((x :: c) ++ [z]). apply back_app.
  - right. apply in_or_app. right; left; reflexivity.
Qed.
Lemma removelast_in : forall (c : cand) x, In x (removelast c) -> In x c.
Proof.
  intros c. destruct c as [|z c] using rev_ind; [intros x []|]. intros x H. rewrite removelast_last in H. apply in_or_app. left; exact H.
Qed.

Lemma lost1 : forall k e, e = et_patch \/ e = et_patch_unusable \/ e = et_inode \/ e = et_present -> rep Lost [(k, e)].
Proof. intros k e H. exists k, e, []. repeat split; auto. intros x []. Qed.
Lemma lost2 : forall k e k' e', e = et_patch \/ e = et_patch_unusable \/ e = et_inode -> e' = et_patch \/ e' = et_inode -> rep Lost [(k, e); (k', e')].
Proof. intros k e k' e' H H'. exists k, e, [(k', e')]. repeat split; [tauto|intros x [<-|[]]; exact H'|]. intros ->. destruct H as [H|[H|H]]; discriminate. Qed.
Lemma add_rep : forall ewr st c k e, rep st c -> (e = et_present -> forall j, st <> Gone j) ->
  exists c', cand_add ewr c k e = Ok c' /\ rep (learn ewr st k e) c'.
Proof.
  intros ewr st c k e R Hp. destruct st as [|g| |f ps i]; cbn in R.
  - (* Never *) subst c. destruct e, ewr; cbn; eexists; (split; [reflexivity|]); cbn; eauto 10.
    all: try (exists k; eexists; exists []; repeat split; eauto 10; intros x []).
  - (* Gone *) destruct R as (e0 & -> & He). destruct e.
    + cbn. eexists. split; [reflexivity|]. reflexivity.
    + destruct He as [->| ->]; cbn; eexists; (split; [reflexivity|]); cbn; exists k, et_patch, []; repeat split; auto; try (intros x []); discriminate.
    + cbn. eexists. split; [reflexivity|]. cbn. exists k, et_patch_unusable, []; repeat split; auto; try (intros x []); discriminate.
    + destruct He as [->| ->]; cbn; eexists; (split; [reflexivity|]); cbn; exists k, et_inode, []; repeat split; auto; try (intros x []); discriminate.
    + exfalso. apply (Hp eq_refl g). reflexivity.
    + destruct ewr; cbn; eexists; (split; [reflexivity|]); cbn; eauto.
    + destruct ewr; cbn; eexists; (split; [reflexivity|]); cbn; eauto.
  - (* Lost *) destruct R as (k0 & e0 & r & -> & He & Hr & Hpr).
    destruct e.
    + cbn. eexists. split; [reflexivity|]. reflexivity.
    + unfold cand_add. destruct (back_cons (k0, e0) r) as ([kb eb] & Eb & Hb). rewrite Eb. cbn [etat_eqb].
      destruct Hb as [[-> E]|Hb].
      * injection E as -> ->. destruct He as [->|[->|[->| ->]]]; cbn; eexists; (split; [reflexivity|]);
          first [apply lost1; tauto | apply lost2; tauto].
      * assert (He' : e0 <> et_present) by (intro X; apply Hpr in X; subst r; destruct Hb).
        destruct (Hr _ Hb) as [X|X]; cbn in X; subst eb.
        -- eexists. split; [reflexivity|]. cbn. exists k0, e0, (r ++ [(k, et_patch)]). repeat split; auto; [|intro; contradiction].
           intros x Hx. apply in_app_or in Hx as [Hx|[<-|[]]]; auto.
        -- eexists. split; [reflexivity|]. exists k0, e0, (removelast r ++ [(k, et_patch)]). repeat split; auto; [| |intro; contradiction].
           ++ destruct r; [destruct Hb|reflexivity].
           ++ intros x Hx. apply in_app_or in Hx as [Hx|[<-|[]]]; auto. apply Hr, removelast_in, Hx.
    + cbn. eexists. split; [reflexivity|]. exists k, et_patch_unusable, []. repeat split; auto; try (intros x []); discriminate.
    + unfold cand_add. destruct (back_cons (k0, e0) r) as ([kb eb] & Eb & Hb). rewrite Eb. cbn [etat_eqb].
      destruct Hb as [[-> E]|Hb].
      * injection E as -> ->. destruct He as [->|[->|[->| ->]]]; cbn; eexists; (split; [reflexivity|]);
          first [apply lost1; tauto | apply lost2; tauto].
      * assert (He' : e0 <> et_present) by (intro X; apply Hpr in X; subst r; destruct Hb).
        destruct (Hr _ Hb) as [X|X]; cbn in X; subst eb.
        -- eexists. split; [reflexivity|]. cbn. exists k0, e0, (r ++ [(k, et_inode)]). repeat split; auto; [|intro; contradiction].
           intros x Hx. apply in_app_or in Hx as [Hx|[<-|[]]]; auto.
        -- eexists. split; [reflexivity|]. exists k0, e0, (removelast r ++ [(k, et_inode)]). repeat split; auto; [| |intro; contradiction].
           ++ destruct r; [destruct Hb|reflexivity].
           ++ intros x Hx. apply in_app_or in Hx as [Hx|[<-|[]]]; auto. apply Hr, removelast_in, Hx.
    + unfold cand_add. destruct (back_cons (k0, e0) r) as ([kb eb] & Eb & Hb). rewrite Eb. cbn [etat_eqb].
      eexists. split; [reflexivity|]. exists k0, e0, r. auto.
    + destruct ewr; cbn; eexists; (split; [reflexivity|]); cbn; eauto 10.
    + destruct ewr; cbn; eexists; (split; [reflexivity|]); cbn; eauto 10.
  - (* Have *)
    assert (B : exists b, back c = Some (b, match i with Some _ => et_inode | None => match ps with [] => et_saved | _ => et_patch end end)).
    { subst c. destruct i as [j|].
      - exists j. change ((f, et_saved) :: tag ps ++ [(j, et_inode)]) with (((f, et_saved) :: tag ps) ++ [(j, et_inode)]). apply back_app.
      - rewrite app_nil_r. destruct ps as [|p ps] using rev_ind; [exists f; reflexivity|]. exists p. unfold tag. rewrite map_app. cbn [map].
        replace (match ps ++ [p] with [] => et_saved | _ => et_patch end) with et_patch by (destruct ps; reflexivity).
        change ((f, et_saved) :: map (fun k : N => (k, et_patch)) ps ++ [(p, et_patch)]) with (((f, et_saved) :: map (fun k : N => (k, et_patch)) ps) ++ [(p, et_patch)]). apply back_app. }
    destruct B as [b B].
    assert (C : e = et_patch \/ e = et_inode -> cand_add ewr c k e = Ok ((f, et_saved) :: tag ps ++ [(k, e)])).
    { intro He. unfold cand_add. destruct He as [->| ->]; rewrite B; cbn [etat_eqb]; destruct i as [j|].
      1,3: subst c; change ((f, et_saved) :: tag ps ++ [(j, et_inode)]) with (((f, et_saved) :: tag ps) ++ [(j, et_inode)]); rewrite removelast_last; reflexivity.
      all: subst c; rewrite app_nil_r; destruct ps; reflexivity. }
    destruct e.
    + cbn. eexists. split; [reflexivity|]. reflexivity.
    + rewrite C by auto. eexists. split; [reflexivity|]. cbn. unfold tag. rewrite map_app, app_nil_r. reflexivity.
    + cbn. eexists. split; [reflexivity|]. exists k, et_patch_unusable, []. repeat split; auto; try (intros x []); discriminate.
    + rewrite C by auto. eexists. split; [reflexivity|]. reflexivity.
    + unfold cand_add. rewrite B. cbn [etat_eqb]. eexists. split; [reflexivity|]. exact R.
    + destruct ewr; cbn; eexists; (split; [reflexivity|]); cbn; [exact R|eauto].
    + destruct ewr; cbn; eexists; (split; [reflexivity|]); cbn; [exact R|eauto].
Qed.
Lemma history_app : forall ewr a k s, history ewr (a ++ [(k, s)]) = learn ewr (history ewr a) k (present s).
Proof. intros. unfold history. rewrite fold_left_app. reflexivity. Qed.
Lemma feed_app : forall ewr a b c, feed ewr c (a ++ b) = let* c := feed ewr c a in feed ewr c b.
Proof. induction a as [|[k s] r IH]; intros b c; cbn; [reflexivity|]. destruct (cand_add ewr c k (present s)); cbn; [apply IH|reflexivity]. Qed.
Lemma feed_rep : forall ewr m, no_revival ewr m -> exists c, feed ewr [] m = Ok c /\ rep (history ewr m) c.
Proof.
  intros ewr m. induction m as [|[k s] m IH] using rev_ind; intro H; [exists []; split; reflexivity|].
  destruct IH as (c & E & R).
  { intros before k' s' after Em. apply (H before k' s' (after ++ [(k, s)])). rewrite Em, <- app_assoc. reflexivity. }
  rewrite feed_app, E. cbn. destruct (add_rep ewr (history ewr m) c k (present s) R) as (c' & -> & R').
  { intros Hp. apply (H m k s [] eq_refl Hp). }
  cbn. exists c'. rewrite history_app. auto.
Qed.
Lemma rep_status : forall st c, rep st c -> cand_status c = answer st.
Proof.
  intros [|g| |f ps i] c R; cbn in R.
  - subst. reflexivity.
  - destruct R as (e & -> & [->| ->]); reflexivity.
  - destruct R as (k & e & r & -> & [->|[->|[->| ->]]] & _); reflexivity.
  - subst. reflexivity.
Qed.
Lemma rep_set : forall st c, rep st c -> st <> Lost -> map fst c = needed st.
Proof.
  intros [|g| |f ps i] c R Hl; cbn in R.
  - subst. reflexivity.
  - destruct R as (e & -> & _); reflexivity.
  - congruence.
  - subst c. cbn. rewrite map_app. unfold tag. rewrite map_map. cbn. rewrite map_id. destruct i; reflexivity.
Qed.
Lemma any_after_zero : forall (m : amap statusp), forall k s, In (k, s) m -> instant date0 <= instant (date s).
Proof. intros. unfold instant, date0. cbn. lia. Qed.

(** the answer and the archives are those of the history up to the date *)
Theorem C21_get_data : forall m d ewr, chronological date m -> no_revival ewr (upto date d m) ->
  exists set, get_data m d ewr = Ok (set, answer (history ewr (upto date d m))) /\
    (history ewr (upto date d m) <> Lost -> set = needed (history ewr (upto date d m))).
Proof.
  intros m d ewr Hc Hr. unfold get_data. rewrite data_loop_feed by (first [exact Hc|intros; eapply any_after_zero; eauto]).
  destruct (feed_rep ewr _ Hr) as (c & -> & R). cbn. exists (map fst c). split; [rewrite (rep_status _ _ R); reflexivity|].
  intro Hl. apply rep_set; assumption.
Qed.
Lemma ewr_never_gone : forall m j, history true m <> Gone j.
Proof.
  intros m. induction m as [|[k s] m IH] using rev_ind; intros j; [discriminate|]. rewrite history_app.
  destruct (present s) eqn:E; cbn; try (destruct (history true m) eqn:Eh; try discriminate; exfalso; eapply IH; reflexivity); try discriminate.
Qed.
(** ignoring removals, the answer is always right *)
Theorem C21_even_when_removed : forall m d, chronological date m ->
  exists set, get_data m d true = Ok (set, answer (history true (upto date d m))) /\
    (history true (upto date d m) <> Lost -> set = needed (history true (upto date d m))).
Proof. intros m d Hc. apply C21_get_data; [exact Hc|]. intros before k s after E Hp j. apply ewr_never_gone. Qed.
(** and it is as if the removals were not recorded *)
Theorem C21_ewr_ignores_removals : forall m d,
  history true (upto date d m) = history false (filter (fun p => exists_state (present (snd p))) (upto date d m)).
Proof.
  intros m d. generalize (upto date d m) as l. intro l. unfold history. generalize Never. induction l as [|[k s] r IH]; intro st; [reflexivity|].
  cbn. destruct (present s) eqn:Ep; cbn; rewrite ?Ep; cbn; apply IH.
Qed.
(** no internal error, whatever the records *)
Lemma cand_add_total : forall ewr c k e, (forall x r, c = x :: r -> forall y, In y r -> snd y <> et_present) -> exists c', cand_add ewr c k e = Ok c' /\
   (forall x r, c' = x :: r -> forall y, In y r -> snd y <> et_present).
Proof.
  intros ewr c k e H.
  assert (A1 : forall z : N * etat, forall x r, [z] = x :: r -> forall y, In y r -> snd y <> et_present) by (intros z x r E y Hy; injection E as _ <-; destruct Hy).
  unfold cand_add.
  assert (Main : forall c0, (c0 = [] \/ c0 = c) -> exists c', match back c0 with
    | None => Ok [(k, e)]
    | Some (_, last) =>
      if etat_eqb e et_present then Ok c0
      else match last with
      | et_saved | et_patch => Ok (c0 ++ [(k, e)])
      | et_present => if (1 <? length c0)%nat then Err Ebug else Ok [(k, e)]
      | et_inode => Ok (removelast c0 ++ [(k, e)])
      | et_removed | et_absent => Ok [(k, e)]
      | et_patch_unusable => Ok c0
      end
    end = Ok c' /\ (forall x r, c' = x :: r -> forall y, In y r -> snd y <> et_present)).
  { intros c0 [->| ->]; [cbn; eexists; split; [reflexivity|apply A1]|].
    destruct c as [|x r]; [cbn; eexists; split; [reflexivity|apply A1]|].
    destruct (back_cons x r) as ([kb eb] & Eb & Hb). rewrite Eb.
    destruct (etat_eqb e et_present) eqn:Ee; [eexists; split; [reflexivity|exact H]|].
    assert (He : e <> et_present) by (intros ->; discriminate).
    assert (Happ : forall (c1 : cand), (forall y, In y c1 -> In y r) -> forall x' r', x :: c1 ++ [(k, e)] = x' :: r' -> forall y, In y r' -> snd y <> et_present).
    { intros c1 Hc1 x' r' E y Hy. injection E as _ <-. apply in_app_or in Hy as [Hy|[<-|[]]]; [|exact He]. eapply H; [reflexivity|]. apply Hc1, Hy. }
    destruct eb; try (eexists; split; [reflexivity|]; first [apply A1|exact H|apply (Happ r); auto]).
    - destruct r as [|z r]; [eexists; split; [reflexivity|]; apply A1|]. eexists; split; [reflexivity|]. intros x' r' E'.
      change (x :: removelast (z :: r) ++ [(k, e)] = x' :: r') in E'. eapply (Happ (removelast (z :: r))); [apply removelast_in|exact E'].
    - destruct Hb as [[-> E]|Hb]; [cbn; eexists; split; [reflexivity|]; apply A1|]. exfalso. apply (H x r eq_refl _ Hb). reflexivity. }
  destruct e; try (apply Main; auto). all: destruct ewr; [eexists; split; [reflexivity|exact H]|apply Main; auto].
Qed.
Theorem C21_get_data_total : forall m d ewr, exists r, get_data m d ewr = Ok r.
Proof.
  intros m d ewr. unfold get_data.
  assert (X : forall m max c, (forall x r, c = x :: r -> forall y, In y r -> snd y <> et_present) -> exists c', data_loop ewr d max c m = Ok c').
  { clear m. induction m as [|[k s] r IH]; intros max c H; [cbn; eauto|]. cbn. destruct (dge (date s) max && _); [|auto].
    destruct (cand_add_total ewr c k (present s) H) as (c' & -> & H'). cbn. auto. }
  destruct (X m date0 []) as [c' ->]; [discriminate|]. cbn. eauto.
Qed.

(** ** What restoring the needed archives gives *)
(** the archives of the database: the content they hold and how patches act; and what the file really was when each was made *)
Record world (C : Type) := World { full : N -> C; apply_patch : N -> C -> C; crc_of : C -> list N; truth : N -> option C }.
Arguments full {C}. Arguments apply_patch {C}. Arguments crc_of {C}. Arguments truth {C}.
(** extracting an archive over what previous extractions gave *)
Definition extract {C} (w : world C) (m : amap statusp) (on_disk : option C) (k : N) : option C :=
  match mfind k m with
  | None => on_disk
  | Some s => match present s with
    | et_saved => Some (full w k)
    | et_patch | et_patch_unusable => match on_disk with Some c => Some (apply_patch w k c) | None => None end
    | et_removed | et_absent => None
    | et_inode | et_present => on_disk
    end
  end.
Definition restored {C} (w : world C) (m : amap statusp) (set : list N) : option C := fold_left (extract w m) set None.
(** the records tell the truth: full copies and patches give the state of the file, checksums are those of the contents, a file told
    unchanged is as in the previous archive of the database *)
Definition honest {C} (w : world C) (m : amap statusp) : Prop :=
  forall before k s after, m = before ++ (k, s) :: after ->
    match present s with
    | et_saved => truth w k = Some (full w k) /\ (forall r, result s = Some r -> cyclic r = crc_of w (full w k))
    | et_patch | et_patch_unusable =>
        (forall c b, base s = Some b -> crc_of w c = cyclic b -> truth w k = Some (apply_patch w k c)) /\
        (forall r c, result s = Some r -> truth w k = Some c -> cyclic r = crc_of w c)
    | et_present | et_inode => forall older j s', before = older ++ [(j, s')] -> truth w k = truth w j
    | et_removed | et_absent => truth w k = None
    end.
Definition last_truth {C} (w : world C) (m : amap statusp) : option C := match rev m with [] => None | (k, _) :: _ => truth w k end.

Lemma last_truth_app : forall C (w : world C) m k s, last_truth w (m ++ [(k, s)]) = truth w k.
Proof. intros. unfold last_truth. rewrite rev_app_distr. reflexivity. Qed.
Lemma honest_prefix : forall C (w : world C) m m2, honest w (m ++ m2) -> honest w m.
Proof. intros C w m m2 H before k s after E. apply (H before k s (after ++ m2)). rewrite E, <- app_assoc. reflexivity. Qed.
Lemma flags_prefix : forall m m2, flags_right (m ++ m2) -> flags_right m.
Proof. intros m m2 H before k s after E. apply (H before k s (after ++ m2)). rewrite E, <- app_assoc. reflexivity. Qed.
(** the silent records do not change the truth *)
Lemma silent_truth : forall C (w : world C) newer older j r, honest w (older ++ (j, r) :: newer) ->
  Forall (fun p => silent (present (snd p))) newer -> last_truth w (older ++ (j, r) :: newer) = truth w j.
Proof.
  intros C w newer. induction newer as [|[k s] newer IH] using rev_ind; intros older j r H Hs.
  - apply last_truth_app.
  - apply Forall_app in Hs as [Hs1 Hs2]. inversion Hs2; subst. cbn in H2.
    assert (E : older ++ (j, r) :: newer ++ [(k, s)] = (older ++ (j, r) :: newer) ++ [(k, s)]) by (rewrite <- app_assoc; reflexivity).
    rewrite E in *. rewrite last_truth_app. pose proof (H _ k s [] eq_refl) as X.
    assert (Y : forall older' j' s', older ++ (j, r) :: newer = older' ++ [(j', s')] -> truth w k = truth w j').
    { destruct H2 as [E2|E2]; rewrite E2 in X; exact X. }
    assert (Z : exists o' j' s', older ++ (j, r) :: newer = o' ++ [(j', s')]).
    { destruct newer as [|[a b] nw] using rev_ind; [eauto|]. exists (older ++ (j, r) :: nw), a, b. rewrite <- app_assoc. reflexivity. }
    destruct Z as (o' & j' & s' & Z). rewrite (Y _ _ _ Z). rewrite <- (IH older j r (honest_prefix _ _ _ _ H) Hs1). rewrite Z. rewrite last_truth_app. reflexivity.
Qed.
Lemma sorted_prefix : forall A (m m2 : amap A), sorted (m ++ m2) -> sorted m.
Proof.
  intros A m m2 S. induction m as [|x m IH]; [constructor|]. cbn in S. unfold sorted in *. inversion S as [|? ? S1 S2]; subst.
  constructor; [auto|]. apply Forall_app in S2. tauto.
Qed.
Lemma restored_ext : forall C (w : world C) m m2 set, sorted (m ++ m2) -> (forall k, In k set -> In k (keys m)) -> restored w (m ++ m2) set = restored w m set.
Proof.
  intros C w m m2 set S H. unfold restored. generalize (@None C). induction set as [|k set IH]; intro o; [reflexivity|]. cbn.
  assert (E : extract w (m ++ m2) o k = extract w m o k).
  { unfold extract. assert (Hk : In k (keys m)) by (apply H; left; reflexivity). apply in_map_iff in Hk as [[k' s] [E Hin]]. cbn in E. subst k'.
    pose proof (sorted_prefix _ _ _ S) as S1.
    rewrite (mfind_sorted _ _ _ S1 Hin). rewrite (mfind_sorted (m ++ m2) k s S); [reflexivity|]. apply in_or_app. left; exact Hin. }
  rewrite E. apply IH. intros k' Hk'. apply H. right; exact Hk'.
Qed.


Lemma needed_keys : forall m k, In k (needed (history false m)) -> In k (keys m).
Proof.
  intros m. induction m as [|[k0 s] m IH] using rev_ind; intros k H; [destruct H|]. rewrite history_app in H. unfold keys. rewrite map_app. apply in_or_app. cbn.
  destruct (present s); cbn in H; destruct (history false m) as [|g| |f ps i]; cbn in *; try tauto.
  all: repeat match goal with H : _ \/ _ |- _ => destruct H as [H|H] end; subst; auto; try contradiction.
  all: try (rewrite app_nil_r in H; apply in_app_or in H as [H|[H|[]]]; [left; apply IH; right; apply in_or_app; auto|auto]).
  all: try (apply in_app_or in H as [H|[H|[]]]; [left; apply IH; right; apply in_or_app; auto|auto]).
  all: try (left; apply IH; auto; fail).
Qed.
Lemma restored_truth : forall C (w : world C) m, sorted m -> flags_right m -> honest w m ->
  match history false m with Have f ps i => exists c, last_truth w m = Some c /\ restored w m (needed (Have f ps i)) = Some c /\ restored w m (f :: ps) = Some c | _ => True end.
Proof.
  intros C w m. induction m as [|[k s] m IH] using rev_ind; intros S F H; [exact I|].
  specialize (IH (sorted_prefix _ _ _ S) (flags_prefix _ _ F) (honest_prefix _ _ _ _ H)).
  rewrite history_app, last_truth_app. pose proof (H m k s [] eq_refl) as Hk.
  assert (Fk : mfind k (m ++ [(k, s)]) = Some s) by (apply mfind_sorted; [exact S|apply in_or_app; right; left; reflexivity]).
  assert (NK := needed_keys m).
  destruct (present s) eqn:Ep; cbn [learn].
  - destruct Hk as [Hk _]. exists (full w k). split; [exact Hk|]. cbn. unfold restored, extract. cbn. rewrite Fk; cbn; rewrite ?Ep; cbn. auto.
  - (* usable patch *) destruct (history false m) as [|g| |f ps i] eqn:Eh; try exact I.
    destruct IH as (c & T & R1 & R2). destruct Hk as [Hk _].
    assert (Hav : exists b, base s = Some b /\ available m (cyclic b)).
    { apply (F m k s [] eq_refl); [right; left; exact Ep| exact Ep] || apply (F m k s [] eq_refl); [left; exact Ep|exact Ep]. }
    destruct Hav as (b & Eb & older & j & r & newer & Em & Hc & (x & Ex & Ec) & Hs).
    assert (Tj : truth w j = Some c).
    { rewrite <- T. rewrite Em. symmetry. apply silent_truth; [|exact Hs]. rewrite <- Em. exact (honest_prefix _ _ _ _ H). }
    assert (Hcrc : crc_of w c = cyclic b).
    { pose proof (honest_prefix _ _ _ _ H) as Hm. rewrite Em in Hm. pose proof (Hm older j r newer eq_refl) as Hj. rewrite <- Ec.
      destruct Hc as [Hc|[Hc|Hc]]; rewrite Hc in Hj.
      - destruct Hj as [Hj1 Hj2]. rewrite Tj in Hj1. injection Hj1 as ->. symmetry. apply Hj2. exact Ex.
      - destruct Hj as [_ Hj2]. symmetry. eapply Hj2; eauto.
      - destruct Hj as [_ Hj2]. symmetry. eapply Hj2; eauto. }
    assert (Tk : truth w k = Some (apply_patch w k c)) by (apply (Hk c b); auto).
    assert (RR : restored w (m ++ [(k, s)]) (f :: ps ++ [k]) = Some (apply_patch w k c)).
    { change (f :: ps ++ [k]) with ((f :: ps) ++ [k]). unfold restored. rewrite fold_left_app. fold (restored w (m ++ [(k, s)]) (f :: ps)).
      rewrite restored_ext; [|exact S|intros y Hy; apply NK; cbn; destruct Hy as [Hy|Hy]; [auto|right; apply in_or_app; auto]].
      rewrite R2. cbn. unfold extract. rewrite Fk; cbn; rewrite ?Ep; cbn. reflexivity. }
    exists (apply_patch w k c). split; [exact Tk|]. cbn [needed]. rewrite app_nil_r. auto.
  - exact I.
  - (* inode *) destruct (history false m) as [|g| |f ps i] eqn:Eh; try exact I.
    destruct IH as (c & T & R1 & R2). exists c.
    assert (Tk : truth w k = Some c).
    { destruct m as [|[j s'] m'] using rev_ind; [discriminate|]. rewrite last_truth_app in T. rewrite (Hk _ _ _ eq_refl). exact T. }
    split; [exact Tk|].
    assert (R2' : restored w (m ++ [(k, s)]) (f :: ps) = Some c).
    { rewrite restored_ext; [exact R2|exact S|intros y Hy; apply NK; cbn; destruct Hy as [Hy|Hy]; [auto|right; apply in_or_app; auto]]. }
    split; [|exact R2']. cbn [needed]. change (f :: ps ++ [k]) with ((f :: ps) ++ [k]). unfold restored. rewrite fold_left_app.
    fold (restored w (m ++ [(k, s)]) (f :: ps)). rewrite R2'. cbn. unfold extract. rewrite Fk; cbn; rewrite ?Ep; cbn. reflexivity.
  - (* present *) destruct (history false m) as [|g| |f ps i] eqn:Eh; try exact I.
    destruct IH as (c & T & R1 & R2). exists c.
    assert (Tk : truth w k = Some c).
    { destruct m as [|[j s'] m'] using rev_ind; [discriminate|]. rewrite last_truth_app in T. rewrite (Hk _ _ _ eq_refl). exact T. }
    split; [exact Tk|]. split.
    + rewrite restored_ext; [exact R1|exact S|]. intros y Hy. apply NK. exact Hy.
    + rewrite restored_ext; [exact R2|exact S|intros y Hy; apply NK; cbn; destruct Hy as [Hy|Hy]; [auto|right; apply in_or_app; auto]].
  - exact I.
  - exact I.
Qed.
(** restoring, in order, the archives the database designates rebuilds the file as it was at that date *)
Theorem C21_restores : forall C (w : world C) m d set, sorted m -> flags_right m -> chronological date m -> honest w m ->
  no_revival false (upto date d m) -> get_data m d false = Ok (set, found_present) ->
  exists c, restored w m set = Some c /\ last_truth w (upto date d m) = Some c.
Proof.
  intros C w m d set S F Hc H Hr G. destruct (C21_get_data m d false Hc Hr) as (set' & G' & Hset). rewrite G in G'.
  injection G' as E1 E2. subst set'.
  destruct (upto_prefix _ date d m Hc) as [rest Em]. set (u := upto date d m) in *. clearbody u. subst m.
  pose proof (restored_truth C w u (sorted_prefix _ _ _ S) (flags_prefix _ _ F) (honest_prefix _ _ _ _ H)) as X.
  assert (NK := needed_keys u).
  destruct (history false u) as [|g| |f ps i] eqn:Eh; try discriminate.
  rewrite Hset by discriminate. destruct X as (c & T & R & _). exists c. split; [|exact T].
  rewrite restored_ext; [exact R|exact S|exact NK].
Qed.

(** ** Finding: a file told removed by an archive, then "unchanged" by the next one, is reported removed *)
Theorem C21_revival_refuted : exists m, chronological date m /\ history false m = Lost /\ get_data m date0 false = Ok ([2], found_removed).
Proof.
  exists [(1, Sp (day 1) et_saved None None); (2, Sp (day 2) et_absent None None); (3, Sp (day 3) et_present None None)].
  split; [|split; vm_compute; reflexivity].
  repeat (apply chrono_cons; [intros k' s' Hin; repeat destruct Hin as [Hin|Hin]; try contradiction; injection Hin as <- <-; vm_compute; congruence|]).
  apply chrono_nil.
Qed.

(** ** get_EA *)
(** states an EA record can have *)
Definition ea_states (c : amap status) : Prop :=
  forall k s, In (k, s) c -> k <> 0 /\ (s_present s = et_saved \/ s_present s = et_present \/ s_present s = et_removed \/ s_present s = et_absent).
(** the last record of some kind *)
Definition last_such (f : etat -> bool) (c : amap status) : option (N * status) := find (fun p => f (s_present (snd p))) (rev c).
Definition is_saved (e : etat) : bool := etat_eqb e et_saved.
Definition is_real (e : etat) : bool := negb (etat_eqb e et_present).
(** EA of the last record; when that one only tells "unchanged", those of the last archive that tells more *)
Definition ea_answer (c : amap status) : N * lookup :=
  match last_such (fun _ => true) c, last_such is_real c with
  | None, _ => (0, not_found)
  | Some _, None => (0, not_restorable)
  | Some (_, l), Some (k, s) =>
    (k, if exists_state (s_present l) then if exists_state (s_present s) then found_present else not_restorable else found_removed)
  end.
Definition ea_answer_ewr (c : amap status) : N * lookup :=
  match last_such is_saved c with Some (k, _) => (k, found_present) | None => ea_answer c end.

(** no internal error, chronological or not *)
Definition ea_inv (a : ea_acc) : Prop :=
  instant (max_real a) <= instant (max_seen a) /\
  (last_seen a = 0 -> arch a = 0) /\
  (seen a = false -> real a = false) /\ (arch a = 0 -> real a = false) /\ (last_seen a = 0 -> last_ewr a = 0) /\
  (seen a = false -> instant (max_real a) = instant (max_seen a)) /\ (seen a = true -> last_seen a <> 0).
Lemma ea_step_inv : forall d a k s, ea_inv a -> k <> 0 ->
  (s_present s = et_saved \/ s_present s = et_present \/ s_present s = et_removed \/ s_present s = et_absent) ->
  exists a', ea_step d a k s = Ok a' /\ ea_inv a'.
Proof.
  intros d a k s I Hk Hs. destruct I as (I1 & I2 & I3 & I4 & I5 & I6 & I7). unfold ea_step. rewrite !dge_spec.
  destruct (is_null d || dle (s_date s) d) eqn:Et; rewrite ?andb_true_r, ?andb_false_r;
    [|destruct a; cbn; rewrite dge_spec, ?andb_false_r; cbn; eexists; split; [reflexivity|]; repeat split; auto].
  destruct a as [ms mr se re ar ls le]. cbn [max_seen max_real seen real arch last_seen last_ewr] in *.
  destruct (N.leb_spec (instant ms) (instant (s_date s))) as [Hle|Hgt]; cbn [bind].
  - destruct Hs as [-> |[-> |[-> | ->]]]; cbn [bind etat_eqb negb max_real max_seen]; rewrite dge_spec;
      replace (instant mr <=? instant (s_date s)) with true by lia; cbn;
      eexists; (split; [reflexivity|]); repeat split; cbn; intros; try lia; try congruence; auto.
  - cbn [max_real max_seen]. rewrite dge_spec. destruct (N.leb_spec (instant mr) (instant (s_date s))); cbn [andb].
    + assert (se = true) by (destruct se; [reflexivity|]; specialize (I6 eq_refl); lia). subst se.
      specialize (I7 eq_refl).
      destruct Hs as [-> |[-> |[-> | ->]]]; cbn; eexists; (split; [reflexivity|]); repeat split; cbn; intros; try lia; try congruence; auto.
    + eexists; (split; [reflexivity|]); repeat split; cbn; auto.
Qed.

Lemma ea_loop_inv : forall d c a, ea_inv a -> ea_states c -> exists a', ea_loop d a c = Ok a' /\ ea_inv a'.
Proof.
  intros d c. induction c as [|[k s] r IH]; intros a I H; [cbn; eauto|]. cbn.
  destruct (H k s (or_introl eq_refl)) as [Hk Hs]. destruct (ea_step_inv d a k s I Hk Hs) as (a' & -> & I'). cbn.
  apply IH; [exact I'|]. intros k' s' Hin. apply (H k' s'). right; exact Hin.
Qed.
Theorem C21_get_EA_total : forall c d ewr, ea_states c -> exists r, get_EA c d ewr = Ok r.
Proof.
  intros c d ewr H. unfold get_EA. destruct (ea_loop_inv d c (Acc date0 date0 false false 0 0 0)) as (a & -> & I); [|exact H|].
  { repeat split; cbn; auto; try lia; discriminate. }
  cbn. destruct I as (I1 & I2 & I3 & I4 & I5 & I6 & I7). destruct a as [ms mr se re ar ls le]. cbn in *.
  destruct (ewr && (0 <? le)) eqn:E; cbn.
  - apply andb_true_iff in E as [_ E]. replace (le =? 0) with false by lia. destruct (N.eqb_spec ls 0) as [X|X]; [specialize (I5 X); lia|]. cbn. eauto.
  - destruct (N.eqb_spec ar 0); [destruct (negb (ls =? 0)); cbn; eauto|].
    destruct (N.eqb_spec ls 0) as [X|X]; [specialize (I2 X); congruence|]. cbn.
    destruct se, re; cbn; eauto. specialize (I3 eq_refl). discriminate.
Qed.

(** the accumulator follows the history *)
Definition ea_rep (c : amap status) (a : ea_acc) : Prop :=
  match last_such (fun _ => true) c with
  | None => seen a = false /\ last_seen a = 0
  | Some (k, s) => seen a = exists_state (s_present s) /\ last_seen a = k
  end /\
  match last_such is_real c with
  | None => real a = false /\ arch a = 0
  | Some (k, s) => real a = exists_state (s_present s) /\ arch a = k
  end /\
  match last_such is_saved c with None => last_ewr a = 0 | Some (k, _) => last_ewr a = k end.
Lemma last_such_app : forall f c k s, last_such f (c ++ [(k, s)]) = if f (s_present s) then Some (k, s) else last_such f c.
Proof. intros. unfold last_such. rewrite rev_app_distr. reflexivity. Qed.
Lemma ea_follow : forall d c a done, chronological s_date c -> ea_states c -> ea_rep done a ->
  (forall k s, In (k, s) c -> instant (max_seen a) <= instant (s_date s) /\ instant (max_real a) <= instant (s_date s)) ->
  exists a', ea_loop d a c = Ok a' /\ ea_rep (done ++ upto s_date d c) a'.
Proof.
  intros d c. induction c as [|[k s] r IH]; intros a done Hc Hs R Hd; cbn.
  - rewrite app_nil_r. eauto.
  - destruct (Hs k s (or_introl eq_refl)) as [Hk Hst]. destruct (Hd k s (or_introl eq_refl)) as [D1 D2].
    assert (Hs' : ea_states r) by (intros k' s' Hin; apply (Hs k' s'); right; exact Hin).
    pose proof (chrono_tail _ _ _ _ Hc) as Hc'. pose proof (chrono_head _ _ _ _ _ Hc) as Hh.
    unfold ea_step. rewrite !dge_spec, !dle_spec.
    destruct (is_null d || (instant (s_date s) <=? instant d)) eqn:Et; rewrite ?andb_true_r, ?andb_false_r.
    + replace (instant (max_seen a) <=? instant (s_date s)) with true by lia. cbn [bind].
      destruct Hst as [E|[E|[E|E]]]; rewrite E; cbn [bind max_real etat_eqb negb]; rewrite dge_spec; replace (instant (max_real a) <=? instant (s_date s)) with true by lia;
        cbn [andb bind max_seen max_real seen real arch last_seen last_ewr].
      all: match goal with |- exists a', ea_loop _ ?A _ = _ /\ _ =>
        destruct (IH A (done ++ [(k, s)])) as (a' & E1 & E2); [exact Hc'|exact Hs'| | |exists a'; split; [exact E1|rewrite <- app_assoc in E2; exact E2]] end.
      all: try (intros k' s' Hin; cbn; split; first [exact (Hh k' s' Hin) | destruct (Hd k' s' (or_intror Hin)); assumption]).
      all: destruct R as (R1 & R2 & R3); unfold ea_rep; rewrite !last_such_app; rewrite ?E; cbn; rewrite ?E; cbn; auto 10.
    + assert (X : exists a', ea_loop d a r = Ok a' /\ ea_rep (done ++ upto s_date d r) a').
      { apply IH; auto. intros k' s' Hin. apply (Hd k' s'). right; exact Hin. }
      cbn. rewrite dge_spec, andb_false_r. cbn. exact X.
Qed.
Lemma last_real : forall c k s, last_such (fun _ => true) c = Some (k, s) -> is_real (s_present s) = true -> last_such is_real c = Some (k, s).
Proof.
  intros c k s E H. unfold last_such in *. destruct (rev c) as [|x r]; [discriminate|]. cbn in *. injection E as ->. cbn. rewrite H. reflexivity.
Qed.
Theorem C21_get_EA : forall c d ewr, chronological s_date c -> ea_states c ->
  get_EA c d ewr = Ok (if ewr then ea_answer_ewr (upto s_date d c) else ea_answer (upto s_date d c)).
Proof.
  intros c d ewr Hc Hs. unfold get_EA.
  destruct (ea_follow d c (Acc date0 date0 false false 0 0 0) [] Hc Hs) as (a & -> & R).
  { repeat split; reflexivity. }
  { intros k s _. unfold date0, instant. cbn. lia. }
  cbn [app] in R. cbn [bind].
  assert (Hu : ea_states (upto s_date d c)) by (intros k s Hin; apply filter_In in Hin as [Hin _]; auto).
  assert (Hl : forall f k s, last_such f (upto s_date d c) = Some (k, s) -> k <> 0 /\ f (s_present s) = true /\
      (s_present s = et_saved \/ s_present s = et_present \/ s_present s = et_removed \/ s_present s = et_absent)).
  { intros f k s E. unfold last_such in E. apply find_some in E as [Hin E]. cbn in E. apply in_rev in Hin. destruct (Hu _ _ Hin). auto. }
  assert (Hnest : forall f g : etat -> bool, (forall e, f e = true -> g e = true) -> last_such g (upto s_date d c) = None -> last_such f (upto s_date d c) = None).
  { intros f g Hfg E. unfold last_such in *. destruct (find _ (rev (upto s_date d c))) eqn:Ef in |- *; [|reflexivity]. apply find_some in Ef as [Hin Ef].
    apply (find_none _ _ E) in Hin. apply Hfg in Ef. congruence. }
  unfold ea_answer_ewr, ea_answer. destruct a as [ms mr se re ar ls le]. unfold ea_rep in R. cbn in R. destruct R as (R1 & R2 & R3). cbn.
  destruct (last_such is_saved _) as [[ks ss]|] eqn:Es; [destruct (Hl _ _ _ Es) as (Hk1 & Hk2 & Hk3)|];
  destruct (last_such is_real _) as [[kr sr]|] eqn:Er; [destruct (Hl _ _ _ Er) as (Hr1 & Hr2 & Hr3)| | destruct (Hl _ _ _ Er) as (Hr1 & Hr2 & Hr3)| ];
  destruct (last_such (fun _ => true) _) as [[kl sl]|] eqn:El;
  try (destruct (Hl _ _ _ El) as (Hl1 & _ & Hl3)).
  all: try (rewrite (Hnest is_saved is_real) in Es; [discriminate|intros [] X; (reflexivity || discriminate X)|exact Er]).
  all: try (rewrite (Hnest is_saved (fun _ => true)) in Es; [discriminate|auto|exact El]).
  all: try (rewrite (Hnest is_real (fun _ => true)) in Er; [discriminate|auto|exact El]).
  all: repeat match goal with H : _ /\ _ |- _ => destruct H end; subst.
  all: change (0 =? 0) with true; change (0 <? 0) with false; destruct ewr; cbn [andb negb].
  all: repeat match goal with |- context [0 <? ?x] => replace (0 <? x) with true by lia | |- context [?x =? 0] => replace (x =? 0) with false by lia end; cbn [negb andb bind arch seen real last_seen last_ewr].
  all: try reflexivity.
  all: repeat match goal with |- context [?x =? 0] => replace (x =? 0) with false by lia end; cbn [negb andb bind].
  all: try reflexivity.
  all: destruct Hl3 as [X|[X|[X|X]]];
       try (pose proof (last_real _ _ _ El) as Z; rewrite X in Z; specialize (Z eq_refl); rewrite Er in Z; injection Z as -> ->);
       rewrite ?X; cbn; try reflexivity.
  all: try (destruct Hr3 as [Y|[Y|[Y|Y]]]; rewrite ?Y; cbn; try reflexivity).
  all: rewrite Y in Hr2; discriminate.
Qed.

(** ** Witnesses *)
Definition wit : amap statusp :=
  [(1, Sp (day 1) et_saved None (Some crcA)); (2, Sp (day 2) et_patch (Some crcA) (Some crcB));
   (3, Sp (day 3) et_inode None None); (4, Sp (day 4) et_removed None None)].
Definition wit_world : world N :=
  World N (fun _ => 10) (fun _ _ => 20) (fun c => if c =? 10 then [1; 2; 3; 4] else if c =? 20 then [5; 6; 7; 8] else [])
    (fun k => if k =? 1 then Some 10 else if k =? 4 then None else Some 20).
Example C21_example : sorted wit /\ flags_right wit /\ chronological date wit /\ honest wit_world wit /\ no_revival false (upto date (day 3) wit) /\
  get_data wit (day 3) false = Ok ([1; 2; 3], found_present) /\ get_data wit date0 false = Ok ([4], found_removed) /\
  get_data wit date0 true = Ok ([1; 2; 3], found_present).
Proof.
  split; [repeat constructor; cbv [key_lt fst]; lia|]. split; [apply (C22_flags wit); vm_compute; reflexivity|].
  split.
  { repeat (apply chrono_cons; [intros k' s' Hin; repeat destruct Hin as [Hin|Hin]; try contradiction; injection Hin as <- <-; vm_compute; congruence|]).
    apply chrono_nil. }
  split; [|split; [|repeat split; vm_compute; reflexivity]].
  - intros before k s after E. unfold wit in E.
    destruct before as [|x1 [|x2 [|x3 [|x4 before]]]]; cbn in E; injection E; intros; subst; cbn; try reflexivity.
    + split; [reflexivity|]. intros r Hr. injection Hr as <-. reflexivity.
    + split; [intros; reflexivity|]. intros r c Hr Hc. injection Hr as <-. injection Hc as <-. reflexivity.
    + clear E. intros older j s' E. match goal with Hq : _ = ?o ++ _ |- _ => rename Hq into EQ; destruct o as [|y1 [|y2 o']]; cbn in EQ; try discriminate; injection EQ; intros; subst;
        [reflexivity|destruct o'; discriminate] end.
    + destruct before; discriminate.
  - intros before k s after E Hp. change (upto date (day 3) wit) with (firstn 3 wit) in E. cbn in E.
    destruct before as [|x1 [|x2 [|x3 before]]]; cbn in E; injection E; intros; subst; try discriminate. destruct before; discriminate.
Qed.
Example C21_example_EA : let c := [(1, St (day 1) et_saved); (2, St (day 2) et_present); (3, St (day 3) et_removed)] in
  chronological s_date c /\ ea_states c /\ get_EA c (day 2) false = Ok (1, found_present) /\ get_EA c date0 false = Ok (3, found_removed) /\
  get_EA c date0 true = Ok (1, found_present).
Proof.
  split; [|split; [|repeat split; vm_compute; reflexivity]].
  - repeat (apply chrono_cons; [intros k' s' Hin; repeat destruct Hin as [Hin|Hin]; try contradiction; injection Hin as <- <-; vm_compute; congruence|]).
    apply chrono_nil.
  - intros k s Hin. repeat destruct Hin as [Hin|Hin]; try contradiction; injection Hin as <- <-; cbn; split; auto; lia.
Qed.
