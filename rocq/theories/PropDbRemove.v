(** * Property C23: finalising and removing an archive; what every reachable database satisfies. *)
From Verif Require Import Base NumModel InfinintModel DatetimeModel CrcModel PropDatetime DbModel DbMap PropDbDelta PropDbPerm PropDbLookup.
From Coq Require Import Sorting.Sorted.
Open Scope N_scope.

(** ** finalize *)
Lemma set_data_find : forall m a d e b r m' x, set_data m a d e b r = Ok m' ->
  same_data (if x =? a then Some (Sp d e b r) else mfind x m) (mfind x m').
Proof. intros m a d e b r m' x H. rewrite <- mfind_mset. apply check_delta_find. exact H. Qed.
Theorem C23_finalize_data : forall m a del ign m', sorted m -> finalize_mods m a del ign = Ok m' ->
  forall x, x <> a -> same_data (mfind x m) (mfind x m').
Proof.
  intros m a del ign m' S H x Hx. unfold finalize_mods in H. destruct (fin_loop a ign m 0 false date0) as [[found presence] last].
  destruct found; [injection H as <-; apply same_data_refl|]. destruct presence.
  - pose proof (set_data_find _ _ _ _ _ _ _ x H) as X. destruct (N.eqb_spec x a); [contradiction|exact X].
  - destruct (mfind a m) as [s|]; [|injection H as <-; apply same_data_refl].
    destruct (present s); try discriminate; injection H as <-; [apply same_data_refl|].
    rewrite mfind_mdel by exact S. destruct (N.eqb_spec x a); [contradiction|apply same_data_refl].
Qed.
Theorem C23_finalize_EA : forall m c a del ign c', finalize_chg m c a del ign = Ok c' -> forall x, x <> a -> mfind x c' = mfind x c.
Proof.
  intros m c a del ign c' H x Hx. unfold finalize_chg in H. destruct (fin_loop a ign m 0 false date0) as [[f p] last].
  destruct (fin_loop_ea a ign c 0 false) as [[[found presence] nm]|]; cbn in H; [|discriminate].
  destruct found; [injection H as <-; reflexivity|]. destruct (negb (nm =? 0) && presence); injection H as <-; [|reflexivity].
  unfold set_EA. rewrite mfind_mset. destruct (N.eqb_spec x a); [contradiction|reflexivity].
Qed.
(** a file the archive holds a record of (other than an automatic "absent") is left as it is *)
Lemma fin_loop_found : forall m a ign nm p l s, sorted m -> mfind a m = Some s -> present s <> et_absent -> fst (fst (fin_loop a ign m nm p l)) = true.
Proof.
  induction m as [|[k s0] r IH]; intros a ign nm p l s S E Hs; cbn in E; [discriminate|]. cbn. pose proof (sorted_inv _ _ _ S) as [S1 _].
  rewrite (N.eqb_sym k a). destruct (N.eqb_spec a k).
  - injection E as ->. destruct (present s) eqn:Ep; try reflexivity. congruence.
  - cbn [andb]. destruct ((nm <? k) && _); eapply IH; eauto.
Qed.
Theorem C23_recorded_untouched : forall m a del ign s, sorted m -> mfind a m = Some s -> present s <> et_absent -> finalize_mods m a del ign = Ok m.
Proof.
  intros m a del ign s S E Hs. unfold finalize_mods. pose proof (fin_loop_found m a ign 0 false date0 s S E Hs) as X.
  destruct (fin_loop a ign m 0 false date0) as [[found presence] last]. cbn in X. subst found. reflexivity.
Qed.
(** adding archive [a], last of the database: a file it does not mention and which existed is recorded absent, at the date given or at
    its last known date; a file that never existed or was already removed is left alone *)
Definition last_rec {A} (m : amap A) : option (N * A) := match rev m with [] => None | x :: _ => Some x end.
Lemma fin_loop_new : forall m a nm p l, sorted m -> (forall k, In k (keys m) -> nm < k < a) ->
  fin_loop a 0 m nm p l = (false, match last_rec m with None => p | Some (_, s) => exists_state (present s) end,
                                  match last_rec m with None => l | Some (_, s) => date s end).
Proof.
  induction m as [|[k s] r IH]; intros a nm p l S H; [reflexivity|]. cbn.
  pose proof (sorted_inv _ _ _ S) as [S1 S2]. assert (Hk : nm < k < a) by (apply H; left; reflexivity).
  replace (k =? a) with false by lia. replace (nm <? k) with true by lia. rewrite orb_true_r. cbn [andb].
  rewrite IH; [|exact S1|].
  - unfold last_rec. cbn. destruct (rev r) as [|y z] eqn:E; [reflexivity|]. cbn. reflexivity.
  - intros k' Hin. split; [|apply H; right; exact Hin]. apply in_map_iff in Hin as [[k2 s2] [<- Hin]]. exact (S2 _ _ Hin).
Qed.
Definition later (a b : datetime) : datetime := if instant b <? instant a then a else b.
Theorem C23_finalize_new : forall m a del, sorted m -> (forall k, In k (keys m) -> 0 < k < a) ->
  finalize_mods m a del 0 =
    match last_rec m with
    | Some (_, s) => if exists_state (present s) then set_data m a (later del (date s)) et_absent None None else Ok m
    | None => Ok m
    end.
Proof.
  intros m a del S H. unfold finalize_mods. rewrite fin_loop_new by assumption.
  assert (Hn : mfind a m = None) by (apply mfind_none; intro X; apply H in X; lia).
  unfold last_rec, later. destruct (rev m) as [|[k s] r]; [rewrite Hn; reflexivity|]. rewrite dgt_spec.
  destruct (exists_state (present s)); [reflexivity|]. rewrite Hn. reflexivity.
Qed.
(** hence the file is then reported as removed *)
Lemma last_rec_app : forall A (m : amap A) k s, last_rec (m ++ [(k, s)]) = Some (k, s).
Proof. intros. unfold last_rec. rewrite rev_app_distr. reflexivity. Qed.
Lemma mset_end : forall A (m : amap A) a (v : A), (forall k, In k (keys m) -> k < a) -> mset a v m = m ++ [(a, v)].
Proof.
  intros A m a v H. induction m as [|[k s] r IH]; [reflexivity|]. cbn. assert (k < a) by (apply H; left; reflexivity).
  replace (a <? k) with false by lia. replace (a =? k) with false by lia. rewrite IH; [reflexivity|]. intros k' Hin. apply H. right; exact Hin.
Qed.
Theorem C23_unmentioned_is_removed : forall m a del m' k s, sorted m -> (forall k, In k (keys m) -> 0 < k < a) -> chronological date m ->
  last_rec m = Some (k, s) -> exists_state (present s) = true ->
  finalize_mods m a del 0 = Ok m' -> get_data m' date0 false = Ok ([a], found_removed).
Proof.
  intros m a del m' k s S H Hc Hl He Hf. rewrite C23_finalize_new in Hf by assumption. rewrite Hl, He in Hf.
  unfold set_data in Hf. rewrite mset_end in Hf by (intros x Hx; apply H; exact Hx).
  pose proof (C22_only_flags _ _ Hf) as F2. apply Forall2_app_inv_l in F2 as (m1 & m2 & F1 & F2 & ->).
  inversion F2 as [|x [k1 s1] r r' E1 E2]; subst. inversion E2; subst. destruct E1 as [Ek (Ed & _ & _ & Ep)]. cbn in *. subst k1.
  assert (Ep' : present s1 = et_absent) by (destruct Ep as [<-|[[X|X] _]]; [reflexivity|discriminate|discriminate]).
  assert (Hdates : forall q t, In (q, t) m1 -> instant (date t) <= instant (date s1)).
  { intros q t Hin. assert (X : exists t', In (q, t') m /\ date t' = date t).
    { clear -F1 Hin. induction F1 as [|[a0 b0] [a1 b1] l l' [E (Ed & _)] _ IH]; [destruct Hin|]. cbn in *. subst. destruct Hin as [X|Hin].
      - injection X as -> ->. exists b0. auto.
      - destruct (IH Hin) as (t' & X1 & X2). exists t'. auto. }
    destruct X as (t' & Hin' & Et). rewrite <- Et, <- Ed. unfold later.
    assert (instant (date t') <= instant (date s)).
    { unfold last_rec in Hl. destruct m as [|y m0] using rev_ind; [discriminate|]. rewrite rev_app_distr in Hl. cbn in Hl. injection Hl as ->.
      apply in_app_or in Hin' as [Hin'|[X|[]]]; [|injection X as _ ->; lia].
      apply in_split in Hin' as (l1 & l2 & ->). apply (Hc l1 q t' k s l2 []). rewrite <- app_assoc. reflexivity. }
    destruct (instant (date s) <? instant del) eqn:Ex; lia. }
  unfold get_data.
  assert (L : forall l max c, (forall x r, c = x :: r -> forall y, In y r -> snd y <> et_present) -> instant max <= instant (date s1) ->
     (forall q t, In (q, t) l -> instant (date t) <= instant (date s1)) -> data_loop false date0 max c (l ++ [(a, s1)]) = Ok [(a, et_absent)]).
  { induction l as [|[q t] l IH]; intros max c Hcand Hmax Hl2; cbn.
    - rewrite dge_spec. replace (instant max <=? instant (date s1)) with true by lia. cbn. rewrite Ep'. reflexivity.
    - destruct (dge (date t) max && _) eqn:Ei.
      + destruct (cand_add_total false c q (present t) Hcand) as (c' & -> & Hc'). cbn. apply IH; [exact Hc'|apply (Hl2 q t); left; reflexivity|intros q' t' Hin; apply (Hl2 q'); right; exact Hin].
      + apply IH; [exact Hcand|exact Hmax|intros q' t' Hin; apply (Hl2 q'); right; exact Hin]. }
  rewrite L; [reflexivity|discriminate|unfold date0, instant; cbn; lia|exact Hdates].
Qed.

(** ** removing an archive *)
Theorem C23_remove_data : forall m c a last m' c', sorted m -> remove_entry m c a last = Ok (m', c') ->
  mfind a m' = None /\ forall x, x <> a -> same_data (mfind x m) (mfind x m') \/
    (x = a + 1 /\ a < last /\ mfind x m = None /\ exists s s', mfind a m = Some s /\ present s = et_removed /\ mfind x m' = Some s' /\ present s' = et_removed /\ date s' = date s).
Proof.
  intros m c a last m' c' S H. unfold remove_entry in H.
  match type of H with bind ?X _ = _ => destruct X as [m1|] eqn:E; cbn in H; [|discriminate] end.
  destruct (check_delta (mdel a m1)) as [m2|] eqn:E2; cbn in H; [|discriminate]. injection H as <- _.
  assert (X : sorted m1 /\ forall x, same_data (mfind x m) (mfind x m1) \/
    (x = a + 1 /\ a < last /\ mfind x m = None /\ exists s s', mfind a m = Some s /\ present s = et_removed /\ mfind x m1 = Some s' /\ present s' = et_removed /\ date s' = date s)).
  { destruct ((a <? last) && (1 <? length m)%nat) eqn:Ec; [|injection E as <-; split; [exact S|intro x; left; apply same_data_refl]].
    unfold removed_at in E. destruct (mfind a m) as [s|] eqn:Ea; [|injection E as <-; split; [exact S|intro x; left; apply same_data_refl]].
    destruct (etat_eqb (present s) et_removed) eqn:Ep; [|injection E as <-; split; [exact S|intro x; left; apply same_data_refl]].
    destruct (mfind (a + 1) m) as [t|] eqn:Eb; [injection E as <-; split; [exact S|intro x; left; apply same_data_refl]|].
    split; [eapply check_delta_sorted; [exact E|apply sorted_mset; exact S]|]. intro x. pose proof (set_data_find _ _ _ _ _ _ _ x E) as Y.
    destruct (N.eqb_spec x (a + 1)); [|left; exact Y]. right. subst x. split; [reflexivity|]. split; [lia|]. split; [exact Eb|].
    destruct (mfind (a + 1) m1) as [s'|] eqn:Es; [|destruct Y]. exists s, s'. destruct Y as (Y1 & _ & _ & Y4). cbn in *.
    assert (present s = et_removed) by (destruct (present s); try discriminate; reflexivity).
    repeat split; auto. destruct Y4 as [Y4|[[Y4|Y4] _]]; [auto|discriminate|discriminate]. }
  destruct X as [S1 X]. split.
  - pose proof (check_delta_find _ _ a E2) as Y. rewrite mfind_mdel in Y by exact S1. rewrite N.eqb_refl in Y. destruct (mfind a m2); [destruct Y|reflexivity].
  - intros x Hx. pose proof (check_delta_find _ _ x E2) as Y. rewrite mfind_mdel in Y by exact S1.
    destruct (N.eqb_spec x a); [contradiction|]. destruct (X x) as [X1|(X1 & X2 & X3 & s & s' & X4 & X5 & X6 & X7 & X8)].
    + left. eapply same_data_trans; eauto.
    + right. rewrite X6 in Y. destruct (mfind x m2) as [s2|] eqn:E3; [|destruct Y]. destruct Y as (Y1 & _ & _ & Y4).
      split; [exact X1|]. split; [exact X2|]. split; [exact X3|]. exists s, s2. repeat split; auto; [|congruence].
      destruct Y4 as [Y4|[[Y4|Y4] _]]; congruence.
Qed.
Theorem C23_remove_EA : forall m c a last m' c', sorted c -> remove_entry m c a last = Ok (m', c') ->
  mfind a c' = None /\ forall x, x <> a -> mfind x c' = mfind x c \/
    (x = a + 1 /\ a < last /\ mfind x c = None /\ exists s, mfind a c = Some s /\ s_present s = et_removed /\ mfind x c' = Some s).
Proof.
  intros m c a last m' c' S H. unfold remove_entry in H.
  match type of H with bind ?X _ = _ => destruct X as [m1|] eqn:E; cbn [bind] in H; [|discriminate] end.
  destruct (check_delta (mdel a m1)) as [m2|] eqn:E2; cbn [bind] in H; [|discriminate]. injection H as _ <-. clear E E2 m1 m2.
  match goal with |- mfind a (mdel a ?C) = None /\ _ => set (c1 := C) end.
  assert (X : sorted c1 /\ forall x, mfind x c1 = mfind x c \/
    (x = a + 1 /\ a < last /\ mfind x c = None /\ exists s, mfind a c = Some s /\ s_present s = et_removed /\ mfind x c1 = Some s)).
  { unfold c1. clear c1. destruct ((a <? last) && (1 <? length c)%nat) eqn:Ec; [|split; [exact S|intro x; left; reflexivity]].
    unfold removed_at. destruct (mfind a c) as [s|] eqn:Ea; [|split; [exact S|intro x; left; reflexivity]].
    destruct (etat_eqb (s_present s) et_removed) eqn:Ep; [|split; [exact S|intro x; left; reflexivity]].
    destruct (mfind (a + 1) c) as [t|] eqn:Eb; [split; [exact S|intro x; left; reflexivity]|].
    split; [apply sorted_mset; exact S|]. intro x. unfold set_EA. rewrite mfind_mset. destruct (N.eqb_spec x (a + 1)); [|left; reflexivity]. right. subst x.
    split; [reflexivity|]. split; [lia|]. split; [exact Eb|]. exists s. assert (s_present s = et_removed) by (destruct (s_present s); try discriminate; reflexivity).
    repeat split; auto. destruct s as [d e]. cbn in *. subst e. reflexivity. }
  clearbody c1. destruct X as [S1 X]. split; [rewrite mfind_mdel by exact S1; rewrite N.eqb_refl; reflexivity|].
  intros x Hx. rewrite mfind_mdel by exact S1. destruct (N.eqb_spec x a); [contradiction|]. exact (X x).
Qed.
(** removing again what is already removed changes nothing: the restart of the loop over children (data_dir.cpp:373-382) is harmless *)
Theorem C23_remove_again : forall m c a last m' c', sorted m -> sorted c -> remove_entry m c a last = Ok (m', c') -> remove_entry m' c' a last = Ok (m', c').
Proof.
  intros m c a last m' c' S S' H. destruct (C23_remove_data _ _ _ _ _ _ S H) as [Ha _]. destruct (C23_remove_EA _ _ _ _ _ _ S' H) as [Ha' _].
  pose proof H as H0. unfold remove_entry in H0.
  match type of H0 with bind ?X _ = _ => destruct X as [m1|] eqn:E; cbn [bind] in H0; [|discriminate] end.
  destruct (check_delta (mdel a m1)) as [m2|] eqn:E2; cbn [bind] in H0; [|discriminate]. injection H0 as -> _.
  unfold remove_entry, removed_at. rewrite Ha, Ha'.
  assert (X : (if (a <? last) && (1 <? length m')%nat then Ok m' else Ok m') = Ok m') by (destruct ((a <? last) && (1 <? length m')%nat); reflexivity). rewrite X. cbn [bind].
  rewrite mdel_none by exact Ha. rewrite <- (check_delta_ext (mdel a m1) m'); [|apply C22_only_flags; exact E2]. rewrite E2. cbn [bind].
  match goal with |- context [mdel a ?C] => assert (X2 : C = c') by (destruct ((a <? last) && (1 <? length c')%nat); reflexivity); rewrite X2 end.
  rewrite mdel_none by exact Ha'. reflexivity.
Qed.
(** the tree: a file stays in the database exactly when something remains recorded about it *)
Definition empty_entry (t : tree) : Prop := let 'Tree _ m c k := t in m = [] /\ c = [] /\ (k = None \/ k = Some []).
Theorem C23_droppable : forall t a last t' b, remove_all_from a last t = Ok (t', b) -> (b = true <-> empty_entry t').
Proof.
  intros [n m c k] a last t' b H. cbn in H.
  match type of H with bind ?X _ = _ => destruct X as [k'|] eqn:E; cbn in H; [|discriminate] end.
  destruct (remove_entry m c a last) as [[m' c']|] eqn:E2; cbn in H; [|discriminate]. injection H as <- <-. cbn.
  assert (Hn : forall A (l : list A), is_nil l = true <-> l = []) by (intros A [|x l]; cbn; split; congruence).
  rewrite !andb_true_iff, !Hn. destruct k' as [l'|].
  - rewrite Hn. split; [intros [[-> ->] ->]; auto|intros (-> & -> & [X|X]); [discriminate|injection X as ->; auto]].
  - split; [intros [[-> ->] _]; auto|intros (-> & -> & _); auto].
Qed.
Theorem C23_kept_or_dropped : forall n m c l a last t' b, remove_all_from a last (Tree n m c (Some l)) = Ok (t', b) ->
  exists m' c' l', t' = Tree n m' c' (Some l') /\ remove_entry m c a last = Ok (m', c') /\
  forall u, In u l -> exists u' bu, remove_all_from a last u = Ok (u', bu) /\ (if bu : bool then empty_entry u' else In u' l').
Proof.
  intros n m c l a last t' b H. cbn in H.
  destruct (mapM (remove_all_from a last) l) as [l0|] eqn:E; cbn in H; [|discriminate].
  destruct (remove_entry m c a last) as [[m' c']|] eqn:E2; cbn in H; [|discriminate]. injection H as <- _.
  eexists m', c', _. split; [reflexivity|]. split; [reflexivity|]. apply mapM_ok in E.
  intros u Hin. induction E as [|x [y by_] r r' E3 _ IH]; [destruct Hin|]. destruct Hin as [->|Hin].
  - exists y, by_. split; [exact E3|]. destruct by_; [apply (C23_droppable _ _ _ _ _ E3); reflexivity|]. cbn. left; reflexivity.
  - destruct (IH Hin) as (u' & bu & X1 & X2). exists u', bu. split; [exact X1|]. destruct bu; [exact X2|]. cbn. destruct by_; cbn; [exact X2|right; exact X2].
Qed.
(** renumbering after the removal: the records follow their archive *)
Theorem C23_renumber : forall A (m : amap A) num x, sorted m -> mfind num m = None -> x <> num ->
  mfind (skip_key num x) (rekey (skip_key num) m []) = mfind x m.
Proof.
  intros A m num x S Hn Hx. rewrite rekey_find; [|intros a b Ha Hb E|exact S].
  - induction m as [|[k v] r IH]; [reflexivity|]. cbn in *. pose proof (sorted_inv _ _ _ S) as [S1 _].
    destruct (N.eqb_spec num k); [discriminate|]. destruct (N.eqb_spec x k).
    + subst k. rewrite N.eqb_refl. reflexivity.
    + assert (X : (skip_key num k =? skip_key num x) = false) by (unfold skip_key; destruct (N.ltb_spec num k), (N.ltb_spec num x); lia).
      rewrite X. apply IH; assumption.
  - apply mfind_none in Hn. assert (a <> num) by congruence. assert (b <> num) by congruence. unfold skip_key in E.
    destruct (N.ltb_spec num a), (N.ltb_spec num b); lia.
Qed.
Theorem C23_numbers_follow : forall A (l : list A) num x, num < N.of_nat (length l) -> x <> num ->
  nth_error (erase_at (N.to_nat num) l) (N.to_nat (skip_key num x)) = nth_error l (N.to_nat x).
Proof.
  intros A l num x H Hx. rewrite nth_erase by lia. unfold skip_key. f_equal. destruct (N.ltb_spec num x).
  - replace (N.to_nat (x - 1) <? N.to_nat num)%nat with false by lia. lia.
  - replace (N.to_nat x <? N.to_nat num)%nat with true by lia. reflexivity.
Qed.

(** ** Finding: removing an archive resurrects the files it alone told absent *)
Definition db3 : res database := let* db := db2 in add_archive db (day 9) [CInode [98] (ino (day 9)) None].
Theorem C23_removal_refuted : exists db db', db3 = Ok db /\ remove_archive db 2 2 = Ok db' /\
  ask db [fileA] = Ok ([2], found_removed) /\ ask db' [fileA] = Ok ([1], found_present).
Proof. eexists. eexists. split; [vm_compute; reflexivity|]. repeat split; vm_compute; reflexivity. Qed.
