(** * Property C22: the usability flag of binary patches in the database. *)
From Verif Require Import Base NumModel InfinintModel DatetimeModel CrcModel PropDatetime DbModel DbMap.
Open Scope N_scope.

(** ** Specification *)
(** states in which the archive carries the data of the file, in full or as a patch *)
Definition carries (e : etat) : Prop := e = et_saved \/ e = et_patch \/ e = et_patch_unusable.
Definition is_patch (e : etat) : Prop := e = et_patch \/ e = et_patch_unusable.
(** states which tell nothing new about the data *)
Definition silent (e : etat) : Prop := e = et_present \/ e = et_inode.
(** the records of the archives before: the closest one that is not silent carries the data, whose checksum is [c] *)
Definition available (before : amap statusp) (c : list N) : Prop :=
  exists older j r newer, before = older ++ (j, r) :: newer /\ carries (present r) /\
    (exists x, result r = Some x /\ cyclic x = c) /\ Forall (fun p => silent (present (snd p))) newer.
(** every patch is flagged usable exactly when what it is based on is available *)
Definition flags_right (m : amap statusp) : Prop :=
  forall before k s after, m = before ++ (k, s) :: after -> is_patch (present s) ->
    (present s = et_patch <-> exists b, base s = Some b /\ available before (cyclic b)).
(** same record up to the usability flag *)
Definition same_but_flag (s s' : statusp) : Prop :=
  date s = date s' /\ base s = base s' /\ result s = result s' /\
  (present s = present s' \/ (is_patch (present s) /\ is_patch (present s'))).
(** CRC widths of one family: all below or all above 10240 bytes (files below or above 2.5 TiB) *)
Definition narrow (m : amap statusp) : Prop :=
  forall k s, In (k, s) m -> (forall c, result s = Some c \/ base s = Some c -> N.of_nat (crc_size c) < 10240).
Definition patches_have_base (m : amap statusp) : Prop := forall k s, In (k, s) m -> is_patch (present s) -> base s <> None.

(** ** Proof *)
Definition stepp (prev : option crc) (s : statusp) : option crc :=
  match present s with
  | et_saved | et_patch | et_patch_unusable => result s
  | et_present | et_inode => prev
  | et_removed | et_absent => None
  end.
Definition prevs (p : option crc) (m : amap statusp) : option crc := fold_left (fun a x => stepp a (snd x)) m p.

Lemma t_compare_spec : forall a b, t_compare a b = true <-> a = b.
Proof.
  induction a as [|x a IH]; destruct b as [|y b]; cbn; split; intro H; try congruence.
  - destruct (N.eqb_spec x y); [|discriminate]. apply IH in H. congruence.
  - injection H as -> ->. rewrite N.eqb_refl. apply IH. reflexivity.
Qed.
Lemma crc_eq_spec : forall a b, crc_eq a b = true <-> cyclic a = cyclic b.
Proof.
  intros a b. unfold crc_eq, crc_size. destruct (Nat.eqb_spec (length (cyclic a)) (length (cyclic b))) as [E|E]; cbn.
  - apply t_compare_spec.
  - split; [discriminate|]. intro H. rewrite H in E. congruence.
Qed.

Lemma delta_loop_same : forall m p m' ok, delta_loop p m = Ok (m', ok) ->
  Forall2 (fun x y => fst x = fst y /\ same_but_flag (snd x) (snd y)) m m'.
Proof.
  induction m as [|[k s] r IH]; intros p m' ok H; cbn in H.
  - injection H as <- _. constructor.
  - match type of H with bind ?X _ = _ => destruct X as [[[s' prev'] o]|] eqn:E; cbn in H; [|discriminate] end.
    destruct (delta_loop prev' r) as [[r' ok']|] eqn:E2; cbn in H; [|discriminate]. injection H as <- _.
    constructor; [|eapply IH; eauto]. cbn. split; [reflexivity|].
    unfold same_but_flag, is_patch.
    destruct (present s) eqn:Ep; try (injection E as <- _ _; repeat split; auto; fail).
    all: destruct (base s) as [b|] eqn:Eb; [|discriminate];
      match type of E with bind ?X _ = _ => destruct X as [g|] eqn:Eg; cbn in E; [|discriminate] end;
      destruct g; injection E as <- _ _; cbn; repeat split; auto.
Qed.

Lemma delta_loop_flags : forall m p m' ok, delta_loop p m = Ok (m', ok) ->
  forall before k s after, m' = before ++ (k, s) :: after -> is_patch (present s) ->
    (present s = et_patch <-> exists b c, base s = Some b /\ prevs p before = Some c /\ cyclic c = cyclic b).
Proof.
  induction m as [|[k0 s0] r IH]; intros p m' ok H before k s after E Hp; cbn in H.
  - injection H as <- _. destruct before; discriminate.
  - match type of H with bind ?X _ = _ => destruct X as [[[s' prev'] o]|] eqn:E1; cbn in H; [|discriminate] end.
    destruct (delta_loop prev' r) as [[r' ok']|] eqn:E2; cbn in H; [|discriminate]. injection H as <- _.
    assert (Hprev : prev' = stepp p s').
    { unfold stepp. destruct (present s0) eqn:Ep; try (injection E1 as <- <- _; rewrite Ep; reflexivity).
      all: destruct (base s0) as [b|] eqn:Eb; [|discriminate];
        match type of E1 with bind ?X _ = _ => destruct X as [g|] eqn:Eg; cbn in E1; [|discriminate] end;
        destruct g; injection E1 as <- <- _; reflexivity. }
    destruct before as [|[k1 s1] before].
    + cbn in E. injection E as <- <- _. cbn [prevs fold_left].
      destruct (present s0) eqn:Ep; try (injection E1 as <- _ _; rewrite Ep in Hp; destruct Hp; discriminate).
      all: destruct (base s0) as [b|] eqn:Eb; [|discriminate];
        match type of E1 with bind ?X _ = _ => destruct X as [g|] eqn:Eg; cbn in E1; [|discriminate] end;
        destruct p as [c|]; [unfold crc_cmp in Eg; destruct (Bool.eqb _ _); [|discriminate]; injection Eg as Eg | injection Eg as Eg];
        destruct g; try discriminate; injection E1 as <- _ _; cbn [present set_present base] in *.
      all: try (split; [|reflexivity]; intros _; exists b, c; repeat split; auto; apply crc_eq_spec; exact Eg).
      all: split; [discriminate|]; intros (b' & c' & Hb & Hc & Hcy); rewrite Eb in Hb; injection Hb as <-; try discriminate.
      all: injection Hc as <-; apply crc_eq_spec in Hcy; congruence.
    + cbn in E. injection E as <- <- E. cbn [prevs fold_left snd]. change (fold_left _ before (stepp p s')) with (prevs (stepp p s') before).
      rewrite <- Hprev. eapply IH; eauto.
Qed.

Lemma prevs_app : forall a b p, prevs p (a ++ b) = prevs (prevs p a) b.
Proof. intros. unfold prevs. apply fold_left_app. Qed.
Lemma prevs_silent : forall m p, Forall (fun q => silent (present (snd q))) m -> prevs p m = p.
Proof.
  induction m as [|[k s] r IH]; intros p H; [reflexivity|]. inversion H; subst. cbn in *. unfold prevs in *. cbn. rewrite IH by assumption.
  unfold stepp. destruct H2 as [-> | ->]; reflexivity.
Qed.
Lemma prevs_available : forall m c, (exists x, prevs None m = Some x /\ cyclic x = c) <-> available m c.
Proof.
  intros m c. split.
  - intros (x & H & Hc). revert x H Hc. induction m as [|[k s] m IH] using rev_ind; intros x H Hc; [discriminate|].
    rewrite prevs_app in H. cbn in H. unfold stepp in H.
    destruct (present s) eqn:Ep; try discriminate.
    1,2,3: exists m, k, s, []; rewrite Ep; repeat split; auto; [unfold carries; tauto|exists x; auto].
    1,2: destruct (IH x H Hc) as (o & j & r & nw & E & H1 & H2 & H3); subst m; exists o, j, r, (nw ++ [(k, s)]);
      rewrite <- app_assoc; cbn; repeat split; auto; apply Forall_app; split; auto; constructor; auto; cbn; unfold silent; tauto.
  - intros (o & j & r & nw & E & H1 & (x & H2 & H2') & H3). subst m. exists x. split; [|exact H2'].
    rewrite prevs_app. cbn. change (fold_left _ nw (stepp (prevs None o) r)) with (prevs (stepp (prevs None o) r) nw).
    rewrite prevs_silent by exact H3. unfold stepp. destruct H1 as [-> | [-> | ->]]; exact H2.
Qed.

Theorem C22_flags : forall m m', check_delta m = Ok m' -> flags_right m'.
Proof.
  intros m m' H before k s after E Hp. unfold check_delta in H.
  destruct (delta_loop None m) as [[m1 ok]|] eqn:E1; cbn in H; [|discriminate]. injection H as <-.
  rewrite (delta_loop_flags _ _ _ _ E1 _ _ _ _ E Hp). split.
  - intros (b & c & H1 & H2 & H3). exists b. split; [exact H1|]. apply prevs_available. exists c; auto.
  - intros (b & H1 & H2). apply prevs_available in H2 as (c & H2 & H3). exists b, c; auto.
Qed.
Theorem C22_only_flags : forall m m', check_delta m = Ok m' ->
  Forall2 (fun x y => fst x = fst y /\ same_but_flag (snd x) (snd y)) m m'.
Proof.
  intros m m' H. unfold check_delta in H.
  destruct (delta_loop None m) as [[m1 ok]|] eqn:E1; cbn in H; [|discriminate]. injection H as <-. eapply delta_loop_same; eauto.
Qed.
(** it fails only for a patch without base checksum or for checksums of too different widths *)
Lemma delta_loop_total : forall m p, narrow m -> patches_have_base m -> (forall c, p = Some c -> N.of_nat (crc_size c) < 10240) ->
  exists m' ok, delta_loop p m = Ok (m', ok).
Proof.
  induction m as [|[k s] r IH]; intros p Hn Hb Hp; cbn; [eauto|].
  assert (Hn' : narrow r) by (intros k' s' Hin; apply (Hn k' s'); right; exact Hin).
  assert (Hb' : patches_have_base r) by (intros k' s' Hin; apply (Hb k' s'); right; exact Hin).
  assert (Hr : forall c, result s = Some c -> N.of_nat (crc_size c) < 10240) by (intros c Hc; eapply (Hn k s); [left; reflexivity|auto]).
  assert (Hbs : forall c, base s = Some c -> N.of_nat (crc_size c) < 10240) by (intros c Hc; eapply (Hn k s); [left; reflexivity|auto]).
  destruct (present s) eqn:Ep; cbn.
  all: try match goal with |- context [match base ?zz with _ => _ end] =>
    destruct (base s) as [b|] eqn:Eb; [|exfalso; eapply (Hb k s); [left; reflexivity|rewrite Ep; unfold is_patch; tauto|exact Eb]];
    destruct p as [c|]; [unfold crc_cmp; specialize (Hp _ eq_refl); specialize (Hbs _ eq_refl);
      replace (N.of_nat (crc_size c) <? INFININT_MODE_START) with true by (unfold INFININT_MODE_START; lia);
      replace (N.of_nat (crc_size b) <? INFININT_MODE_START) with true by (unfold INFININT_MODE_START; lia); cbn; destruct (crc_eq c b)|]; cbn
  end.
  all: match goal with |- context [delta_loop ?q ?rr] => destruct (IH q) as (m' & ok & ->); [exact Hn'|exact Hb'| |cbn; eauto] end; auto; discriminate.
Qed.
Theorem C22_total : forall m, narrow m -> patches_have_base m -> exists m', check_delta m = Ok m'.
Proof.
  intros m Hn Hb. destruct (delta_loop_total m None Hn Hb) as (m' & ok & E); [discriminate|]. exists m'. unfold check_delta. rewrite E. reflexivity.
Qed.
(** right flags are left alone *)
Lemma delta_loop_stable : forall m p, narrow m -> patches_have_base m -> (forall c, p = Some c -> N.of_nat (crc_size c) < 10240) ->
  (forall before k s after, m = before ++ (k, s) :: after -> is_patch (present s) ->
    (present s = et_patch <-> exists b c, base s = Some b /\ prevs p before = Some c /\ cyclic c = cyclic b)) ->
  exists ok, delta_loop p m = Ok (m, ok).
Proof.
  induction m as [|[k s] r IH]; intros p Hn Hb Hp Hf; cbn; [eauto|].
  assert (Hn' : narrow r) by (intros k' s' Hin; apply (Hn k' s'); right; exact Hin).
  assert (Hb' : patches_have_base r) by (intros k' s' Hin; apply (Hb k' s'); right; exact Hin).
  assert (Hr : forall c, result s = Some c -> N.of_nat (crc_size c) < 10240) by (intros c Hc; eapply (Hn k s); [left; reflexivity|auto]).
  assert (Hbs : forall c, base s = Some c -> N.of_nat (crc_size c) < 10240) by (intros c Hc; eapply (Hn k s); [left; reflexivity|auto]).
  assert (Hrest : forall q, q = stepp p s -> (forall c, q = Some c -> N.of_nat (crc_size c) < 10240) -> exists ok, delta_loop q r = Ok (r, ok)).
  { intros q Eq Hq. apply IH; auto. intros before k' s' after E Hp'. subst q. specialize (Hf ((k, s) :: before) k' s' after).
    rewrite E in Hf. specialize (Hf eq_refl Hp'). cbn [prevs fold_left snd] in Hf. exact Hf. }
  assert (Hset : forall e, present s = e -> set_present s e = s) by (intros e <-; destruct s; reflexivity).
  unfold stepp in Hrest.
  destruct (present s) eqn:Ep; cbn;
    try (edestruct Hrest as [ok E]; [reflexivity|auto; discriminate|]; rewrite E; cbn; eauto; fail).
  all: specialize (Hf [] k s r eq_refl); rewrite Ep in Hf; cbn in Hf; unfold is_patch in Hf.
  all: destruct (base s) as [b|] eqn:Eb; [|exfalso; eapply (Hb k s); [left; reflexivity|rewrite Ep; unfold is_patch; tauto|exact Eb]];
    destruct p as [c|]; [unfold crc_cmp; specialize (Hp _ eq_refl); specialize (Hbs _ eq_refl);
      replace (N.of_nat (crc_size c) <? INFININT_MODE_START) with true by (unfold INFININT_MODE_START; lia);
      replace (N.of_nat (crc_size b) <? INFININT_MODE_START) with true by (unfold INFININT_MODE_START; lia); cbn; destruct (crc_eq c b) eqn:Ec|]; cbn.
  all: try (edestruct Hrest as [ok E]; [reflexivity|auto; discriminate|]; rewrite E; cbn; rewrite Hset by reflexivity; eauto; fail).
  - exfalso. destruct (proj1 (Hf (or_introl eq_refl)) eq_refl) as (b' & c' & H1 & H2 & H3). injection H1 as <-. injection H2 as <-.
    apply crc_eq_spec in H3. congruence.
  - exfalso. destruct (proj1 (Hf (or_introl eq_refl)) eq_refl) as (b' & c' & H1 & H2 & H3). discriminate.
  - exfalso. assert (X : et_patch_unusable = et_patch); [|discriminate]. apply Hf; [tauto|]. exists b, c. repeat split; auto.
    apply crc_eq_spec. exact Ec.
Qed.
Theorem C22_stable : forall m, narrow m -> patches_have_base m -> flags_right m -> check_delta m = Ok m.
Proof.
  intros m Hn Hb Hf. destruct (delta_loop_stable m None Hn Hb) as [ok E]; [discriminate| |unfold check_delta; rewrite E; reflexivity].
  intros before k s after E Hp. rewrite (Hf before k s after E Hp). split.
  - intros (b & H1 & H2). apply prevs_available in H2 as (c & H2 & H3). exists b, c; auto.
  - intros (b & c & H1 & H2 & H3). exists b. split; [exact H1|]. apply prevs_available. exists c; auto.
Qed.
(** every recording of a state refreshes the flags *)
Theorem C22_set_data : forall m a d e b r m', set_data m a d e b r = Ok m' -> flags_right m'.
Proof. intros m a d e b r m' H. eapply C22_flags. exact H. Qed.
Theorem C22_remove : forall m c a last m' c', remove_entry m c a last = Ok (m', c') -> flags_right m'.
Proof.
  intros m c a last m' c' H. unfold remove_entry in H.
  match type of H with bind ?X _ = _ => destruct X as [m1|] eqn:E; cbn in H; [|discriminate] end.
  destruct (check_delta (mdel a m1)) as [m2|] eqn:E2; cbn in H; [|discriminate]. injection H as <- _. eapply C22_flags; eauto.
Qed.

(** renumbering the archives after a removal keeps the flags right *)
Lemma rekey_mono : forall A (f : N -> N) (m : amap A) acc, sorted m ->
  (forall a b, In a (keys m) -> In b (keys m) -> a < b -> f a < f b) ->
  (forall a b, In a (keys acc) -> In b (keys m) -> a < f b) -> sorted acc ->
  rekey f m acc = acc ++ map (fun p => (f (fst p), snd p)) m.
Proof.
  intros A f m; induction m as [|[k v] r IH]; intros acc S Hf Hacc Sacc; cbn; [rewrite app_nil_r; reflexivity|].
  pose proof (sorted_inv _ _ _ S) as [S1 S2].
  assert (Em : mset (f k) v acc = acc ++ [(f k, v)]).
  { assert (Ha : forall a, In a (keys acc) -> a < f k) by (intros a Ha; apply Hacc; [exact Ha|left; reflexivity]).
    clear -Ha. induction acc as [|[k1 v1] r1 IH]; cbn; [reflexivity|].
    assert (k1 < f k) by (apply Ha; left; reflexivity). replace (f k <? k1) with false by lia. replace (f k =? k1) with false by lia.
    rewrite IH; [reflexivity|]. intros a Hin. apply Ha. right; exact Hin. }
  rewrite Em, IH.
  - rewrite <- app_assoc. reflexivity.
  - exact S1.
  - intros a b Ha Hb. apply Hf; right; assumption.
  - intros a b Ha Hb. unfold keys in Ha. rewrite map_app in Ha. apply in_app_or in Ha as [Ha|Ha].
    + apply Hacc; [exact Ha|right; exact Hb].
    + cbn in Ha. destruct Ha as [<-|[]]. apply Hf; [left; reflexivity|right; exact Hb|]. apply in_map_iff in Hb as [[k2 v2] [E Hin]]. cbn in E. subst.
      apply (S2 _ _ Hin).
  - rewrite <- Em. apply sorted_mset. exact Sacc.
Qed.
Lemma flags_right_rekey : forall f m, flags_right m -> flags_right (map (fun p => (f (fst p), snd p)) m).
Proof.
  intros f m H before k s after E Hp. apply map_eq_app in E as (b0 & a0 & -> & <- & E2).
  destruct a0 as [|[k0 s0] a0]; cbn in E2; [discriminate|]. injection E2 as <- <- <-.
  rewrite (H b0 k0 s0 a0 eq_refl Hp). apply Morphisms_Prop.ex_iff_morphism. intro b. apply Morphisms_Prop.and_iff_morphism; [reflexivity|].
  rewrite <- !prevs_available. assert (X : forall p, prevs p (map (fun q => (f (fst q), snd q)) b0) = prevs p b0).
  { clear. induction b0 as [|x r IH]; intro p; [reflexivity|]. cbn. unfold prevs in IH. apply IH. }
  rewrite X. reflexivity.
Qed.
Theorem C22_renumber : forall m num, sorted m -> mfind num m = None -> flags_right m -> flags_right (rekey (skip_key num) m []).
Proof.
  intros m num S Hnone H. rewrite rekey_mono; [apply flags_right_rekey, H|exact S| |intros a b []|constructor].
  intros a b Ha Hb Hlt. apply mfind_none in Hnone. assert (a <> num) by congruence. assert (b <> num) by congruence.
  unfold skip_key. destruct (N.ltb_spec num a), (N.ltb_spec num b); lia.
Qed.

(** ** Finding: erasing an automatic "absent" record (finalize, data_tree.cpp:590-592) does not refresh the flags *)
Definition crcA : crc := mk_crc [1; 2; 3; 4] 0.
Definition crcB : crc := mk_crc [5; 6; 7; 8] 0.
Definition day (n : N) : datetime := dt_seconds (n * 86400).
Definition finding_map : amap statusp :=
  [(1, Sp (day 1) et_saved None (Some crcA)); (2, Sp (day 2) et_absent None None); (3, Sp (day 3) et_patch_unusable (Some crcA) (Some crcB))].
Theorem C22_finalize_refuted : flags_right finding_map /\
  exists m', finalize_mods finding_map 2 (day 9) 3 = Ok m' /\ ~ flags_right m'.
Proof.
  split; [eapply (C22_flags finding_map); vm_compute; reflexivity|].
  eexists. split; [vm_compute; reflexivity|]. intro H.
  specialize (H [(1, Sp (day 1) et_saved None (Some crcA))] 3 (Sp (day 3) et_patch_unusable (Some crcA) (Some crcB)) [] eq_refl (or_intror eq_refl)).
  cbn in H. assert (X : et_patch_unusable = et_patch); [|discriminate]. apply H. exists crcA. split; [reflexivity|].
  exists [], 1, (Sp (day 1) et_saved None (Some crcA)), []. repeat split; [left; reflexivity|exists crcA; auto|constructor].
Qed.
(** ** Finding: a file crossing the size at which CRC change class (10240 bytes of CRC) makes the database fail *)
Theorem C22_width_refuted : exists m, patches_have_base m /\ check_delta m = Err Ebug.
Proof.
  exists [(1, Sp (day 1) et_saved None (Some (mk_crc (repeat 0 10240) 0))); (2, Sp (day 2) et_patch (Some crcA) (Some crcB))].
  split.
  - intros k s [E|[E|[]]] Hp; injection E as <- <-; cbn in *; [destruct Hp; discriminate|discriminate].
  - unfold check_delta. cbn [delta_loop present base result bind]. unfold crc_cmp, crc_size. cbn [cyclic]. rewrite repeat_length. reflexivity.
Qed.

(** ** Witness: a chain of three archives *)
Example C22_example : check_delta
  [(1, Sp (day 1) et_saved None (Some crcA)); (2, Sp (day 2) et_inode None None);
   (3, Sp (day 3) et_patch_unusable (Some crcA) (Some crcB)); (4, Sp (day 4) et_removed None None); (5, Sp (day 5) et_patch (Some crcB) (Some crcA))] =
  Ok [(1, Sp (day 1) et_saved None (Some crcA)); (2, Sp (day 2) et_inode None None);
   (3, Sp (day 3) et_patch (Some crcA) (Some crcB)); (4, Sp (day 4) et_removed None None); (5, Sp (day 5) et_patch_unusable (Some crcB) (Some crcA))].
Proof. vm_compute. reflexivity. Qed.
