From Coq Require Import List.
From Verif Require Import Base InfinintModel InfinintProof InfinintProof2 CrcModel CrcProof PropCrc DatetimeModel HeaderModel HeaderProof2 PathModel PropPath EscapeModel EscapeSpec EscapeProof4.
From Verif Require Import ReadStable CatModel CatSpec CatProof CatProof2 CatProof3 PropCatalogue SeqModel SeqSpec SeqProof SeqProof2 SeqProof3 SeqProof4.
Import ListNotations.
Open Scope N_scope.

(** ** the state of the reader *)
Definition rel (st : stars) (p : place) (s : rst) : Prop :=
  let '(done, at_, skip) := p in
  Inv true st done (s_co s) /\ s_depth s = (length at_ + skip)%nat /\ s_wait s = (match skip with O => O | _ => S (length at_) end) /\ s_stack s = at_ /\
  (at_ <> [] -> s_read s = true) /\ (skip <> O -> s_read s = true).
Definition some {A} (l : list A) : bool := match l with [] => false | _ => true end.
Definition add_lines (a : list line) (x : list line * fin) : list line * fin := (a ++ fst x, snd x).

Lemma eod_small : forall algo co, exists a, eod_items = Ok (M seqt_file :: map D a) /\ forall rest, small_read algo co (a ++ rest) = Ok (Some (None, co, rest)).
Proof.
  intros algo co. destruct eod_rt as (z & Ez & Rz). destruct (crc_of_ok ENTREE_CRC_SIZE [z] ltac:(discriminate)) as (k & Ek & _).
  exists (z :: crc_dump k). split; [unfold eod_items; rewrite Ez; cbn [bind]; rewrite Ek; reflexivity|]. intro rest. unfold small_read. cbn [app]. rewrite Rz.
  set (f0 := z :: crc_dump k ++ rest). assert (F : exists n, fuel_for f0 = S n) by (unfold fuel_for; cbn [length]; exists (2 * length f0 + 1)%nat; unfold f0; cbn [length]; lia).
  destruct F as (n & ->). unfold f0 at 1. rewrite eod_read by exact Rz. cbn [bind].
  assert (C : firstn (length f0 - length (crc_dump k ++ rest)) f0 = [z]) by (unfold f0; cbn [length]; replace (S (length (crc_dump k ++ rest)) - length (crc_dump k ++ rest))%nat with 1%nat by lia; reflexivity).
  rewrite C, Ek. cbn [bind]. rewrite crc_rt. cbn [bind]. rewrite crc_eq_refl. reflexivity.
Qed.

Lemma nf_file : forall l, next_file (M seqt_file :: l) = (true, l).
Proof. intro l. unfold next_file. cbn [search]. rewrite seqt_eqb_refl. reflexivity. Qed.

Lemma header_read : forall st algo done co r, distinct_sets st -> Inv true st done co -> rec_ok st done r ->
  exists h e' co', small_dump st done (r_entry r) = Ok h /\ (forall rest, small_read algo co (h ++ rest) = Ok (Some (Some e', co', rest))) /\
    Inv true st (rec_marks st done r) co' /\ shown true (fun t => lookup t co') e' = expected true st (r_entry r) /\ stands st co' (r_entry r) e'.
Proof.
  intros st algo done co r HD HI (He & i & size & Hi & _ & Hset & _ & Hb & _).
  assert (NE : forall n, r_entry r <> Eign n) by (intros n E; rewrite E in Hi; discriminate).
  destruct (small_step st algo done co (r_entry r) HD HI He NE) as (h & e' & co' & D1 & R1 & I1 & S1).
  exists h, e', co'. split; [exact D1|]. split; [exact R1|]. split; [|split; [exact S1|]].
  - replace (rec_marks st done r) with (marks st (r_entry r) done); [exact I1|]. unfold marks, rec_marks.
    destruct (r_entry r) as [| |n a| | |] eqn:E; try (destruct (r_body r); reflexivity).
    cbn [inode_of] in Hi. destruct (st a) as [s|] eqn:Ea; [|discriminate]. rewrite (Hset n a s eq_refl Ea).
    destruct (r_body r) as [|w|w d|w la dy]; try reflexivity; destruct Hb as (k & z & Hk & _); discriminate.
  - apply shown_stands; [exact Hset|eauto|exact S1].
Qed.
(** the first mark of a tail is "failed" only for a file left out *)
Lemma not_failed : forall st done r t rest h, rec_ok st done r -> tail_items st done r = Ok t -> dropped r = false -> bound rest ->
  next_failed (data_before (t ++ rest)) (after_data (t ++ rest)) = h -> h = false.
Proof.
  intros st done r t rest h Hr Ht Dr B <-. unfold next_failed. destruct (data_before (t ++ rest)) as [|b l] eqn:Eb; [|reflexivity].
  assert (H : forall x, after_data (t ++ rest) <> M seqt_failed_backup :: x).
  { intros x E. pose proof (split_data (t ++ rest)) as S0. rewrite Eb, E in S0. cbn [map app] in S0.
    unfold tail_items in Ht. destruct (r_body r) as [|w|w d|w la dy] eqn:EB.
    - destruct (written st done (r_entry r)) as [i|].
      + unfold ea_items in Ht. destruct (r_sig r) as [sg|]; cbn [sig_items] in Ht.
        * destruct (i_ea i); try (injection Ht as <-; discriminate S0). destruct (opt_bug (i_ea_size i)); [|discriminate]. cbn [bind] in Ht. destruct (crc_of _ _); [|discriminate]. injection Ht as <-. discriminate S0.
        * destruct (i_ea i); try (injection Ht as <-; cbn [app] in S0; destruct B as [d|d l|d l]; destruct d; discriminate S0).
          destruct (opt_bug (i_ea_size i)); [|discriminate]. cbn [bind] in Ht. destruct (crc_of _ _); [|discriminate]. injection Ht as <-. discriminate S0.
      + injection Ht as <-. cbn [app] in S0. destruct B as [d|d l|d l]; destruct d; discriminate S0.
    - unfold dropped in Dr. rewrite EB in Dr. destruct w as [|c w]; [discriminate|]. cbn [wasted_items] in Ht. destruct (copy_dump c) as (k & _ & Ec). rewrite Ec in Ht. cbn [bind] in Ht.
      destruct (wasted_items w); [|discriminate]. cbn [bind] in Ht. injection Ht as <-. destruct (snd c); discriminate S0.
    - destruct w as [|c w].
      + injection Ht as <-. cbn [app] in S0. destruct d; cbn [map app] in S0; [|discriminate]. destruct B as [d|d l|d l]; destruct d; discriminate S0.
      + cbn [wasted_items] in Ht. destruct (copy_dump c) as (k & _ & Ec). rewrite Ec in Ht. cbn [bind] in Ht. destruct (wasted_items w); [|discriminate]. cbn [bind] in Ht. injection Ht as <-. destruct (snd c); discriminate S0.
    - destruct (written st done (r_entry r)) as [i|]; [|discriminate]. destruct (copy_dump la) as (k & _ & El). rewrite El in Ht.
      destruct w as [|c w].
      + cbn [wasted_items bind] in Ht. destruct (ea_items i (r_ea r)); [|discriminate]. injection Ht as <-. destruct (snd la); discriminate S0.
      + cbn [wasted_items] in Ht. destruct (copy_dump c) as (k2 & _ & Ec). rewrite Ec in Ht. cbn [bind] in Ht. destruct (wasted_items w); [|discriminate]. cbn [bind] in Ht.
        destruct (ea_items i (r_ea r)); [|discriminate]. injection Ht as <-. destruct (snd c); discriminate S0. }
  destruct (after_data (t ++ rest)) as [|[|[]|] l]; try reflexivity. exfalso. eapply H. reflexivity.
Qed.
Lemma opens_done : forall st done r, rec_ok st done r -> opens (r_entry r) = true -> exists d b x, restored st done r = Odone d b x.
Proof.
  intros st done r (_ & i & size & Hi & _ & _ & Hd & Hb & _) HO. unfold restored. rewrite Hi. destruct (Hd HO) as [D1 D2].
  assert (K : known done (r_entry r) = false) by (destruct (r_entry r); try reflexivity; discriminate HO). rewrite K, HO.
  destruct (r_body r) as [|w|w d|w la dy] eqn:EB.
  - destruct (i_saved i); try contradiction; do 3 eexists; reflexivity.
  - destruct Hb as (k & z & Hk & _). rewrite Hk in HO. discriminate.
  - destruct Hb as (k & z & Hk & _). rewrite Hk in HO. discriminate.
  - destruct (i_saved i); try contradiction; do 3 eexists; reflexivity.
Qed.
Lemma restored_ends : forall st done r, restored st done r <> Ohang /\ restored st done r <> Oundef.
Proof.
  intros. unfold restored. destruct (inode_of st (r_entry r)) as [[i z]|]; [|split; discriminate].
  destruct (i_saved i), (known done (r_entry r)), (r_body r), (opens (r_entry r)); split; discriminate.
Qed.

Lemma some_app : forall A (a b : list A), some (a ++ b) = some a || some b.
Proof. intros A [|] b; reflexivity. Qed.

Lemma run_entry : forall st algo cov lax n p s r a rest, distinct_sets st -> rel st p s -> rec_ok st (fst (fst p)) r -> rec_items st (fst (fst p)) r = Ok a -> bound rest ->
  exists s', rel st (snd (step_lines st cov p (Eput r))) s' /\ s_read s' = s_read s || some (fst (step_lines st cov p (Eput r))) /\
    run (S n) lax algo cov s (a ++ rest) = add_lines (fst (step_lines st cov p (Eput r))) (run n lax algo cov s' rest).
Proof.
  intros st algo cov lax n [[done at_] skip] s r a rest HD (HI & Hdep & Hwait & Hst & Hr1 & Hr2) Hr Ha B. cbn [fst] in *.
  destruct (header_read st algo done (s_co s) r HD HI Hr) as (h & e' & co' & Dh & Rh & I' & Sh & Std).
  destruct (tail_dumped st done r Hr) as (t & Et). unfold rec_items in Ha. rewrite Dh, Et in Ha. cbn [bind] in Ha. injection Ha as <-.
  cbn [app]. rewrite <- app_assoc. pose proof (inner_tail st done r t Et) as IT.
  cbn [run]. fold (next_file (M seqt_file :: map D h ++ t ++ rest)). rewrite nf_file. cbn [negb]. rewrite db_D, Rh, ad_D.
  destruct (dropped r) eqn:Dr.
  - (* left out *)
    assert (T : t = [M seqt_failed_backup]).
    { unfold dropped in Dr. unfold tail_items in Et. destruct (r_body r) as [|[|]|w d|w la dy]; try discriminate. injection Et as <-. reflexivity. }
    subst t. cbn [app data_before after_data next_failed step_lines]. rewrite Dr. cbn [fst snd].
    exists (Rst co' (s_depth s) (s_wait s) (s_read s) (s_stack s)). split; [unfold rel; cbn [s_co s_depth s_wait s_stack s_read]; auto 10|]. split; [cbn [s_read some]; rewrite orb_false_r; reflexivity|].
    rewrite (run_next n lax algo cov _ (M seqt_failed_backup :: rest) rest) by (apply nf_M; inner). destruct (run n lax algo cov _ rest). reflexivity.
  - rewrite (not_failed st done r t rest _ Hr Et Dr B eq_refl). rewrite split_data.
    destruct Std as (Hname & Hdir & _). assert (Std : stands st co' (r_entry r) e').
    { apply shown_stands; [|destruct Hr as (_ & i & z & Hi & _); eauto|exact Sh]. destruct Hr as (_ & i & z & Hi & _ & Hset & _). exact Hset. }
    rewrite Hdir. cbn [step_lines]. rewrite Dr. destruct skip as [|skip].
    + assert (W : (0 <? s_wait s)%nat = false) by (rewrite Hwait; reflexivity). rewrite W. rewrite Hname, Hst. rewrite Nat.add_0_r in Hdep.
      destruct (cov (name_of (r_entry r) :: at_) (opens (r_entry r))) eqn:EC.
      * pose proof (entry_read st done (s_co s) co' r e' t rest HD HI Hr Et B Dr Std) as OE. pose proof (nf_restore (s_co s) co' e' (t ++ rest)) as NF.
        destruct (restore_entry (s_co s) co' e' (t ++ rest)) as [o its]. cbn [fst snd] in OE, NF. subst o. rewrite (nf_inner t rest IT) in NF.
        destruct (restored_ends st done r) as [O1 O2]. cbn [fst snd].
        exists (Rst co' (if opens (r_entry r) then S (s_depth s) else s_depth s) O true (if opens (r_entry r) then name_of (r_entry r) :: at_ else at_)). split.
        { unfold rel. cbn [s_co s_depth s_wait s_stack s_read]. split; [exact I'|]. split; [destruct (opens (r_entry r)); cbn [length]; rewrite Hdep; lia|]. auto. }
        split; [cbn [s_read some]; rewrite orb_true_r; reflexivity|].
        rewrite Sh.
        assert (E0 : (if opens (r_entry r) then match restored st done r with Odone _ _ _ => O | _ => if opens (r_entry r) then S (s_depth s) else s_depth s end else O) = O /\
                     (if opens (r_entry r) then match restored st done r with Odone _ _ _ => name_of (r_entry r) :: at_ | _ => at_ end else at_) = (if opens (r_entry r) then name_of (r_entry r) :: at_ else at_)).
        { destruct (opens (r_entry r)) eqn:EO; [|auto]. destruct (opens_done st done r Hr EO) as (d & b & x & ->). auto. }
        destruct E0 as [E1 E2]. rewrite E1, E2. rewrite (run_next n lax algo cov _ its rest NF).
        unfold cons_line, add_lines. destruct (restored st done r); try contradiction; reflexivity.
      * cbn [fst snd]. rewrite Sh.
        exists (Rst co' (if opens (r_entry r) then S (s_depth s) else s_depth s) (if opens (r_entry r) then if opens (r_entry r) then S (s_depth s) else s_depth s else O) true at_). split.
        { unfold rel. cbn [s_co s_depth s_wait s_stack s_read]. split; [exact I'|]. rewrite Hdep. destruct (opens (r_entry r)); repeat split; auto; lia. }
        split; [cbn [s_read some]; rewrite orb_true_r; reflexivity|].
        rewrite (run_next n lax algo cov _ (t ++ rest) rest) by (apply nf_inner; exact IT). reflexivity.
    + assert (W : (0 <? s_wait s)%nat = true) by (rewrite Hwait; reflexivity). rewrite W.
      assert (W2 : ((if opens (r_entry r) then S (s_depth s) else s_depth s) <? s_wait s)%nat = false) by (apply Nat.ltb_ge; destruct (opens (r_entry r)); lia). rewrite W2.
      cbn [fst snd]. exists (Rst co' (if opens (r_entry r) then S (s_depth s) else s_depth s) (s_wait s) (s_read s) (s_stack s)). split.
      { unfold rel. cbn [s_co s_depth s_wait s_stack s_read]. split; [exact I'|]. rewrite Hdep, Hwait. destruct (opens (r_entry r)); repeat split; auto; lia. }
      split; [cbn [s_read some]; rewrite orb_false_r; reflexivity|].
      rewrite (run_next n lax algo cov _ (t ++ rest) rest) by (apply nf_inner; exact IT). destruct (run n lax algo cov _ rest). reflexivity.
Qed.

Lemma run_eod : forall st algo cov lax n p s a rest, rel st p s -> (0 < s_depth s)%nat -> eod_items = Ok a -> bound rest ->
  exists s', rel st (snd (step_lines st cov p Eend)) s' /\ s_read s' = s_read s /\ run (S n) lax algo cov s (a ++ rest) = run n lax algo cov s' rest.
Proof.
  intros st algo cov lax n [[done at_] skip] s a rest (HI & Hdep & Hwait & Hst & Hr1 & Hr2) Hd Ha B.
  destruct (eod_small algo (s_co s)) as (b & Eb & Rb). rewrite Ha in Eb. injection Eb as ->. cbn [app].
  cbn [run]. fold (next_file (M seqt_file :: map D b ++ rest)). rewrite nf_file. cbn [negb]. rewrite db_D, Rb, ad_D.
  assert (NFa : next_failed (data_before rest) (after_data rest) = false).
  { unfold next_failed. destruct (data_before rest) eqn:Ed; [|reflexivity]. pose proof (split_data rest) as S0. rewrite Ed in S0. cbn [map app] in S0.
    destruct (after_data rest) as [|[|[]|] l]; try reflexivity. destruct B as [d|d l0|d l0]; destruct d; discriminate S0. }
  rewrite NFa, split_data. destruct (s_depth s) as [|depth] eqn:ED; [lia|]. cbn [step_lines snd].
  destruct skip as [|skip].
  - rewrite Hwait. cbn [Nat.ltb Nat.leb]. destruct at_ as [|x at_]; [cbn [length] in Hdep; lia|]. rewrite Hst. cbn [tl length] in *.
    exists (Rst (s_co s) depth O true at_). split; [|split; [cbn [s_read]; symmetry; apply Hr1; discriminate|reflexivity]]. unfold rel. cbn [s_co s_depth s_wait s_stack s_read]. repeat split; auto; try apply HI; lia.
  - rewrite Hwait. cbn [Nat.ltb Nat.leb].
    exists (Rst (s_co s) depth (if (depth <? S (length at_))%nat then O else S (length at_)) (s_read s) (s_stack s)). split; [|split; reflexivity].
    unfold rel. cbn [s_co s_depth s_wait s_stack s_read]. split; [exact HI|]. split; [lia|]. split; [|auto].
    destruct skip; destruct (Nat.ltb_spec depth (S (length at_))); try reflexivity; lia.
Qed.

(** ** a sequence of events *)
Lemma eod_dumped : exists a, eod_items = Ok (M seqt_file :: a).
Proof. destruct (eod_small Cnone []) as (a & E & _). eauto. Qed.
Lemma events_bound : forall st done evs a rest, events_items st done evs = Ok a -> bound rest -> bound (a ++ rest).
Proof.
  intros st done [|[r|] evs] a rest H B; cbn [events_items] in H.
  - injection H as <-. exact B.
  - unfold rec_items in H. destruct (small_dump st done (r_entry r)); [|discriminate]. cbn [bind] in H. destruct (tail_items st done r); [|discriminate]. cbn [bind] in H.
    destruct (events_items st (rec_marks st done r) evs); [|discriminate]. injection H as <-. apply (b_file []).
  - destruct eod_dumped as (z & Ez). rewrite Ez in H. cbn [bind] in H. destruct (events_items st done evs); [|discriminate]. injection H as <-. apply (b_file []).
Qed.
Lemma run_events : forall st algo cov lax, distinct_sets st -> forall evs p s a n rest, rel st p s -> events_ok st (fst (fst p)) evs -> nested (s_depth s) evs ->
  events_items st (fst (fst p)) evs = Ok a -> bound rest ->
  exists s', rel st (snd (report st cov p evs)) s' /\ s_read s' = s_read s || some (fst (report st cov p evs)) /\ s_depth s' = depth_after (s_depth s) evs /\
    run (length evs + n) lax algo cov s (a ++ rest) = add_lines (fst (report st cov p evs)) (run n lax algo cov s' rest).
Proof.
  intros st algo cov lax HD. induction evs as [|ev evs IH]; intros p s a n rest HR HO HN HA B.
  - injection HA as <-. exists s. split; [exact HR|]. split; [cbn [report fst some]; rewrite orb_false_r; reflexivity|]. split; [reflexivity|]. cbn [report fst length plus app]. unfold add_lines. destruct (run n lax algo cov s rest). reflexivity.
  - cbn [events_items events_ok nested] in *. destruct ev as [r|].
    + destruct HO as [HO1 HO2]. destruct (rec_items st (fst (fst p)) r) as [a1|] eqn:E1; [|discriminate]. destruct (events_items st (rec_marks st (fst (fst p)) r) evs) as [a2|] eqn:E2; [|discriminate].
      cbn [bind] in HA. injection HA as <-. rewrite <- app_assoc.
      destruct (run_entry st algo cov lax (length evs + n) p s r a1 (a2 ++ rest) HD HR HO1 E1 (events_bound _ _ _ _ _ E2 B)) as (s1 & R1 & F1 & Q1).
      assert (P1 : fst (fst (snd (step_lines st cov p (Eput r)))) = rec_marks st (fst (fst p)) r).
      { destruct p as [[done at_] skip]. cbn [step_lines fst]. destruct (dropped r); [reflexivity|]. destruct skip; [|reflexivity]. destruct (cov _ _); reflexivity. }
      assert (D1 : s_depth s1 = if opens (r_entry r) then S (s_depth s) else s_depth s).
      { destruct p as [[done at_] skip]. destruct HR as (_ & Hd & _). cbn [step_lines] in R1. destruct (dropped r) eqn:Dr.
        - destruct R1 as (_ & Hd1 & _). assert (EO : opens (r_entry r) = false).
          { unfold dropped in Dr. destruct HO1 as (_ & i & z & _ & _ & _ & _ & Hb & _). destruct (r_body r) as [|w|w d|w la dy]; try discriminate. destruct Hb as (k & z0 & Hk & _). rewrite Hk. reflexivity. }
          rewrite EO. congruence.
        - destruct skip as [|skip]; [destruct (cov _ _)|]; destruct R1 as (_ & Hd1 & _); cbn [snd] in *; destruct (opens (r_entry r)); cbn [length] in *; lia. }
      rewrite <- P1 in HO2, E2. rewrite <- D1 in HN. destruct (IH _ s1 a2 n rest R1 HO2 HN E2 B) as (s' & R' & F' & G' & Q').
      exists s'. cbn [report]. destruct (step_lines st cov p (Eput r)) as [la p1]. cbn [fst snd] in *. destruct (report st cov p1 evs) as [lb p2]. cbn [fst snd] in *. split; [exact R'|].
      split; [rewrite F', F1, some_app, orb_assoc; reflexivity|]. split; [cbn [depth_after]; rewrite <- D1; exact G'|].
      cbn [length plus]. rewrite Q1, Q'. unfold add_lines. cbn [fst snd]. rewrite app_assoc. reflexivity.
    + destruct eod_items as [a1|] eqn:E1; [|discriminate]. destruct (events_items st (fst (fst p)) evs) as [a2|] eqn:E2; [|discriminate]. cbn [bind] in HA. injection HA as <-. rewrite <- app_assoc.
      destruct (s_depth s) as [|d] eqn:ED; [contradiction|].
      destruct (run_eod st algo cov lax (length evs + n) p s a1 (a2 ++ rest) HR ltac:(lia) E1 (events_bound _ _ _ _ _ E2 B)) as (s1 & R1 & F1 & Q1).
      assert (P1 : fst (fst (snd (step_lines st cov p Eend))) = fst (fst p)) by (destruct p as [[done at_] [|skip]]; reflexivity).
      assert (D1 : s_depth s1 = d).
      { destruct p as [[done at_] skip]. destruct HR as (_ & Hd & _). cbn [step_lines snd] in R1. destruct skip as [|skip]; destruct R1 as (_ & Hd1 & _); cbn [tl length fst snd] in *; [destruct at_ as [|x at_]; cbn [tl length] in *; [exfalso; rewrite ED in Hd; discriminate Hd|cbn [List.tl] in Hd1; rewrite ED in Hd; lia]|rewrite ED in Hd; lia]. }
      rewrite <- P1 in HO, E2. rewrite <- D1 in HN. destruct (IH _ s1 a2 n rest R1 HO HN E2 B) as (s' & R' & F' & G' & Q').
      exists s'. cbn [report]. destruct (step_lines st cov p Eend) as [la p1] eqn:ES. cbn [fst snd] in *. destruct (report st cov p1 evs) as [lb p2]. cbn [fst snd] in *.
      assert (la = []) as -> by (destruct p as [[done at_] [|skip]]; cbn [step_lines] in ES; congruence). split; [exact R'|]. split; [cbn [app]; rewrite F', F1; reflexivity|]. split; [cbn [depth_after pred]; rewrite <- D1; exact G'|]. cbn [length plus app]. rewrite Q1, Q'. reflexivity.
Qed.
