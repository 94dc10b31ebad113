From Coq Require Import List.
From Verif Require Import Base InfinintModel InfinintProof InfinintProof2 CrcModel CrcProof PropCrc DatetimeModel HeaderModel HeaderProof2 PathModel PropPath EscapeModel EscapeSpec EscapeProof4.
From Verif Require Import ReadStable CatModel CatSpec CatProof CatProof2 CatProof3 PropCatalogue SeqModel SeqSpec SeqProof SeqProof2 SeqProof3 SeqProof4 SeqProof5 SeqProof6 SeqProof7 SeqProof8.
Import ListNotations.
Open Scope N_scope.

Lemma open_head : forall lax c rest, catalogue_ok c -> seq_open lax (head_items c ++ rest) = Ok rest.
Proof.
  intros lax c rest (Hl & (s & Hs) & Hu & Hr & Hz & _). unfold seq_open, head_items. cbn [app]. rewrite find_hit, <- app_assoc. cbn [app]. rewrite db_D, ad_D. cbn [data_before after_data].
  rewrite app_nil_r. unfold label_read. destruct (Nat.ltb_spec (length (k_label c)) LABEL_SIZE) as [L|_]; [rewrite Hl in L; unfold LABEL_SIZE in L; lia|].
  replace (skipn LABEL_SIZE (k_label c)) with (@nil N) by (unfold LABEL_SIZE; rewrite skipn_all2 by lia; reflexivity). cbn [map app bind]. rewrite find_hit, db_D.
  rewrite read_string_app by exact Hz. cbn [bind]. rewrite (C17_display_parse s _ Hs Hu). cbn [bind].
  assert (G : relative (k_place c) && negb (str_eqb (display (k_place c)) dot) = false).
  { destruct (relative (k_place c)) eqn:ER; [|reflexivity]. rewrite (Hr eq_refl), str_eqb_refl. reflexivity. }
  rewrite G, ad_D, split_data. reflexivity.
Qed.

(** ** the removed entries *)
Fixpoint gone (at_ : dirpath) (v : vnode) : list (dirpath * N * datetime) :=
  match v with
  | Vdel n s d => [(n :: at_, s, d)]
  | Vdir h l => concat (map (gone (vh_name h :: at_)) l)
  | _ => []
  end.
Lemma concat_map_concat : forall A B C (f : B -> list C) (g : A -> list B) l, concat (map f (concat (map g l))) = concat (map (fun x => concat (map f (g x))) l).
Proof. intros. induction l as [|x l IH]; [reflexivity|]. cbn [map concat]. rewrite map_app, concat_app, IH. reflexivity. Qed.
Lemma gone_link : forall small w keep st n a at_, gone at_ (v_link small w keep st n a) = [].
Proof. intros. unfold v_link. destruct (st a); [|reflexivity]. destruct (keep || is_set s); reflexivity. Qed.
Lemma removed_shown : forall st e at_, removed at_ e = concat (map (gone at_) (shown false st e)).
Proof.
  intros st. fix IH 1. intros [i k|i ch|n a|n s d|n|i] at_; cbn [removed shown map concat gone app]; try reflexivity.
  - rewrite app_nil_r, concat_map_concat. unfold v_head at 1. cbn [vh_name]. f_equal. induction ch as [|x ch IHc]; [reflexivity|]. cbn [map]. rewrite IHc. f_equal. apply IH.
  - rewrite gone_link. reflexivity.
Qed.
Lemma removed_expected : forall st e at_, removed at_ e = concat (map (gone at_) (expected false st e)).
Proof.
  intros st. fix IH 1. intros [i k|i ch|n a|n s d|n|i] at_; cbn [removed expected map concat gone app]; try reflexivity.
  - rewrite app_nil_r, concat_map_concat. unfold v_head at 1. cbn [vh_name]. f_equal. induction ch as [|x ch IHc]; [reflexivity|]. cbn [map]. rewrite IHc. f_equal. apply IH.
  - rewrite gone_link. reflexivity.
Qed.
Lemma same_removals : forall c c', shown false (k_stars c') (root_entry c') = expected false (k_stars c) (root_entry c) -> removals c' = removals c.
Proof.
  intros c c' H. unfold root_entry in H. cbn [shown expected] in H. apply vdir_inj in H as [_ H]. unfold removals.
  assert (E1 : forall ch st, concat (map (removed []) ch) = concat (map (gone []) (concat (map (shown false st) ch)))).
  { intros ch st. rewrite concat_map_concat. f_equal. apply map_ext. intro e. apply removed_shown. }
  assert (E2 : forall ch st, concat (map (removed []) ch) = concat (map (gone []) (concat (map (expected false st) ch)))).
  { intros ch st. rewrite concat_map_concat. f_equal. apply map_ext. intro e. apply removed_expected. }
  rewrite (E1 (k_children c') (k_stars c')), (E2 (k_children c) (k_stars c)), H. reflexivity.
Qed.

(** ** the end *)
Lemma nf_cat : forall l, next_file (M seqt_catalogue :: l) = (false, M seqt_catalogue :: l).
Proof. intro l. reflexivity. Qed.
Lemma run_end : forall n lax algo cov s c b done c' j, cat_dump [] c = Ok (b, done) -> cat_read algo (b ++ j) = Ok (c', j) -> (s_depth s <= length (s_stack s))%nat ->
  run (S n) lax algo cov s (M seqt_catalogue :: map D b ++ map D j) = ([], if s_read s || (0 <? s_depth s)%nat then Fend (removals c') else Fwhole c').
Proof.
  intros n lax algo cov s c b done c' j Hd Hr Hs. cbn [run]. fold (next_file (M seqt_catalogue :: map D b ++ map D j)). rewrite nf_cat. cbn [negb]. unfold finish.
  destruct (Nat.ltb_spec (length (s_stack s)) (s_depth s)); [lia|]. cbn [search]. rewrite seqt_eqb_refl. rewrite map_D_app, db_all, Hr. destruct (_ || _); reflexivity.
Qed.
Lemma run_end_cut : forall n lax algo cov s c b done x y j, catalogue_ok c -> cat_dump [] c = Ok (b, done) -> M seqt_catalogue :: map D b = x ++ y -> y <> [] -> junk_ok y j ->
  exists f, run n lax algo cov s (x ++ map D j) = ([], f) /\ unfinished lax f.
Proof.
  intros n lax algo cov s c b done x y j Hc Hd E N J. destruct x as [|m x]; cbn [app] in *; [apply run_stop, nf_none|].
  injection E as <- E. destruct (map_D_split _ _ _ E) as (p & q & -> & -> & ->). assert (Q : q <> []) by (intros ->; apply N; reflexivity).
  assert (J0 : j = []) by (destruct q; [contradiction|exact J]). subst j. cbn [map]. rewrite app_nil_r.
  destruct n as [|n]; [eexists; split; [reflexivity|right; eauto]|]. cbn [run]. fold (next_file (M seqt_catalogue :: map D p)). rewrite nf_cat. cbn [negb]. eexists. split; [reflexivity|]. unfold finish.
  destruct (_ <? _)%nat; [right; eauto|]. cbn [search]. rewrite seqt_eqb_refl, db_all. pose proof (C37_truncated c algo _ done p q Hc Hd eq_refl Q) as T.
  destruct (cat_read algo p) as [[c2 r2]|e]; [exfalso; eapply T; reflexivity|right; eauto].
Qed.

(** ** the place a stream of events is cut at *)
Lemma report_done : forall st cov evs p, fst (fst (snd (report st cov p evs))) = fold_left (fun done ev => match ev with Eput r => rec_marks st done r | Eend => done end) evs (fst (fst p)).
Proof.
  intros st cov. induction evs as [|ev evs IH]; intros p; [reflexivity|]. cbn [report fold_left]. specialize (IH (snd (step_lines st cov p ev))).
  assert (E : fst (fst (snd (step_lines st cov p ev))) = match ev with Eput r => rec_marks st (fst (fst p)) r | Eend => fst (fst p) end).
  { destruct p as [[done at_] skip]. destruct ev as [r|]; cbn [step_lines].
    - destruct (dropped r); [reflexivity|]. destruct skip; [|reflexivity]. destruct (cov _ _); reflexivity.
    - destruct skip; reflexivity. }
  rewrite E in IH. destruct (step_lines st cov p ev) as [a p1]. cbn [snd] in *. destruct (report st cov p1 evs) as [b p2]. cbn [snd] in *. exact IH.
Qed.
Lemma events_cut : forall st evs done A a b, events_items st done evs = Ok A -> A = a ++ b -> b <> [] ->
  exists e1 ev e2 a1 x y z, evs = e1 ++ ev :: e2 /\ events_items st done e1 = Ok a1 /\ a = a1 ++ x /\
    event_items st (fold_left (fun done ev => match ev with Eput r => rec_marks st done r | Eend => done end) e1 done) ev = Ok (x ++ y) /\ y <> [] /\ b = y ++ z.
Proof.
  intros st. induction evs as [|ev evs IH]; intros done A a b H E N; cbn [events_items] in H.
  - injection H as <-. destruct a; [|discriminate]. cbn [app] in E. congruence.
  - assert (X : exists h t, event_items st done ev = Ok h /\ events_items st (match ev with Eput r => rec_marks st done r | Eend => done end) evs = Ok t /\ A = h ++ t).
    { destruct ev as [r|]; cbn [event_items].
      - destruct (rec_items st done r) as [h|]; [|discriminate]. cbn [bind] in H. destruct (events_items st (rec_marks st done r) evs) as [t|]; [|discriminate]. injection H as <-. eauto.
      - destruct eod_items as [h|]; [|discriminate]. cbn [bind] in H. destruct (events_items st done evs) as [t|]; [|discriminate]. injection H as <-. eauto. }
    destruct X as (h & t & Eh & Et & ->). destruct (split_at _ _ _ _ _ (eq_sym E) N) as [(z & Z & E1 & E2)|(z & E1 & E2)].
    + exists [], ev, evs, [], a, z, t. subst h. repeat split; auto.
    + destruct (IH _ t z b Et E2 N) as (e1 & ev1 & e2 & a1 & x & y & u & -> & Q1 & -> & Q2 & Q3 & Q4).
      exists (ev :: e1), ev1, e2, (h ++ a1), x, y, u. split; [reflexivity|]. split; [|split; [rewrite E1, app_assoc; reflexivity|auto]].
      cbn [events_items]. destruct ev as [r|]; cbn [event_items] in Eh; rewrite Eh; cbn [bind]; rewrite Q1; reflexivity.
Qed.
Lemma events_ok_app : forall st e1 e2 done, events_ok st done (e1 ++ e2) -> events_ok st done e1 /\
  events_ok st (fold_left (fun done ev => match ev with Eput r => rec_marks st done r | Eend => done end) e1 done) e2.
Proof.
  intros st. induction e1 as [|[r|] e1 IH]; intros e2 done H; cbn [app events_ok fold_left] in *; [auto| |].
  - destruct H as [H1 H2]. destruct (IH _ _ H2). auto.
  - auto.
Qed.
Lemma nested_app : forall e1 e2 d, nested d (e1 ++ e2) -> nested d e1.
Proof. induction e1 as [|[r|] e1 IH]; intros e2 d H; cbn [app nested] in *; auto; [eauto|]. destruct d; [contradiction|eauto]. Qed.
Lemma events_length : forall st evs done a, events_items st done evs = Ok a -> (length evs <= length a)%nat.
Proof.
  intros st. induction evs as [|ev evs IH]; intros done a H; [cbn; lia|]. cbn [events_items] in H. destruct ev as [r|].
  - unfold rec_items in H. destruct (small_dump st done (r_entry r)); [|discriminate]. cbn [bind] in H. destruct (tail_items st done r); [|discriminate]. cbn [bind] in H.
    destruct (events_items st (rec_marks st done r) evs) as [t|] eqn:E; [|discriminate]. injection H as <-. apply IH in E. cbn [app length]. rewrite app_length. lia.
  - destruct eod_dumped as (z & Ez). rewrite Ez in H. cbn [bind] in H. destruct (events_items st done evs) as [t|] eqn:E; [|discriminate]. injection H as <-. apply IH in E. cbn [app length]. rewrite app_length. lia.
Qed.
Lemma inner_head : forall c, inner_items (head_items c).
Proof. intro c. unfold head_items. apply inner_cons; [inner|]. apply inner_app. split; [apply inner_D|]. apply inner_cons; [inner|apply inner_D]. Qed.
Lemma nf_open : forall lax its its', seq_open lax its = Ok its' -> next_file its' = next_file its.
Proof.
  intros lax its its' H. unfold seq_open in H. pose proof (nf_find seqt_data_name its ltac:(inner)) as F1. destruct (find seqt_data_name its) as [ok l1]. cbn [snd] in F1.
  apply bind_ok_inv in H as (l2 & E & H).
  assert (F2 : next_file l2 = next_file its).
  { destruct ok; [destruct (label_read (data_before l1)) as [[lb rest]|]|].
    - injection E as <-. rewrite nf_D, nf_after. exact F1.
    - destruct lax; [|discriminate]. injection E as <-. exact F1.
    - destruct lax; [|discriminate]. injection E as <-. exact F1. }
  pose proof (nf_find seqt_in_place l2 ltac:(inner)) as F3. destruct (find seqt_in_place l2) as [ok2 l3]. cbn [snd] in F3. rewrite F2 in F3.
  destruct ok2; [match type of H with context[match ?t with Ok _ => _ | Err _ => _ end] => destruct t as [rest|] end|].
  - injection H as <-. rewrite nf_D, nf_after. exact F3.
  - destruct lax; [|discriminate]. injection H as <-. exact F3.
  - destruct lax; [|discriminate]. injection H as <-. exact F3.
Qed.
Lemma rel_top : forall st, rel st top (Rst [] O O false []).
Proof. intro st. unfold rel, top. cbn [s_co s_depth s_wait s_read s_stack]. split; [apply Inv_nil|]. repeat split; intro H; contradiction. Qed.

Lemma bound_ev : forall st done ev x y j, event_items st done ev = Ok (x ++ y) -> bound (x ++ map D j).
Proof.
  intros st done ev [|m x] y j H; [apply b_end|]. assert (m = M seqt_file) as ->.
  { destruct ev as [r|]; cbn [event_items] in H.
    - unfold rec_items in H. destruct (small_dump st done (r_entry r)); [|discriminate]. cbn [bind] in H. destruct (tail_items st done r); [|discriminate]. cbn [bind] in H. cbn [app] in H. congruence.
    - destruct eod_dumped as (z & Ez). rewrite Ez in H. cbn [app] in H. congruence. }
  apply (b_file []).
Qed.

Definition ending (lines : list line) (c c' : catalogue) : fin := match lines with [] => Fwhole c' | _ => Fend (removals c) end.
Lemma whole_run : forall st evs c algo cov lax full, distinct_sets st -> events_ok st [] evs -> nested 0 evs -> depth_after 0 evs = O -> catalogue_ok c -> archive_items st evs c = Ok full ->
  exists c', k_label c' = k_label c /\ k_place c' = k_place c /\ shown false (k_stars c') (root_entry c') = expected false (k_stars c) (root_entry c) /\
    forall junk, seq_read lax algo cov (full ++ map D junk) = (fst (report st cov top evs), ending (fst (report st cov top evs)) c c').
Proof.
  intros st evs c algo cov lax full HD HO HN H0 HC HA. unfold archive_items in HA. destruct (events_items st [] evs) as [a|] eqn:EA; [|discriminate]. cbn [bind] in HA.
  destruct (C37_roundtrip c algo HC) as (b & done & c' & Db & Rb & P1 & P2 & P3). rewrite Db in HA. cbn [bind] in HA. assert (full = head_items c ++ a ++ M seqt_catalogue :: map D b) as -> by congruence. clear HA.
  exists c'. split; [exact P1|]. split; [exact P2|]. split; [exact P3|]. intro junk. unfold seq_read. rewrite <- app_assoc, (open_head lax c _ HC).
  rewrite <- app_assoc. cbn [app].
  destruct (run_events st algo cov lax HD evs top (Rst [] O O false []) a (S (S (length ((a ++ M seqt_catalogue :: map D b ++ map D junk)) - length evs)) - 0) (M seqt_catalogue :: map D b ++ map D junk)
     (rel_top st) HO HN EA (b_cat [] _)) as (s' & R' & F' & G' & Q').
  rewrite Nat.sub_0_r in Q'. cbn [s_depth s_read orb] in *. pose proof (events_length _ _ _ _ EA) as LE.
  replace (length evs + S (S (length (a ++ M seqt_catalogue :: map D b ++ map D junk) - length evs)))%nat with (S (S (length (a ++ M seqt_catalogue :: map D b ++ map D junk)))) in Q' by (rewrite app_length; lia).
  rewrite Q'. rewrite H0 in G'.
  rewrite (run_end _ lax algo cov s' c b done c' junk Db (Rb junk)) by (rewrite G'; lia). unfold add_lines. cbn [fst snd]. rewrite app_nil_r, F', G'. cbn [Nat.ltb Nat.leb]. rewrite orb_false_r.
  unfold ending. rewrite (same_removals c c' P3). destruct (fst (report st cov top evs)); reflexivity.
Qed.

Lemma cut_run : forall st evs c algo cov lax full its, distinct_sets st -> events_ok st [] evs -> nested 0 evs -> catalogue_ok c -> archive_items st evs c = Ok full -> cut full its ->
  (exists junk, its = full ++ map D junk) \/
  (stopped st cov c evs its (fst (seq_read lax algo cov its)) /\ unfinished lax (snd (seq_read lax algo cov its))).
Proof.
  intros st evs c algo cov lax full its HD HO HN HC HA (u & v & j & E & -> & J). fold (junk_ok v j) in J.
  destruct v as [|v0 v1] eqn:EV; [left; exists j; rewrite app_nil_r in E; subst; reflexivity|]. right.
  assert (N : v <> []) by (subst; discriminate). rewrite <- EV in *. clear v0 v1 EV.
  unfold archive_items in HA. destruct (events_items st [] evs) as [a|] eqn:EA; [|discriminate]. cbn [bind] in HA.
  destruct (C37_roundtrip c algo HC) as (b & done & c' & Db & _). rewrite Db in HA. cbn [bind] in HA. assert (HA' : head_items c ++ a ++ M seqt_catalogue :: map D b = u ++ v) by congruence. clear HA. rename HA' into HA.
  destruct (split_at _ _ _ _ _ (eq_sym HA) N) as [(z & Z & E1 & E2)|(z & E1 & E2)].
  - (* the head *)
    assert (NF : next_file (u ++ map D j) = (false, [])).
    { rewrite nf_inner; [apply nf_none|]. pose proof (inner_head c) as IH. rewrite E1 in IH. apply inner_app in IH as [IH _]. exact IH. }
    assert (X : exists f, seq_read lax algo cov (u ++ map D j) = ([], f) /\ unfinished lax f).
    { unfold seq_read. destruct (seq_open lax (u ++ map D j)) as [its'|e] eqn:EO; [|eexists; split; [reflexivity|right; eauto]].
      apply run_stop. rewrite (nf_open _ _ _ EO). exact NF. }
    destruct X as (f & X & U). rewrite X. split; [|exact U]. cbn [fst]. eapply at_head; eauto.
  - subst u. rewrite <- app_assoc. unfold seq_read. rewrite (open_head lax c _ HC).
    destruct (split_at _ _ _ _ _ (eq_sym E2) N) as [(w & W & E3 & E4)|(w & E3 & E4)].
    + (* an event *)
      destruct (events_cut st evs [] a z w EA E3 W) as (e1 & ev & e2 & a1 & x & y & t & -> & Q1 & -> & Q2 & Q3 & Q4).
      destruct (events_ok_app _ _ _ _ HO) as [O1 O2]. assert (JY : junk_ok y j) by (subst v w; rewrite <- app_assoc in J; eapply junk_app; eauto).
      rewrite <- app_assoc. set (rest := x ++ map D j). pose proof (events_length _ _ _ _ Q1) as LE.
      destruct (run_events st algo cov lax HD e1 top (Rst [] O O false []) a1 (S (S (length (a1 ++ rest) - length e1))) rest (rel_top st) O1 (nested_app _ _ _ HN) Q1 (bound_ev _ _ _ _ _ j Q2)) as (s' & R' & F' & G' & Q').
      replace (length e1 + S (S (length (a1 ++ rest) - length e1)))%nat with (S (S (length (a1 ++ rest)))) in Q' by (rewrite app_length; lia). rewrite Q'.
      assert (ED : fst (fst (snd (report st cov top e1))) = fold_left (fun done ev => match ev with Eput r => rec_marks st done r | Eend => done end) e1 []) by (rewrite report_done; reflexivity).
      rewrite <- ED in Q2, O2.
      destruct (run_event_cut st algo cov lax (S (length (a1 ++ rest) - length e1)) _ s' ev x y j HD R' ltac:(destruct ev; [apply O2|exact I]) Q2 Q3 JY) as (more & f & Q5 & U & IP).
      fold rest in Q5. rewrite Q5. unfold add_lines. cbn [fst snd]. split; [|exact U].
      apply (at_event st cov c (e1 ++ ev :: e2) _ e1 ev e2 a1 x y j more eq_refl Q1 Q2 Q3); [reflexivity|exact IP].
    + (* the catalogue *)
      subst z. rewrite <- app_assoc. set (rest := w ++ map D j). pose proof (events_length _ _ _ _ EA) as LE.
      assert (BR : bound rest) by (unfold rest; destruct w as [|m w]; [apply b_end|cbn [app] in E4; injection E4 as <- _; apply (b_cat [])]).
      destruct (run_events st algo cov lax HD evs top (Rst [] O O false []) a (S (S (length (a ++ rest) - length evs))) rest (rel_top st) HO HN EA BR) as (s' & R' & F' & G' & Q').
      replace (length evs + S (S (length (a ++ rest) - length evs)))%nat with (S (S (length (a ++ rest)))) in Q' by (rewrite app_length; lia). rewrite Q'.
      destruct (run_end_cut (S (S (length (a ++ rest) - length evs))) lax algo cov s' c b done w v j HC Db E4 N J) as (f & Q5 & U).
      fold rest in Q5. rewrite Q5. unfold add_lines. cbn [fst snd]. rewrite app_nil_r. split; [|exact U].
      apply (at_catalogue st cov c evs _ a b done w v j EA Db E4 N). reflexivity.
Qed.
