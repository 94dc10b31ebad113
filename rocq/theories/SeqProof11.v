From Coq Require Import List.
From Verif Require Import Base InfinintModel InfinintProof InfinintProof2 CrcModel CrcProof PropCrc DatetimeModel HeaderModel HeaderProof2 PathModel PropPath EscapeModel EscapeSpec EscapeProof4.
From Verif Require Import ReadStable CatModel CatSpec CatProof CatProof2 CatProof3 PropCatalogue SeqModel SeqSpec SeqProof SeqProof2 SeqProof3 SeqProof4 SeqProof5 SeqProof6 SeqProof7.
Import ListNotations.
Open Scope N_scope.

(** ** each step leaves an end of the stream *)
Definition tail_of (a b : list item) : Prop := exists p, a = p ++ b.
Lemma to_refl : forall a, tail_of a a.
Proof. intro a. exists []. reflexivity. Qed.
Lemma to_trans : forall a b c, tail_of a b -> tail_of b c -> tail_of a c.
Proof. intros a b c [p ->] [q ->]. exists (p ++ q). apply app_assoc. Qed.
Lemma to_cons : forall x a b, tail_of a b -> tail_of (x :: a) b.
Proof. intros x a b [p ->]. exists (x :: p). reflexivity. Qed.
Lemma to_search : forall t jump u l, tail_of l (snd (search t jump u l)).
Proof.
  intros t jump u. induction l as [|[b|t'|] l IH]; cbn [search]; try (apply to_cons; exact IH); [apply to_refl|].
  destruct (seqt_eqb t' t); [apply to_cons, to_refl|]. destruct (jump && _); [apply to_cons; exact IH|apply to_refl].
Qed.
Lemma to_find : forall t l, tail_of l (snd (find t l)).
Proof. intros. apply to_search. Qed.
Lemma to_after : forall l, tail_of l (after_data l).
Proof. intro l. exists (map D (data_before l)). symmetry. apply split_data. Qed.
Lemma to_rest : forall l p r, data_before l = p ++ r -> tail_of l (map D r ++ after_data l).
Proof. intros l p r H. exists (map D p). rewrite app_assoc, map_D_app, <- H. symmetry. apply split_data. Qed.
Lemma to_crc : forall l k r, crc_get (data_before l) = Ok (k, r) -> tail_of l (map D r ++ after_data l).
Proof. intros l k r H. destruct (framed_crc_get _ _ _ H) as (p & E & _). eapply to_rest; eauto. Qed.
Lemma to_small : forall algo co l e co' r, small_read algo co (data_before l) = Ok (Some (e, co', r)) -> tail_of l (map D r ++ after_data l).
Proof.
  intros algo co l e co' r H. apply C37_sequential_checked in H as (b & t & k & E & Hc & _). destruct (framed_crc_get _ _ _ Hc) as (p & -> & _). apply (to_rest l (b ++ p)). rewrite <- app_assoc. exact E.
Qed.
(** a search that succeeds *)
Lemma find_found : forall t l l', find t l = (true, l') -> ~ In Bad l -> l = map D (data_before l) ++ M t :: l'.
Proof.
  intros t. unfold find. induction l as [|[b|t'|] l IH]; intros l' H NB; cbn [search] in H; [discriminate| | |].
  - cbn [data_before map app]. f_equal. apply IH; [exact H|]. intro. apply NB. right. assumption.
  - cbn [data_before map app]. unfold seqt_eqb in H. destruct (seqt_eq_dec t' t) as [->|]; [congruence|discriminate].
  - exfalso. apply NB. left. reflexivity.
Qed.
Lemma to_bad : forall a b, tail_of a b -> ~ In Bad a -> ~ In Bad b.
Proof. intros a b [p ->] H I. apply H, in_or_app. right. exact I. Qed.

Lemma data_vouched : forall size l d l', data_get size l = (Ok d, l') -> ~ In Bad l -> vouched_data l d.
Proof.
  intros size l d l' H NB. unfold data_get in H. destruct (find seqt_file_crc l) as [ok its] eqn:F. destruct ok; cbn [negb] in H; [|discriminate].
  destruct (crc_get (data_before its)) as [[k rest]|[]] eqn:EC; try discriminate. destruct (crc_of_ok (crc_width size) (data_before l) (width_pos size)) as (k' & E' & CK). rewrite E' in H.
  destruct (crc_eq k' k) eqn:Q; [|discriminate]. injection H as <- _. apply crc_eq_true in Q.
  exists [], its, k, rest, (crc_width size). split; [apply find_found; assumption|]. split; [exact EC|]. split; [apply width_pos|]. congruence.
Qed.
Lemma to_data : forall size l, tail_of l (snd (data_get size l)).
Proof.
  intros size l. unfold data_get. pose proof (to_find seqt_file_crc l) as F. destruct (find seqt_file_crc l) as [ok its]. cbn [snd] in F. destruct ok; cbn [negb snd]; [|exact F].
  destruct (crc_get (data_before its)) as [[k rest]|[]] eqn:EC; cbn [snd]; try exact F. pose proof (to_trans _ _ _ F (to_crc _ _ _ EC)) as T.
  destruct (crc_of _ _) as [k'|]; [destruct (crc_eq k' k)|]; exact T.
Qed.
Lemma rss_rest : forall fuel st s r, rss_loop fuel st = Ok (s, r) -> exists p, snd st = p ++ r.
Proof.
  induction fuel as [|fuel IH]; intros st s r H; cbn [rss_loop] in H; [discriminate|].
  assert (T : exists p, snd st = p ++ snd (rss_turn st)).
  { destruct st as [[[small taille] s0] f]. unfold rss_turn. destruct (0 <? small).
    - cbn [snd]. match goal with |- context[skipn ?n f] => exists (firstn n f) end. symmetry. apply firstn_skipn.
    - exists []. reflexivity. }
  destruct T as (p & T). rewrite T. destruct (rss_turn st) as [[[small taille] s0] f] eqn:ET. cbn [snd]. destruct (0 <? small).
  - destruct (IH _ _ _ H) as (q & Q). cbn [snd] in Q. rewrite Q. exists (p ++ q). apply app_assoc.
  - injection H as _ <-. exists p. reflexivity.
Qed.
Lemma ea_rest : forall fuel n acc f l r, ea_pairs fuel n acc f = Ok (l, r) -> exists p, f = p ++ r.
Proof.
  induction fuel as [|fuel IH]; intros n acc f l r H; cbn [ea_pairs] in H; [discriminate|]. destruct (n =? 0); [injection H as <- <-; exists []; reflexivity|].
  apply bind_ok_inv in H as ([key f1] & E1 & H). apply bind_ok_inv in H as ([len f2] & E2 & H). apply bind_ok_inv in H as ([v f3] & E3 & H).
  destruct (framed_read_string _ _ _ E1) as (p1 & -> & _). destruct (framed_readN _ _ _ E2) as (p2 & -> & _).
  apply rss_rest in E3 as (p3 & E3). cbn [snd] in E3. subst f2. destruct (IH _ _ _ _ _ H) as (p4 & ->). exists (p1 ++ p2 ++ p3 ++ p4). rewrite <- !app_assoc. reflexivity.
Qed.
Lemma ea_read_rest : forall f l r, ea_read f = Ok (l, r) -> exists p, f = p ++ r.
Proof.
  intros f l r H. unfold ea_read in H. apply bind_ok_inv in H as ([n f1] & E1 & H). destruct (framed_readN _ _ _ E1) as (p1 & -> & _). destruct (ea_rest _ _ _ _ _ _ H) as (p2 & ->).
  exists (p1 ++ p2). apply app_assoc.
Qed.
Lemma to_ea : forall i l, tail_of l (snd (ea_get i l)).
Proof.
  intros i l. unfold ea_get. destruct (i_ea i); try apply to_refl.
  pose proof (to_find seqt_delta_sig l) as F1. destruct (find seqt_delta_sig l) as [ok its]. cbn [snd] in F1.
  pose proof (to_trans _ _ _ F1 (to_find seqt_ea its)) as F2. destruct (find seqt_ea its) as [ok2 its2]. cbn [snd] in F2. destruct ok2; cbn [negb snd]; [|exact F2].
  destruct (ea_read (data_before its2)) as [[e rest]|[]]; cbn [snd]; try exact F2. destruct (crc_of _ _) as [k|]; [|exact F2].
  pose proof (to_trans _ _ _ F2 (to_find seqt_ea_crc its2)) as F3. destruct (find seqt_ea_crc its2) as [ok3 its3]. cbn [snd] in F3. destruct ok3; cbn [negb snd]; [|exact F3].
  destruct (crc_get (data_before its3)) as [[k' rest']|[]] eqn:EC; cbn [snd]; try exact F3. exact (to_trans _ _ _ F3 (to_crc _ _ _ EC)).
Qed.
Lemma ea_vouched : forall i l m l', ea_get i l = (Ok (Some m), l') -> ~ In Bad l -> m = [] \/ vouched_ea l m.
Proof.
  intros i l m l' H NB. unfold ea_get in H. destruct (i_ea i); try discriminate; [right|left; congruence].
  pose proof (to_find seqt_delta_sig l) as F1. destruct (find seqt_delta_sig l) as [ok its] eqn:E1. cbn [snd] in F1. pose proof (to_bad _ _ F1 NB) as NB1.
  destruct (find seqt_ea its) as [ok2 its2] eqn:E2. destruct ok2; cbn [negb] in H; [|discriminate].
  pose proof (find_found _ _ _ E2 NB1) as S2. pose proof (to_find seqt_ea its) as F2. rewrite E2 in F2. cbn [snd] in F2. pose proof (to_bad _ _ F2 NB1) as NB2.
  destruct (ea_read (data_before its2)) as [[e left]|[]] eqn:ER; try discriminate.
  destruct (ea_read_rest _ _ _ ER) as (b & EB).
  set (w := match i_ea_size i with Some s => if s =? 0 then 2%nat else crc_width s | None => 2%nat end) in *.
  assert (W : w <> 0%nat) by (unfold w; destruct (i_ea_size i) as [s|]; [destruct (s =? 0); [discriminate|apply width_pos]|discriminate]).
  assert (FB : firstn (length (data_before its2) - length left) (data_before its2) = b) by (rewrite EB; apply firstn_app_exact_n; rewrite app_length; lia). rewrite FB in H.
  destruct (crc_of_ok w b W) as (k & EK & CK). rewrite EK in H. destruct (find seqt_ea_crc its2) as [ok3 its3] eqn:E3. destruct ok3; cbn [negb] in H; [|discriminate].
  pose proof (find_found _ _ _ E3 NB2) as S3. destruct (crc_get (data_before its3)) as [[k' rest']|[]] eqn:EC; try discriminate.
  destruct (crc_eq k k') eqn:Q; [|discriminate]. injection H as <- _. apply crc_eq_true in Q. destruct F1 as (p0 & P0).
  exists (p0 ++ map D (data_before its)), b, left, its3, k', rest', w. split; [|split; [rewrite <- EB; exact ER|split; [exact EC|split; [exact W|congruence]]]].
  rewrite P0, <- app_assoc. f_equal. rewrite S2 at 1. f_equal. f_equal. rewrite <- EB. exact S3.
Qed.
Definition vouched (its : list item) (o : outcome) : Prop :=
  match o with
  | Odone d _ x => (forall b, d = Some b -> vouched_data its b) /\ (forall m, x = Some m -> m = [] \/ vouched_ea its m)
  | _ => True
  end.
Lemma vouched_to : forall a b o, tail_of a b -> vouched b o -> vouched a o.
Proof.
  intros a b [| | |d dy x| | |] [p ->] H; cbn [vouched] in *; auto. destruct H as [H1 H2]. split.
  - intros c E. destruct (H1 c E) as (p1 & q & k & r & w & -> & X). exists (p ++ p1), q, k, r, w. rewrite <- app_assoc. auto.
  - intros m E. destruct (H2 m E) as [?|(p1 & c & lf & q & k & r & w & -> & X)]; [auto|]. right. exists (p ++ p1), c, lf, q, k, r, w. rewrite <- app_assoc. auto.
Qed.
Lemma write_new_sound : forall size i l, ~ In Bad l -> tail_of l (snd (write_new size i l)) /\
  forall d x, fst (write_new size i l) = Wok d x -> forall dy, vouched l (Odone d dy x).
Proof.
  intros size i l NB. unfold write_new. destruct size as [z|].
  - pose proof (to_data z l) as T. destruct (data_get z l) as [[b|e] l1] eqn:E; cbn [snd bind] in *.
    + pose proof (data_vouched _ _ _ _ E NB) as V. pose proof (to_ea i l1) as T2. pose proof (to_bad _ _ T NB) as NB1. destruct (ea_get i l1) as [[y|[]] l2] eqn:E2; cbn [fst snd] in *; (split; [eapply to_trans; eauto|]); try discriminate.
      intros d x H dy. injection H as <- <-. cbn [vouched]. split; [intros b0 Q; injection Q as <-; exact V|]. intros m Q. subst y.
      destruct (ea_vouched _ _ _ _ E2 NB1) as [|X]; [auto|]. pose proof (vouched_to l l1 (Odone None false (Some m)) T) as Y. cbn [vouched] in Y. apply Y; [|reflexivity]. split; [discriminate|]. intros m0 Q; injection Q as <-. auto.
    + destruct e; cbn [fst snd]; split; try exact T; discriminate.
  - cbn [bind]. pose proof (to_ea i l) as T2. destruct (ea_get i l) as [[y|[]] l2] eqn:E2; cbn [fst snd] in *; (split; [exact T2|]); try discriminate.
    intros d x H dy. injection H as <- <-. cbn [vouched]. split; [discriminate|]. intros m Q. subst y. eapply ea_vouched; eauto.
Qed.
Lemma copies_sound : forall k b size i l, ~ In Bad l -> tail_of l (snd (copies k b size i l)) /\ vouched l (fst (copies k b size i l)).
Proof.
  induction k as [|k IH]; intros b size i l NB; [split; [apply to_refl|exact I]|]. rewrite copies_ended.
  assert (W : tail_of l (snd (write b size i l)) /\ forall d x, fst (write b size i l) = Wok d x -> forall dy, vouched l (Odone d dy x)).
  { unfold write. destruct (i_saved i); try (cbn [fst snd]; split; [apply to_refl|discriminate]); try (apply write_new_sound; exact NB).
    all: destruct b; [apply write_new_sound; exact NB|cbn [fst snd]; split; [apply to_refl|discriminate]]. }
  destruct (write b size i l) as [w l1]. cbn [fst snd] in W. destruct W as [W1 W2]. unfold ended.
  pose proof (to_trans _ _ _ W1 (to_find seqt_changed l1)) as T. destruct (find seqt_changed l1) as [ag l2]. cbn [snd] in T.
  assert (R : tail_of l (snd (copies k b size i l2)) /\ vouched l (fst (copies k b size i l2))).
  { destruct (IH b size i l2 (to_bad _ _ T NB)) as [I1 I2]. split; [eapply to_trans; eauto|eapply vouched_to; eauto]. }
  destruct w; cbn [again]; try (split; [exact W1|exact I]); destruct (ag && _); try exact R; try (cbn [fst snd]; split; [exact T|exact I]).
  pose proof (to_trans _ _ _ T (to_find seqt_dirty l2)) as T3. destruct (find seqt_dirty l2) as [dy l3]. cbn [fst snd] in *. split; [exact T3|]. apply W2. reflexivity.
Qed.
Lemma inode_sound : forall b size i l, ~ In Bad l -> tail_of l (snd (restore_inode b size i l)) /\ vouched l (fst (restore_inode b size i l)).
Proof.
  intros. unfold restore_inode. destruct (negb b && idle (i_saved i)); [|apply copies_sound; assumption]. cbn [fst snd]. split; [|exact I]. unfold after_idle. eapply to_trans; apply to_find.
Qed.
Lemma entry_sound : forall co0 co e l, ~ In Bad l -> tail_of l (snd (restore_entry co0 co e l)) /\ vouched l (fst (restore_entry co0 co e l)).
Proof.
  intros co0 co e l NB. destruct e as [i k|i ch|n a|n s d|n|i]; cbn [restore_entry]; try (apply inode_sound; exact NB); try (cbn [fst snd]; split; [apply to_refl|exact I]).
  - destruct (lookup a co) as [s|]; [|split; [apply to_refl|exact I]]. destruct (lookup (st_etiq s) co0); [|apply inode_sound; exact NB]. destruct (i_saved (st_ino s)); try (apply inode_sound; exact NB).
    split; [|exact I]. unfold after_idle. cbn [snd]. eapply to_trans; apply to_find.
  - cbn [fst snd]. split; [|exact I]. unfold after_idle. eapply to_trans; apply to_find.
Qed.
Lemma run_sound : forall n lax algo cov s its, ~ In Bad its -> Forall (fun l => vouched its (l_out l)) (fst (run n lax algo cov s its)).
Proof.
  induction n as [|n IH]; intros lax algo cov s its NB; [constructor|]. cbn [run]. pose proof (to_search seqt_file true UNJ its) as T0. destruct (search seqt_file true UNJ its) as [ok l]. cbn [snd] in T0.
  assert (G : forall s' l', tail_of l l' -> Forall (fun x => vouched its (l_out x)) (fst (run n lax algo cov s' l'))).
  { intros s' l' T. pose proof (to_trans _ _ _ T0 T) as T1. eapply Forall_impl; [|apply IH; exact (to_bad _ _ T1 NB)]. intros x V. eapply vouched_to; eauto. }
  destruct ok; cbn [negb]; [|constructor]. destruct (small_read algo (s_co s) (data_before l)) as [[[[x co] rest]|]|e] eqn:ES.
  - destruct (next_failed rest (after_data l)); [apply G, to_after|]. pose proof (to_small _ _ _ _ _ _ ES) as T1. set (l1 := map D rest ++ after_data l) in *. destruct x as [e|].
    + assert (NB1 : ~ In Bad l1) by (exact (to_bad _ _ (to_trans _ _ _ T0 T1) NB)).
      destruct (0 <? s_wait s)%nat; [destruct (_ <? _)%nat; [constructor|apply G; exact T1]|]. destruct (cov _ _).
      * destruct (entry_sound (s_co s) co e l1 NB1) as [E1 E2]. destruct (restore_entry (s_co s) co e l1) as [o l2]. cbn [fst snd] in E1, E2. unfold cons_line. cbn [fst]. constructor.
        -- cbn [l_out]. eapply vouched_to; [exact (to_trans _ _ _ T0 T1)|exact E2].
        -- destruct o; try constructor; apply G; exact (to_trans _ _ _ T1 E1).
      * unfold cons_line. cbn [fst]. constructor; [exact I|apply G; exact T1].
    + destruct (s_depth s) as [|d]; [destruct lax; [apply G; exact T1|constructor]|]. destruct (0 <? s_wait s)%nat; [apply G; exact T1|]. destruct (s_stack s); [constructor|apply G; exact T1].
  - destruct (next_failed _ _); [apply G, to_after|constructor].
  - destruct (lax && erange e); [apply G, to_refl|constructor].
Qed.
Lemma to_open : forall lax its its', seq_open lax its = Ok its' -> tail_of its its'.
Proof.
  intros lax its its' H. unfold seq_open in H. pose proof (to_find seqt_data_name its) as F1. destruct (find seqt_data_name its) as [ok l1]. cbn [snd] in F1.
  apply bind_ok_inv in H as (l2 & E & H).
  assert (F2 : tail_of its l2).
  { destruct ok; [destruct (label_read (data_before l1)) as [[lb rest]|] eqn:EL|].
    - injection E as <-. destruct (framed_label_read _ _ _ EL) as (p & EP & _). exact (to_trans _ _ _ F1 (to_rest _ _ _ EP)).
    - destruct lax; [|discriminate]. injection E as <-. exact F1.
    - destruct lax; [|discriminate]. injection E as <-. exact F1. }
  pose proof (to_trans _ _ _ F2 (to_find seqt_in_place l2)) as F3. destruct (find seqt_in_place l2) as [ok2 l3]. cbn [snd] in F3.
  destruct ok2.
  - destruct (read_string (data_before l3)) as [[s rest]|] eqn:ES; cbn [bind] in H.
    + destruct (framed_read_string _ _ _ ES) as (p & EP & _). pose proof (to_trans _ _ _ F3 (to_rest _ _ _ EP)) as F4. destruct (path_make s false); cbn [bind] in H.
      * destruct (_ && _) in H; [destruct lax; [|discriminate]; injection H as <-; exact F3|injection H as <-; exact F4].
      * destruct lax; [|discriminate]. injection H as <-. exact F3.
    + destruct lax; [|discriminate]. injection H as <-. exact F3.
  - destruct lax; [|discriminate]. injection H as <-. exact F3.
Qed.
