From Coq Require Import List.
From Verif Require Import Base InfinintModel InfinintProof InfinintProof2 CrcModel CrcProof PropCrc DatetimeModel HeaderModel HeaderProof2 PathModel PropPath EscapeModel EscapeSpec EscapeProof4.
From Verif Require Import ReadStable CatModel CatSpec CatProof CatProof2 CatProof3 PropCatalogue SeqModel SeqSpec SeqProof SeqProof2.
Import ListNotations.
Open Scope N_scope.

(** ** the marks of a tail *)
Definition inner_items (l : list item) : Prop := Forall (fun x => match x with D _ => True | M t => inner t | Bad => False end) l.
Lemma inner_app : forall a b, inner_items (a ++ b) <-> inner_items a /\ inner_items b.
Proof. intros. apply Forall_app. Qed.
Lemma inner_D : forall d, inner_items (map D d).
Proof. intro d. apply Forall_forall. intros x H. apply in_map_iff in H as (b & <- & _). exact I. Qed.
Lemma inner_cons : forall t l, inner t -> inner_items l -> inner_items (M t :: l).
Proof. intros. constructor; assumption. Qed.
Lemma nf_inner : forall a l, inner_items a -> next_file (a ++ l) = next_file l.
Proof.
  induction a as [|[b|t|] a IH]; intros l H; [reflexivity| | |]; inversion H; subst; cbn [app].
  - exact (IH l H3).
  - rewrite nf_M by assumption. apply IH. assumption.
  - contradiction.
Qed.
Lemma inner_copy : forall c a, copy_items c = Ok a -> inner_items a.
Proof.
  intros c a H. destruct (copy_dump c) as (k & _ & E). rewrite E in H. injection H as <-. apply inner_app. split; [apply inner_D|]. apply inner_cons; [inner|apply inner_D].
Qed.
Lemma inner_wasted : forall w a, wasted_items w = Ok a -> inner_items a.
Proof.
  induction w as [|c w IH]; intros a H; cbn [wasted_items] in H; [injection H as <-; constructor|].
  destruct (copy_items c) as [a1|] eqn:E; [|discriminate]. destruct (wasted_items w) as [a2|]; [|discriminate]. injection H as <-.
  apply inner_app. split; [eapply inner_copy; eauto|]. apply inner_cons; [inner|auto].
Qed.
Lemma inner_sig : forall s, inner_items (sig_items s).
Proof. intros [b|]; [|constructor]. apply inner_cons; [inner|apply inner_D]. Qed.
Lemma inner_ea : forall i l x, ea_items i l = Ok x -> inner_items x.
Proof.
  intros i l x H. unfold ea_items in H. destruct (i_ea i); try (injection H as <-; constructor). destruct (opt_bug (i_ea_size i)); [|discriminate]. cbn [bind] in H.
  destruct (crc_of _ _) as [k|]; [|discriminate]. injection H as <-. apply inner_cons; [inner|]. apply inner_app. split; [apply inner_D|]. apply inner_cons; [inner|apply inner_D].
Qed.
Lemma inner_tail : forall st done r t, tail_items st done r = Ok t -> inner_items t.
Proof.
  intros st done r t H. unfold tail_items in H. destruct (r_body r) as [|w|w d|w la dy].
  - destruct (written st done (r_entry r)) as [i|]; [|injection H as <-; constructor]. destruct (ea_items i (r_ea r)) eqn:E; [|discriminate]. injection H as <-.
    apply inner_app. split; [apply inner_sig|eapply inner_ea; eauto].
  - destruct (wasted_items w) eqn:E; [|discriminate]. injection H as <-. apply inner_app. split; [eapply inner_wasted; eauto|]. apply inner_cons; [inner|constructor].
  - destruct (wasted_items w) eqn:E; [|discriminate]. injection H as <-. apply inner_app. split; [eapply inner_wasted; eauto|apply inner_D].
  - destruct (written st done (r_entry r)) as [i|]; [|discriminate]. destruct (wasted_items w) eqn:E; [|discriminate]. destruct (copy_items la) eqn:E2; [|discriminate].
    destruct (ea_items i (r_ea r)) eqn:E3; [|discriminate]. injection H as <-. rewrite !inner_app. split; [eapply inner_wasted; eauto|]. split; [eapply inner_copy; eauto|].
    split; [|split; [apply inner_sig|eapply inner_ea; eauto]]. destruct dy; [apply inner_cons; [inner|constructor]|constructor].
Qed.

(** ** the outcome for a complete entry *)
Definition like (i i' : cinode) : Prop := i_saved i' = i_saved i /\ i_ea i' = i_ea i /\ (i_ea i = EAfull -> i_ea_size i' = i_ea_size i).
Lemma unknown_written : forall st done e i size, inode_of st e = Some (i, size) -> known done e = false -> written st done e = Some i.
Proof.
  intros st done e i size H K. destruct e; cbn [inode_of written known] in *; try congruence. rewrite K. destruct (st star); [|discriminate]. cbn [option_map] in H. congruence.
Qed.
Lemma tail_dumped : forall st done r, rec_ok st done r -> exists t, tail_items st done r = Ok t.
Proof.
  intros st done r (_ & i & size & Hi & _ & _ & _ & Hb & He). unfold tail_items. destruct (r_body r) as [|w|w d|w la dy].
  - destruct (written st done (r_entry r)) as [i0|] eqn:W; [|eexists; reflexivity].
    assert (i0 = i) as ->.
    { destruct (known done (r_entry r)) eqn:K; [|rewrite (unknown_written _ _ _ _ _ Hi K) in W; congruence].
      destruct (r_entry r); cbn [known written] in *; try discriminate. rewrite K in W. discriminate. }
    destruct (ea_dumped i (r_ea r) He) as (x & ->). eexists. reflexivity.
  - destruct (wasted_dump w) as (a & ->). eexists. reflexivity.
  - destruct (wasted_dump w) as (a & ->). eexists. reflexivity.
  - destruct Hb as (K & _). rewrite (unknown_written _ _ _ _ _ Hi K). destruct (wasted_dump w) as (a & ->). destruct (copy_dump la) as (k & _ & ->). destruct (ea_dumped i (r_ea r) He) as (x & ->).
    eexists. reflexivity.
Qed.
Lemma left_find : forall i s rest t, inner t -> t <> seqt_delta_sig -> bound rest -> fst (find t (left_over i s rest)) = false /\
  (snd (find t (left_over i s rest)) = left_over i s rest \/ bound (snd (find t (left_over i s rest)))).
Proof.
  intros i s rest t Ht Hd B. unfold left_over. destruct (i_ea i), s as [b|]; unfold sig_items; cbn [app]; try (split; [apply bound_find; assumption|right; apply bound_after; assumption]);
    (rewrite find_miss by congruence; split; [reflexivity|left; reflexivity]).
Qed.
Lemma two_finds : forall i s rest, bound rest -> exists l, find seqt_changed (left_over i s rest) = (false, l) /\ fst (find seqt_dirty l) = false.
Proof.
  intros i s rest B. destruct (left_find i s rest seqt_changed ltac:(inner) ltac:(discriminate) B) as [F1 F2].
  destruct (find seqt_changed (left_over i s rest)) as [b l]. cbn [fst snd] in *. subst b. exists l. split; [reflexivity|]. destruct F2 as [->|B2].
  - apply (left_find i s rest seqt_dirty ltac:(inner) ltac:(discriminate) B).
  - apply bound_find; [inner|exact B2].
Qed.
Lemma finish_ok : forall (A : Type) (d : option (list N)) (x : option eas) (its : list item) l k b size i, find seqt_changed its = (false, l) -> fst (find seqt_dirty l) = false ->
  fst (let '(ag, its) := find seqt_changed its in
         if ag && again (Wok d x) then copies k b size i its
         else let '(dy, its) := find seqt_dirty its in (Odone d dy x, its)) = Odone d false x.
Proof.
  intros A d x its l k b size i H1 H2. rewrite H1. cbn [andb]. destruct (find seqt_dirty l) as [dy l2]. cbn [fst] in *. subst dy. reflexivity.
Qed.
Lemma bad_copies : forall k b size i its its', write b size i its = (Wbad, its') -> fst (copies (S k) b size i its) = Oerr.
Proof. intros k b size i its its' H. rewrite copies_S, H. destruct (find seqt_changed its') as [ag l]. destruct ag; reflexivity. Qed.

Lemma tail_read : forall st done r t rest i size i', rec_ok st done r -> tail_items st done r = Ok t -> bound rest -> dropped r = false ->
  known done (r_entry r) = false -> inode_of st (r_entry r) = Some (i, size) -> like i i' ->
  fst (restore_inode (opens (r_entry r)) size i' (t ++ rest)) = restored st done r.
Proof.
  intros st done r t rest i size i' Hr Ht B Dr K Hi (L1 & L2 & L3). destruct Hr as (_ & i0 & size0 & Hi0 & _ & Hset & Hdir & Hb & He).
  rewrite Hi in Hi0. injection Hi0 as <- <-. unfold restored. rewrite Hi, K.
  assert (OD : opens (r_entry r) = true -> size = None) by (destruct (r_entry r); cbn [opens inode_of] in *; congruence).
  unfold tail_items in Ht. rewrite (unknown_written _ _ _ _ _ Hi K) in Ht. unfold restore_inode. rewrite L1.
  destruct (r_body r) as [|w|w d|w la dy] eqn:EB.
  - (* no data *)
    destruct (ea_items i (r_ea r)) as [x|] eqn:Ex; [|discriminate]. cbn [bind] in Ht. injection Ht as <-. rewrite <- app_assoc.
    assert (G : fst (let '(w, its) := write_new None i' (sig_items (r_sig r) ++ x ++ rest) in
       match w with
       | Whang => (Ohang, its) | Wundef => (Oundef, its)
       | _ => let '(ag, its) := find seqt_changed its in
              if ag && again w then copies (length (sig_items (r_sig r) ++ x ++ rest)) (opens (r_entry r)) size i' its
              else match w with Wok d x => let '(dy, its) := find seqt_dirty its in (Odone d dy x, its) | _ => (Oerr, its) end
       end) = Odone None false (attributes i (r_ea r))).
    { unfold write_new. rewrite (ea_got i i' (r_ea r) (r_sig r) x rest He Ex L2 L3). destruct (two_finds i (r_sig r) rest B) as (l & F1 & F2). eapply (finish_ok N); eauto. }
    destruct (i_saved i) eqn:ES; cbn [idle andb negb].
    + rewrite andb_false_r. rewrite copies_S. unfold write. rewrite L1. destruct Hb as [Hb|[Hb|Hb]]; [congruence| |discriminate]. rewrite Hb in *. exact G.
    + rewrite andb_false_r. apply bad_copies with (its' := sig_items (r_sig r) ++ x ++ rest). unfold write. rewrite L1. reflexivity.
    + destruct (opens (r_entry r)) eqn:EO; cbn [andb negb]; [|reflexivity]. rewrite copies_S. unfold write. rewrite L1. rewrite (OD eq_refl) in *. exact G.
    + destruct (opens (r_entry r)) eqn:EO; cbn [andb negb]; [|reflexivity]. rewrite copies_S. unfold write. rewrite L1. rewrite (OD eq_refl) in *. exact G.
    + rewrite andb_false_r. apply bad_copies with (its' := sig_items (r_sig r) ++ x ++ rest). unfold write. rewrite L1. reflexivity.
  - (* not opened at a further try *)
    destruct (wasted_items w) as [a|] eqn:Ew; [|discriminate]. cbn [bind] in Ht. injection Ht as <-. destruct Hb as (k & z & Hk & -> & Hst & W).
    assert (EO : opens (r_entry r) = false) by (rewrite Hk; reflexivity). rewrite EO in *.
    destruct (i_saved i) eqn:ES; try discriminate; cbn [idle andb negb].
    + rewrite <- app_assoc. rewrite (copies_all_wasted w a _ z i' _ ltac:(congruence) Ew W) by (pose proof (wasted_length w a Ew); rewrite app_length; lia).
      match goal with |- context[copies ?k _ _ _ _] => replace k with (S (pred k)) by (pose proof (wasted_length w a Ew); rewrite app_length; lia) end.
      eapply bad_copies. unfold write, write_new, data_get. rewrite L1. cbn [app]. rewrite find_miss by discriminate. reflexivity.
    + eapply bad_copies. unfold write. rewrite L1. reflexivity.
  - (* read error *)
    destruct (wasted_items w) as [a|] eqn:Ew; [|discriminate]. cbn [bind] in Ht. injection Ht as <-. destruct Hb as (k & z & Hk & -> & Hst & W).
    assert (EO : opens (r_entry r) = false) by (rewrite Hk; reflexivity). rewrite EO in *.
    destruct (i_saved i) eqn:ES; try discriminate; cbn [idle andb negb].
    + rewrite <- app_assoc. rewrite (copies_all_wasted w a _ z i' _ ltac:(congruence) Ew W) by (pose proof (wasted_length w a Ew); rewrite app_length; lia).
      match goal with |- context[copies ?k _ _ _ _] => replace k with (S (pred k)) by (pose proof (wasted_length w a Ew); rewrite app_length; lia) end.
      pose proof (bound_find seqt_file_crc rest ltac:(inner) B) as BF. destruct (find seqt_file_crc rest) as [ok l] eqn:FF. cbn [fst] in BF. subst ok.
      eapply bad_copies. unfold write, write_new, data_get. rewrite L1. rewrite find_D, FF. reflexivity.
    + eapply bad_copies. unfold write. rewrite L1. reflexivity.
  - (* data *)
    destruct (wasted_items w) as [a|] eqn:Ew; [|discriminate]. destruct (copy_items la) as [l0|] eqn:El; [|discriminate]. destruct (ea_items i (r_ea r)) as [x|] eqn:Ex; [|discriminate].
    cbn [bind] in Ht. injection Ht as <-. destruct Hb as (_ & Hst & (z & -> & W) & Hdy).
    assert (EO : opens (r_entry r) = false) by (destruct (opens (r_entry r)); [discriminate (OD eq_refl)|reflexivity]). rewrite EO in *.
    apply Forall_app in W as [W1 W2]. inversion W2 as [|? ? W3 _]; subst.
    destruct (i_saved i) eqn:ES; try discriminate; cbn [idle andb negb].
    + rewrite <- app_assoc. rewrite (copies_all_wasted w a _ z i' _ ltac:(congruence) Ew W1) by (pose proof (wasted_length w a Ew); rewrite app_length; lia).
      match goal with |- context[copies ?k _ _ _ _] => replace k with (S (pred k)) by (pose proof (wasted_length w a Ew); rewrite app_length; lia) end.
      rewrite copies_S. unfold write, write_new. rewrite L1. rewrite <- app_assoc. rewrite (copy_read z la l0 _ El W3). cbn [bind].
      destruct dy.
      * cbn [app]. specialize (Hdy eq_refl). assert (EA : ea_get i' (M seqt_dirty :: (sig_items (r_sig r) ++ x) ++ rest) = (Ok (attributes i (r_ea r)), M seqt_dirty :: (sig_items (r_sig r) ++ x) ++ rest)).
        { unfold ea_get, attributes. rewrite L2. destruct (i_ea i); try reflexivity. contradiction. }
        rewrite EA. rewrite find_miss by discriminate. cbn [andb]. rewrite find_hit. reflexivity.
      * cbn [app]. rewrite <- app_assoc. rewrite (ea_got i i' (r_ea r) (r_sig r) x rest He Ex L2 L3). destruct (two_finds i (r_sig r) rest B) as (l & F1 & F2). eapply (finish_ok N); eauto.
    + eapply bad_copies. unfold write. rewrite L1. reflexivity.
Qed.
