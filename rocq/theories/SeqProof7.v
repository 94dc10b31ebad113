From Coq Require Import List.
From Verif Require Import Base InfinintModel InfinintProof InfinintProof2 CrcModel CrcProof PropCrc DatetimeModel HeaderModel HeaderProof2 PathModel PropPath EscapeModel EscapeSpec EscapeProof4.
From Verif Require Import ReadStable CatModel CatSpec CatProof CatProof2 CatProof3 PropCatalogue SeqModel SeqSpec SeqProof SeqProof2 SeqProof3 SeqProof4 SeqProof5 SeqProof6.
Import ListNotations.
Open Scope N_scope.

(** ** EA cut short *)
Lemma find_absent : forall t l, ~ In (M t) l -> fst (find t l) = false.
Proof.
  intros t l. unfold find. induction l as [|[b|t'|] l IH]; intro H; cbn [search].
  - reflexivity.
  - apply IH. intro. apply H. right. assumption.
  - rewrite seqt_eqb_neq by (intros ->; apply H; left; reflexivity). reflexivity.
  - apply IH. intro. apply H. right. assumption.
Qed.
Lemma find_incl : forall t l, incl (snd (find t l)) l.
Proof.
  intros t l. unfold find. induction l as [|[b|t'|] l IH]; cbn [search].
  - apply incl_refl.
  - apply incl_tl. exact IH.
  - destruct (seqt_eqb t' t); cbn [andb snd]; [apply incl_tl|]; apply incl_refl.
  - apply incl_tl. exact IH.
Qed.
Lemma marks_D : forall t d l, In (M t) (map D d ++ l) -> In (M t) l.
Proof. intros t d l H. apply in_app_or in H as [H|H]; [|exact H]. apply in_map_iff in H as (x & E & _). discriminate. Qed.
Lemma marks_after : forall t l, In (M t) (after_data l) -> In (M t) l.
Proof. intros t l H. rewrite <- (split_data l). apply in_or_app. right. exact H. Qed.
Lemma ea_get_marks : forall i l t, In (M t) (snd (ea_get i l)) -> In (M t) l.
Proof.
  intros i l t H. unfold ea_get in H. destruct (i_ea i); try exact H.
  pose proof (find_incl seqt_delta_sig l) as I1. destruct (find seqt_delta_sig l) as [ok its]. cbn [snd] in I1.
  pose proof (find_incl seqt_ea its) as I2. destruct (find seqt_ea its) as [ok2 its2]. cbn [snd] in I2.
  assert (J2 : In (M t) its2 -> In (M t) l) by (intro; apply I1, I2; assumption).
  destruct ok2; cbn [negb] in H; [|auto]. destruct (ea_read (data_before its2)) as [[e rest]|[]]; cbn [snd] in H; auto.
  destruct (crc_of _ _) as [k|]; [|auto].
  pose proof (find_incl seqt_ea_crc its2) as I3. destruct (find seqt_ea_crc its2) as [ok3 its3]. cbn [snd] in I3.
  assert (J3 : In (M t) its3 -> In (M t) l) by (intro; apply J2, I3; assumption).
  destruct ok3; cbn [negb] in H; [|auto]. destruct (crc_get (data_before its3)) as [[k' rest']|[]]; cbn [snd] in H; auto.
  apply marks_D, marks_after in H. auto.
Qed.
Lemma ea_cut : forall i i' l s x a1 a2 j, i_ea i = EAfull -> (exists n, i_ea_size i = Some n) -> ea_items i l = Ok x -> like i i' ->
  sig_items s ++ x = a1 ++ a2 -> a2 <> [] -> junk_ok a2 j -> forall y, fst (ea_get i' (a1 ++ map D j)) <> Ok y.
Proof.
  intros i i' l s x a1 a2 j EF [n Hn] E (_ & L2 & _) Hx N J y. unfold ea_items in E. rewrite EF, Hn in E. cbn [opt_bug bind] in E.
  destruct (crc_of (crc_width n) (ea_dump l)) as [k|]; [|discriminate]. cbn [bind] in E. injection E as <-.
  unfold ea_get. rewrite L2, EF. symmetry in Hx. destruct (split_at _ _ _ _ _ Hx N) as [(z & Z & E1 & E2)|(z & E1 & E2)].
  - assert (A : exists p, a1 = [] \/ a1 = M seqt_delta_sig :: map D p).
    { unfold sig_items in E1. destruct s as [b|]; [|destruct a1; [exists []; auto|discriminate]]. destruct a1 as [|m a1]; [exists []; auto|]. cbn [app] in E1. injection E1 as <- E1.
      apply map_D_split in E1 as (p & q & -> & _ & _). exists p. auto. }
    destruct A as (p & [->| ->]); cbn [app].
    + rewrite find_none. cbn [find search negb fst]. discriminate.
    + rewrite find_hit, map_D_app, find_none. cbn [negb fst]. discriminate.
  - subst a1. destruct z as [|m z]; cbn [app] in E2.
    + rewrite app_nil_r. destruct s as [b|]; unfold sig_items; cbn [app].
      * rewrite find_hit, map_D_app, find_none. cbn [negb fst]. discriminate.
      * rewrite find_none. cbn [find search negb fst]. discriminate.
    + injection E2 as <- E2. rewrite <- app_assoc, <- app_comm_cons. destruct (find_sig s (z ++ map D j)) as (l' & F1 & F2). rewrite F1, F2. cbn [negb].
      symmetry in E2. destruct (split_at _ _ _ _ _ E2 N) as [(u & U & E3 & E4)|(u & E3 & E4)].
      * destruct (map_D_split _ _ _ E3) as (p & q & -> & -> & _). rewrite map_D_app. destruct (ea_read _) as [[e rest]|[]]; cbn [fst]; try discriminate.
        destruct (crc_of _ _) as [kk|]; cbn [fst]; [|discriminate]. rewrite find_none. cbn [negb fst]. discriminate.
      * subst z. destruct u as [|m u]; cbn [app] in E4.
        -- rewrite app_nil_r, map_D_app. destruct (ea_read _) as [[e rest]|[]]; cbn [fst]; try discriminate.
           destruct (crc_of _ _) as [kk|]; cbn [fst]; [|discriminate]. rewrite find_none. cbn [negb fst]. discriminate.
        -- injection E4 as <- E4. destruct (map_D_split _ _ _ E4) as (p & q & -> & -> & Ed).
           assert (Q : q <> []) by (intros ->; apply N; reflexivity). assert (J0 : j = []) by (destruct q; [contradiction|exact J]). subst j. cbn [map]. rewrite app_nil_r.
           destruct (ea_read _) as [[e rest]|[]]; cbn [fst]; try discriminate. destruct (crc_of _ _) as [kk|]; cbn [fst]; [|discriminate].
           rewrite find_D, find_hit. cbn [negb].
           replace (data_before (map D p)) with p by (rewrite <- (app_nil_r (map D p)), db_D; cbn [data_before]; rewrite app_nil_r; reflexivity).
           pose proof (crc_short k p q Ed Q) as SH. destruct (crc_get p) as [x|e0]; [exfalso; eapply SH; reflexivity|]. destruct e0; cbn [fst]; discriminate.
Qed.

(** the marks of a tail *)
Lemma sig_marks : forall s t, In (M t) (sig_items s) -> t = seqt_delta_sig.
Proof. intros [b|] t H; [|contradiction]. destruct H as [H|H]; [congruence|]. apply in_map_iff in H as (x & E & _). discriminate. Qed.
Lemma ea_marks : forall i l x t, ea_items i l = Ok x -> In (M t) x -> t = seqt_ea \/ t = seqt_ea_crc.
Proof.
  intros i l x t H I. unfold ea_items in H. destruct (i_ea i); try (injection H as <-; contradiction). destruct (opt_bug (i_ea_size i)); [|discriminate]. cbn [bind] in H.
  destruct (crc_of _ _) as [k|]; [|discriminate]. injection H as <-. destruct I as [I|I]; [left; congruence|]. apply marks_D in I. destruct I as [I|I]; [right; congruence|].
  apply in_map_iff in I as (y & E & _). discriminate.
Qed.

(** the end of a copy *)
Definition ended (k : nat) (b : bool) (size : option N) (i : cinode) (x : wres * list item) : outcome * list item :=
  let '(w, its) := x in
  match w with
  | Whang => (Ohang, its)
  | Wundef => (Oundef, its)
  | _ => let '(ag, its) := find seqt_changed its in
         if ag && again w then copies k b size i its
         else match w with Wok d x => let '(dy, its) := find seqt_dirty its in (Odone d dy x, its) | _ => (Oerr, its) end
  end.
Definition with_ea (d : option (list N)) (x : res (option eas) * list item) : wres * list item :=
  let '(x, its) := x in
  match x with Ok x => (Wok d x, its) | Err Fuel => (Whang, its) | Err UB => (Wundef, its) | Err _ => (Wea_bad, its) end.
Lemma ea_end : forall k b size i i' l s x a1 a2 j d, (i_ea i = EAfull -> exists n, i_ea_size i = Some n) -> ea_items i l = Ok x -> like i i' ->
  sig_items s ++ x = a1 ++ a2 -> a2 <> [] -> junk_ok a2 j ->
  let o := fst (ended k b size i' (with_ea d (ea_get i' (a1 ++ map D j)))) in bad o \/ o = Odone d false (attributes i l).
Proof.
  intros k b size i i' l s x a1 a2 j d Hz E L Hx N J. cbn zeta.
  assert (MK : forall t, In (M t) (a1 ++ map D j) -> t = seqt_delta_sig \/ t = seqt_ea \/ t = seqt_ea_crc).
  { intros t I. apply in_app_or in I as [I|I]; [|apply in_map_iff in I as (y & Ey & _); discriminate].
    assert (I2 : In (M t) (sig_items s ++ x)) by (rewrite Hx; apply in_or_app; left; exact I). apply in_app_or in I2 as [I2|I2]; [left; eapply sig_marks; eauto|right; eapply ea_marks; eauto]. }
  assert (NC : ~ In (M seqt_changed) (snd (ea_get i' (a1 ++ map D j)))) by (intro I; apply ea_get_marks, MK in I as [I|[I|I]]; discriminate).
  assert (ND : ~ In (M seqt_dirty) (snd (ea_get i' (a1 ++ map D j)))) by (intro I; apply ea_get_marks, MK in I as [I|[I|I]]; discriminate).
  apply find_absent in NC as FC.
  assert (FD : fst (find seqt_dirty (snd (find seqt_changed (snd (ea_get i' (a1 ++ map D j)))))) = false) by (apply find_absent; intro I; apply find_incl in I; auto).
  destruct (i_ea i) eqn:EF.
  all: try (destruct (ea_get i' (a1 ++ map D j)) as [y its] eqn:EG; unfold ea_get in EG; rewrite (proj1 (proj2 L)), EF in EG; injection EG as <- <-; cbn [snd with_ea ended] in *;
       destruct (find seqt_changed _) as [ag l0]; cbn [fst snd] in FC, FD; subst ag; cbn [andb]; destruct (find seqt_dirty l0) as [dy l1]; cbn [fst] in FD; subst dy; right; unfold attributes; rewrite EF; reflexivity).
  pose proof (ea_cut i i' l s x a1 a2 j EF (Hz eq_refl) E L Hx N J) as NO. left. destruct (ea_get i' (a1 ++ map D j)) as [[y|e] its]; cbn [fst snd] in *; [exfalso; eapply NO; reflexivity|].
  unfold bad. destruct e; cbn [with_ea ended]; auto; destruct (find seqt_changed its) as [ag l0]; cbn [fst] in FC; subst ag; cbn [andb fst]; auto.
Qed.
Lemma copies_ended : forall k b size i its, copies (S k) b size i its = ended k b size i (write b size i its).
Proof. intros. rewrite copies_S. unfold ended. destruct (write b size i its). reflexivity. Qed.
Lemma write_none : forall i its, write_new None i its = with_ea None (ea_get i its).
Proof. intros. unfold write_new, with_ea. destruct (ea_get i its) as [[y|[]] l]; reflexivity. Qed.
Lemma write_copy : forall i z c a rest, copy_items c = Ok a -> crc_width (fst c) = crc_width z -> write_new (Some z) i (a ++ rest) = with_ea (Some (snd c)) (ea_get i rest).
Proof. intros i z c a rest Ha W. unfold write_new. rewrite (copy_read z c a rest Ha W). cbn [bind]. unfold with_ea. destruct (ea_get i rest) as [[y|[]] l]; reflexivity. Qed.

Lemma tail_cut : forall st done r t t1 t2 j i size i', rec_ok st done r -> tail_items st done r = Ok t -> known done (r_entry r) = false ->
  inode_of st (r_entry r) = Some (i, size) -> like i i' -> t = t1 ++ t2 -> t2 <> [] -> junk_ok t2 j ->
  partly st done r (fst (restore_inode (opens (r_entry r)) size i' (t1 ++ map D j))).
Proof.
  intros st done r t t1 t2 j i size i' Hr Ht K Hi L E N J. destruct Hr as (_ & i0 & size0 & Hi0 & _ & Hset & Hdir & Hb & He).
  rewrite Hi in Hi0. injection Hi0 as <- <-.
  assert (HZ : i_ea i = EAfull -> exists n, i_ea_size i = Some n) by (intro Q; destruct (He Q) as (_ & n & Hn & _); eauto).
  assert (PB : forall o, bad o -> partly st done r o) by (intros o [->|[->| ->]]; unfold partly; auto).
  assert (PG : forall d o, In d (copies_of r) -> got i (r_ea r) d o -> partly st done r o).
  { intros d o ID [Hd|Hd]; [auto|]. right. right. right. right. exists i, size, d. auto. }
  assert (OD : opens (r_entry r) = true -> size = None) by (destruct (r_entry r); cbn [opens inode_of] in *; congruence).
  unfold tail_items in Ht. rewrite (unknown_written _ _ _ _ _ Hi K) in Ht. pose proof (proj1 L) as L1. unfold restore_inode. rewrite L1.
  destruct (r_body r) as [|w|w d|w la dy] eqn:EB.
  - destruct (ea_items i (r_ea r)) as [x|] eqn:Ex; [|discriminate]. cbn [bind] in Ht. injection Ht as Ht. rewrite E in Ht.
    assert (G : i_saved i = Ssaved \/ opens (r_entry r) = true -> i_saved i <> Sdelta -> i_saved i <> Sinode_only -> partly st done r (fst (ended (length (t1 ++ map D j)) (opens (r_entry r)) size i' (write_new None i' (t1 ++ map D j))))).
    { intros HS N1 N2. rewrite write_none. destruct (ea_end (length (t1 ++ map D j)) (opens (r_entry r)) size i i' (r_ea r) (r_sig r) x t1 t2 j None HZ Ex L Ht N J) as [B|B]; [auto|]. rewrite B.
      left. unfold restored. rewrite Hi, K, EB. destruct (i_saved i); try contradiction; try reflexivity; destruct HS as [HS|HS]; try discriminate; rewrite HS; reflexivity. }
    destruct (i_saved i) eqn:ES; cbn [idle andb negb].
    + rewrite andb_false_r. rewrite copies_ended. unfold write. rewrite L1. destruct Hb as [Hb|[Hb|Hb]]; [congruence| |discriminate]. rewrite Hb in *. apply G; auto; discriminate.
    + rewrite andb_false_r. apply PB. left. eapply bad_copies. unfold write. rewrite L1. reflexivity.
    + destruct (opens (r_entry r)) eqn:EO; cbn [andb negb fst]; [|left; unfold restored; rewrite Hi, ES, EO; reflexivity]. rewrite copies_ended. unfold write. rewrite L1. apply G; auto; discriminate.
    + destruct (opens (r_entry r)) eqn:EO; cbn [andb negb fst]; [|left; unfold restored; rewrite Hi, ES, EO; reflexivity]. rewrite copies_ended. unfold write. rewrite L1. apply G; auto; discriminate.
    + rewrite andb_false_r. apply PB. left. eapply bad_copies. unfold write. rewrite L1. reflexivity.
  - destruct (wasted_items w) as [a|] eqn:Ew; [|discriminate]. cbn [bind] in Ht. injection Ht as Ht. rewrite E in Ht. destruct Hb as (k & z & Hk & -> & Hst & W).
    assert (EO : opens (r_entry r) = false) by (rewrite Hk; reflexivity). rewrite EO in *.
    destruct (i_saved i) eqn:ES; try discriminate; cbn [idle andb negb].
    + destruct (split_at _ _ _ _ _ (eq_sym Ht) N) as [(u & U & E1 & E2)|(u & E1 & E2)].
      * subst t2. destruct (wasted_cut w (S (length (t1 ++ map D j))) z i i' (r_ea r) a t1 u j ltac:(congruence) L Ew W E1 U (junk_app _ _ _ U J)) as (d & D1 & D2).
        apply (PG d); [unfold copies_of; rewrite EB; exact D1|exact D2].
      * assert (u = []) as -> by (destruct u as [|? [|]]; cbn [app] in E2; [reflexivity|injection E2 as <- E2; congruence|discriminate]). rewrite app_nil_r in E1. subst t1.
        apply PB. left. rewrite (copies_all_wasted w a _ z i' _ ltac:(congruence) Ew W) by (pose proof (wasted_length w a Ew); rewrite app_length; lia).
        match goal with |- context[copies ?k _ _ _ _] => replace k with (S (pred k)) by (pose proof (wasted_length w a Ew); rewrite app_length; lia) end.
        eapply bad_copies. unfold write, write_new, data_get. rewrite L1, find_none. reflexivity.
    + apply PB. left. eapply bad_copies. unfold write. rewrite L1. reflexivity.
  - destruct (wasted_items w) as [a|] eqn:Ew; [|discriminate]. cbn [bind] in Ht. injection Ht as Ht. rewrite E in Ht. destruct Hb as (k & z & Hk & -> & Hst & W).
    assert (EO : opens (r_entry r) = false) by (rewrite Hk; reflexivity). rewrite EO in *.
    destruct (i_saved i) eqn:ES; try discriminate; cbn [idle andb negb].
    + destruct (split_at _ _ _ _ _ (eq_sym Ht) N) as [(u & U & E1 & E2)|(u & E1 & E2)].
      * subst t2. destruct (wasted_cut w (S (length (t1 ++ map D j))) z i i' (r_ea r) a t1 u j ltac:(congruence) L Ew W E1 U (junk_app _ _ _ U J)) as (d' & D1 & D2).
        apply (PG d'); [unfold copies_of; rewrite EB; exact D1|exact D2].
      * apply map_D_split in E2 as (p & q & -> & -> & _). subst t1. rewrite <- app_assoc, map_D_app.
        apply PB. left. rewrite (copies_all_wasted w a _ z i' _ ltac:(congruence) Ew W) by (pose proof (wasted_length w a Ew); rewrite app_length; lia).
        match goal with |- context[copies ?k _ _ _ _] => replace k with (S (pred k)) by (pose proof (wasted_length w a Ew); rewrite app_length; lia) end.
        eapply bad_copies. unfold write, write_new, data_get. rewrite L1, find_none. reflexivity.
    + apply PB. left. eapply bad_copies. unfold write. rewrite L1. reflexivity.
  - destruct (wasted_items w) as [a|] eqn:Ew; [|discriminate]. destruct (copy_items la) as [l0|] eqn:El; [|discriminate]. destruct (ea_items i (r_ea r)) as [x|] eqn:Ex; [|discriminate].
    cbn [bind] in Ht. injection Ht as Ht. rewrite E in Ht. destruct Hb as (_ & Hst & (z & -> & W) & Hdy).
    assert (EO : opens (r_entry r) = false) by (destruct (opens (r_entry r)); [discriminate (OD eq_refl)|reflexivity]). rewrite EO in *.
    apply Forall_app in W as [W1 W2]. inversion W2 as [|? ? W3 _]; subst.
    assert (CL : In (snd la) (copies_of r)) by (unfold copies_of; rewrite EB; apply in_or_app; right; left; reflexivity).
    destruct (i_saved i) eqn:ES; try discriminate; cbn [idle andb negb].
    + destruct (split_at _ _ _ _ _ (eq_sym Ht) N) as [(u & U & E1 & E2)|(u & E1 & E2)].
      * subst t2. destruct (wasted_cut w (S (length (t1 ++ map D j))) z i i' (r_ea r) a t1 u j ltac:(congruence) L Ew W1 E1 U (junk_app _ _ _ U J)) as (d' & D1 & D2).
        apply (PG d'); [unfold copies_of; rewrite EB; apply in_or_app; left; exact D1|exact D2].
      * subst t1. rewrite <- app_assoc.
        rewrite (copies_all_wasted w a _ z i' _ ltac:(congruence) Ew W1) by (pose proof (wasted_length w a Ew); rewrite app_length; lia).
        match goal with |- context[copies ?k _ _ _ _] => replace k with (S (pred k)) by (pose proof (wasted_length w a Ew); rewrite app_length; lia) end.
        destruct (split_at _ _ _ _ _ (eq_sym E2) N) as [(v & V & E3 & E4)|(v & E3 & E4)].
        -- apply PB. subst t2. apply (copy_cut _ z i' la l0 u v j); [congruence|exact El|exact E3|exact V|exact (junk_app _ _ _ V J)].
        -- subst u. rewrite copies_ended. unfold write. rewrite L1. rewrite <- app_assoc, (write_copy i' z la l0 _ El W3). destruct dy.
           ++ cbn [app] in E4. assert (NF : i_ea i <> EAfull) by (apply Hdy; reflexivity).
              assert (EG : forall its, ea_get i' its = (Ok (attributes i (r_ea r)), its)) by (intro its; unfold ea_get, attributes; rewrite (proj1 (proj2 L)); destruct (i_ea i); try reflexivity; contradiction).
              rewrite EG. cbn [with_ea ended]. destruct v as [|m v]; cbn [app] in E4.
              ** cbn [app]. rewrite find_none. cbn [andb find search fst]. apply (PG (snd la)); [exact CL|right; reflexivity].
              ** injection E4 as <- E4. cbn [app]. rewrite find_miss by discriminate. cbn [andb]. rewrite find_hit. cbn [fst]. left. unfold restored. rewrite Hi, ES, K, EB. reflexivity.
           ++ cbn [app] in E4. match goal with |- context[ended ?kk _ _ _ _] => destruct (ea_end kk false (Some z) i i' (r_ea r) (r_sig r) x v t2 j (Some (snd la)) HZ Ex L E4 N J) as [B|B] end; [auto|].
              rewrite B. apply (PG (snd la)); [exact CL|right; reflexivity].
    + apply PB. left. eapply bad_copies. unfold write. rewrite L1. reflexivity.
Qed.

Lemma entry_cut : forall st done co co' r e' t t1 t2 j, distinct_sets st -> Inv true st done co -> rec_ok st done r -> tail_items st done r = Ok t ->
  stands st co' (r_entry r) e' -> t = t1 ++ t2 -> t2 <> [] -> junk_ok t2 j -> partly st done r (fst (restore_entry co co' e' (t1 ++ map D j))).
Proof.
  intros st done co co' r e' t t1 t2 j HD HI Hr Ht (_ & Hd & Hs) E N J. pose proof Hr as (_ & i & size & Hi & _ & _ & _ & Hb & _). specialize (Hs i size Hi).
  assert (NL : known done (r_entry r) = false -> forall i', like i i' -> partly st done r (fst (restore_inode (opens (r_entry r)) size i' (t1 ++ map D j)))).
  { intros K i' L. eapply tail_cut; eauto. }
  destruct (r_entry r) as [ie k|ie ch|n a|n s d|n|ie] eqn:Ee; cbn [inode_of] in Hi; try discriminate.
  - destruct e' as [i' k'|i' ch'|n' t'|n' s' d'|n'|i']; try contradiction; try discriminate Hd. destruct Hs as [L F]. cbn [restore_entry]. rewrite F. apply (NL eq_refl _ L).
  - destruct e' as [i' k'|i' ch'|n' t'|n' s' d'|n'|i']; try contradiction; try discriminate Hd. destruct Hs as [L F]. subst size. cbn [restore_entry]. apply (NL eq_refl _ L).
  - destruct e' as [i' k'|i' ch'|n' t'|n' s' d'|n'|i']; try contradiction; try discriminate Hd; try (destruct Hs as [L F]; discriminate).
    destruct Hs as (s & s' & Ea & Et & Eq & L & F). cbn [restore_entry]. rewrite Et, Eq, F. cbn [known opens] in NL.
    rewrite Ea in Hi. cbn [option_map] in Hi. injection Hi as <- <-.
    assert (K : mem a done = false).
    { destruct (mem a done) eqn:K; [|reflexivity]. exfalso. unfold tail_items in Ht. rewrite Ee in Ht. cbn [written] in Ht. rewrite K in Ht. destruct (r_body r) as [|w|w d|w la dy].
      - injection Ht as Ht. rewrite E in Ht. destruct t1; [|discriminate]. cbn [app] in Ht. congruence.
      - destruct Hb as (k & z & Hk & _). discriminate.
      - destruct Hb as (k & z & Hk & _). discriminate.
      - discriminate. }
    destruct (lookup (st_etiq s) co) as [s0|] eqn:El.
    + destruct (proj2 HI _ _ El) as (a0 & s1 & In0 & E0 & Q0). assert (a0 = a) by (eapply HD; eauto). subst a0.
      apply mem_spec in In0. congruence.
    + apply NL; assumption.
  - destruct e' as [i' k'|i' ch'|n' t'|n' s' d'|n'|i']; try contradiction; try discriminate Hd. destruct Hs as [L F]. subst size. cbn [restore_entry]. apply (NL eq_refl _ L).
Qed.
