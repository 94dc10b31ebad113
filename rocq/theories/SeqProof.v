From Coq Require Import List.
From Verif Require Import Base InfinintModel InfinintProof InfinintProof2 CrcModel CrcProof PropCrc DatetimeModel HeaderModel HeaderProof2 PathModel PropPath EscapeModel EscapeSpec EscapeProof4.
From Verif Require Import ReadStable CatModel CatSpec CatProof CatProof2 CatProof3 PropCatalogue SeqModel SeqSpec.
Import ListNotations.
Open Scope N_scope.

(** ** lists of items *)
Lemma db_D : forall d l, data_before (map D d ++ l) = d ++ data_before l.
Proof. induction d as [|b d IH]; intro l; [reflexivity|]. cbn [map app data_before]. rewrite IH. reflexivity. Qed.
Lemma ad_D : forall d l, after_data (map D d ++ l) = after_data l.
Proof. induction d as [|b d IH]; intro l; [reflexivity|]. cbn [map app after_data]. apply IH. Qed.
Lemma split_data : forall l, map D (data_before l) ++ after_data l = l.
Proof. induction l as [|[b|t|] l IH]; cbn [data_before after_data map app]; try reflexivity. rewrite IH. reflexivity. Qed.
Lemma find_D : forall t d l, find t (map D d ++ l) = find t l.
Proof. intros. unfold find. apply search_data. Qed.
Lemma seqt_eqb_refl : forall t, seqt_eqb t t = true.
Proof. intro t. unfold seqt_eqb. destruct (seqt_eq_dec t t); [reflexivity|contradiction]. Qed.
Lemma seqt_eqb_neq : forall a b, a <> b -> seqt_eqb a b = false.
Proof. intros a b H. unfold seqt_eqb. destruct (seqt_eq_dec a b); [contradiction|reflexivity]. Qed.
Lemma find_hit : forall t l, find t (M t :: l) = (true, l).
Proof. intros. unfold find. cbn [search]. rewrite seqt_eqb_refl. reflexivity. Qed.
Lemma find_miss : forall t t' l, t' <> t -> find t (M t' :: l) = (false, M t' :: l).
Proof. intros. unfold find. cbn [search]. rewrite seqt_eqb_neq by assumption. reflexivity. Qed.
Lemma find_none : forall t d, find t (map D d) = (false, []).
Proof. intros. rewrite <- (app_nil_r (map D d)), find_D. reflexivity. Qed.

(** the search of the next entry *)
Definition next_file (l : list item) := search seqt_file true UNJ l.
Lemma nf_D : forall d l, next_file (map D d ++ l) = next_file l.
Proof. intros. unfold next_file. apply search_data. Qed.
Lemma nf_after : forall l, next_file (after_data l) = next_file l.
Proof. intro l. rewrite <- (split_data l) at 2. rewrite nf_D. reflexivity. Qed.
Definition inner (t : seqt) : Prop := t <> seqt_file /\ t <> seqt_catalogue.
Lemma nf_M : forall t l, inner t -> next_file (M t :: l) = next_file l.
Proof.
  intros t l [H1 H2]. unfold next_file. cbn [search]. rewrite seqt_eqb_neq by assumption. unfold UNJ at 1. cbn [existsb]. rewrite seqt_eqb_neq by congruence. reflexivity.
Qed.
Lemma nf_find : forall t l, inner t -> next_file (snd (find t l)) = next_file l.
Proof.
  intros t l H. unfold find. induction l as [|[b|t'|] l IH]; [reflexivity| |destruct (seqt_eq_dec t' t) as [->|N]|]; cbn [search].
  - exact IH.
  - rewrite seqt_eqb_refl. cbn [snd]. symmetry. apply nf_M. exact H.
  - rewrite seqt_eqb_neq by assumption. reflexivity.
  - exact IH.
Qed.
Ltac inner := (split; discriminate).
Lemma nf_data_get : forall size l, next_file (snd (data_get size l)) = next_file l.
Proof.
  intros. unfold data_get. pose proof (nf_find seqt_file_crc l ltac:(inner)) as H. destruct (find seqt_file_crc l) as [ok its]. cbn [snd] in H.
  destruct ok; cbn [negb]; [|exact H]. destruct (crc_get (data_before its)) as [[k rest]|[]]; cbn [snd]; try exact H.
  assert (E : next_file (map D rest ++ after_data its) = next_file l) by (rewrite nf_D, nf_after; exact H).
  destruct (crc_of (crc_width size) (data_before l)) as [k'|]; [destruct (crc_eq k' k)|]; exact E.
Qed.
Lemma nf_ea_get : forall i l, next_file (snd (ea_get i l)) = next_file l.
Proof.
  intros. unfold ea_get. destruct (i_ea i); try reflexivity.
  pose proof (nf_find seqt_delta_sig l ltac:(inner)) as H. destruct (find seqt_delta_sig l) as [ok its]. cbn [snd] in H.
  pose proof (nf_find seqt_ea its ltac:(inner)) as H2. destruct (find seqt_ea its) as [ok2 its2]. cbn [snd] in H2. rewrite H in H2.
  destruct ok2; cbn [negb]; [|exact H2]. destruct (ea_read (data_before its2)) as [[e rest]|[]]; cbn [snd]; try exact H2.
  destruct (crc_of _ _) as [k|]; [|exact H2].
  pose proof (nf_find seqt_ea_crc its2 ltac:(inner)) as H3. destruct (find seqt_ea_crc its2) as [ok3 its3]. cbn [snd] in H3. rewrite H2 in H3.
  destruct ok3; cbn [negb]; [|exact H3]. destruct (crc_get (data_before its3)) as [[k' rest']|[]]; cbn [snd]; try exact H3.
  rewrite nf_D, nf_after. exact H3.
Qed.
Lemma nf_write_new : forall size i l, next_file (snd (write_new size i l)) = next_file l.
Proof.
  intros. unfold write_new.
  assert (H : next_file (snd (match size with Some s => let '(d, its) := data_get s l in (let* d := d in Ok (Some d), its) | None => (Ok None, l) end)) = next_file l).
  { destruct size as [z|]; [|reflexivity]. pose proof (nf_data_get z l) as H. destruct (data_get z l) as [d its]. exact H. }
  destruct (match size with Some s => _ | None => _ end) as [d its]. cbn [snd] in H. destruct d as [d|[]]; try exact H.
  pose proof (nf_ea_get i its) as H2. destruct (ea_get i its) as [x its2]. cbn [snd] in H2. rewrite H in H2. destruct x as [x|[]]; exact H2.
Qed.
Lemma nf_write : forall b size i l, next_file (snd (write b size i l)) = next_file l.
Proof. intros. unfold write. destruct (i_saved i); try reflexivity; try apply nf_write_new; destruct b; try apply nf_write_new; reflexivity. Qed.
Lemma nf_copies : forall n b size i l, next_file (snd (copies n b size i l)) = next_file l.
Proof.
  induction n as [|n IH]; intros; [reflexivity|]. cbn [copies]. pose proof (nf_write b size i l) as H. destruct (write b size i l) as [w its]. cbn [snd] in H.
  pose proof (nf_find seqt_changed its ltac:(inner)) as H2. destruct (find seqt_changed its) as [again its2]. cbn [snd] in H2. rewrite H in H2.
  pose proof (nf_find seqt_dirty its2 ltac:(inner)) as H3. destruct (find seqt_dirty its2) as [dy its3] eqn:FD. cbn [snd] in H3. rewrite H2 in H3.
  destruct w, again; cbn [andb]; rewrite ?IH; cbn [snd]; auto; rewrite ?FD; cbn [snd]; auto.
Qed.
Lemma nf_idle : forall l, next_file (after_idle l) = next_file l.
Proof. intros. unfold after_idle. rewrite !nf_find by inner. reflexivity. Qed.
Lemma nf_restore : forall co0 co e l, next_file (snd (restore_entry co0 co e l)) = next_file l.
Proof.
  assert (R : forall b size i l, next_file (snd (restore_inode b size i l)) = next_file l).
  { intros. unfold restore_inode. destruct (negb b && idle (i_saved i)); [apply nf_idle|apply nf_copies]. }
  intros. unfold restore_entry. destruct e; try reflexivity; try apply R; [|apply nf_idle].
  destruct (lookup star co) as [s|]; [|reflexivity]. destruct (lookup (st_etiq s) co0); [|apply R]. destruct (i_saved (st_ino s)); try apply R. apply nf_idle.
Qed.
(** running depends on the stream through the search of the next entry only *)
Lemma run_next : forall n lax algo cov s l l', next_file l = next_file l' -> run n lax algo cov s l = run n lax algo cov s l'.
Proof. intros n lax algo cov s l l' H. destruct n; [reflexivity|]. cbn [run]. unfold next_file in H. rewrite H. reflexivity. Qed.
