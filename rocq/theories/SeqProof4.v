From Coq Require Import List.
From Verif Require Import Base InfinintModel InfinintProof InfinintProof2 CrcModel CrcProof PropCrc DatetimeModel HeaderModel HeaderProof2 PathModel PropPath EscapeModel EscapeSpec EscapeProof4.
From Verif Require Import ReadStable CatModel CatSpec CatProof CatProof2 CatProof3 PropCatalogue SeqModel SeqSpec SeqProof SeqProof2 SeqProof3.
Import ListNotations.
Open Scope N_scope.

(** ** what the entry read tells *)
Lemma head_like : forall i i' n n', called n (v_head true i') = called n' (v_head true i) -> like i i' /\ n = n'.
Proof.
  intros i i' n n' H. pose proof (f_equal vh_name H) as H1. pose proof (f_equal vh_saved H) as H2. pose proof (f_equal (fun h => fst (fst (vh_ea h))) H) as H3.
  pose proof (f_equal (fun h => snd (fst (vh_ea h))) H) as H4. unfold called, v_head in *. cbn [vh_name vh_saved vh_ea fst snd] in *.
  split; [|assumption]. unfold like. split; [assumption|]. split; [assumption|]. intro EF. rewrite H3, EF in H4. assumption.
Qed.
Lemma called_self : forall i, called (i_name i) (v_head true i) = v_head true i.
Proof. reflexivity. Qed.
Lemma kind_size : forall s w w' k k', v_kind true w s k' = v_kind true w' s k -> file_size k' = file_size k.
Proof. intros s w w' k k' H. destruct k, k'; cbn [v_kind] in H; try discriminate; cbn [file_size]; try reflexivity; unfold v_file in H; injection H as H; congruence. Qed.

Lemma vino_inj : forall h k h' k', [Vino h k] = [Vino h' k'] -> h = h' /\ k = k'.
Proof. intros. split; congruence. Qed.
Lemma vdir_inj : forall h k h' k', [Vdir h k] = [Vdir h' k'] -> h = h' /\ k = k'.
Proof. intros. split; congruence. Qed.
Lemma vlink_inj : forall t h k t' h' k', [Vlink t h k] = [Vlink t' h' k'] -> t = t' /\ h = h' /\ k = k'.
Proof. intros. repeat split; congruence. Qed.
(** the entry read stands for the inode written *)
Definition stands (st : stars) (co : corres) (e e' : entry) : Prop :=
  name_of e' = name_of e /\ is_dir e' = opens e /\
  forall i size, inode_of st e = Some (i, size) ->
  match e, e' with
  | Emir _ a, Emir _ t => exists s s', st a = Some s /\ lookup t co = Some s' /\ st_etiq s' = st_etiq s /\ like i (st_ino s') /\ file_size (st_kind s') = size
  | Emir _ _, _ => False
  | _, Eino i' k' => like i i' /\ file_size k' = size
  | _, Edir i' _ => like i i' /\ size = None
  | _, _ => False
  end.
Lemma head_like0 : forall i i', v_head true i' = v_head true i -> like i i' /\ i_name i' = i_name i.
Proof. intros i i' H. apply head_like. rewrite !called_self. exact H. Qed.
Lemma shown_stands : forall st co e e', (forall n a s, e = Emir n a -> st a = Some s -> is_set s = true) -> (exists x, inode_of st e = Some x) ->
  shown true (fun t => lookup t co) e' = expected true st e -> stands st co e e'.
Proof.
  intros st co e e' Hset [x Hx] H. destruct e as [i k|i ch|n a|n s d|n|i]; cbn [expected inode_of] in *; try discriminate.
  - destruct e' as [i' k'|i' ch'|n' t|n' s' d'|n'|i']; cbn [shown] in H; try discriminate.
    + apply vino_inj in H as [H1 H2]. destruct (head_like0 _ _ H1) as [L NM]. split; [exact NM|]. split; [reflexivity|]. intros i0 size E. injection E as <- <-. split; [exact L|].
      destruct L as (L1 & _). rewrite L1 in H2. eapply kind_size; eauto.
    + unfold v_link in H. destruct (lookup t co); discriminate.
  - destruct e' as [i' k'|i' ch'|n' t|n' s' d'|n'|i']; cbn [shown] in H; try discriminate.
    + apply vdir_inj in H as [H1 H2]. destruct (head_like0 _ _ H1) as [L NM]. split; [exact NM|]. split; [reflexivity|]. intros i0 size E. injection E as <- <-. split; [exact L|reflexivity].
    + unfold v_link in H. destruct (lookup t co); discriminate.
  - unfold v_link in H. destruct (st a) as [s|] eqn:Ea; [|discriminate]. rewrite (Hset n a s eq_refl Ea) in H. cbn [orb] in H.
    destruct e' as [i' k'|i' ch'|n' t|n' s' d'|n'|i']; cbn [shown] in H; try discriminate. unfold v_link in H.
    destruct (lookup t co) as [s'|] eqn:Et; [|discriminate]. cbn [orb] in H. apply vlink_inj in H as (H1 & H2 & H3). destruct (head_like _ _ _ _ H2) as [L NM].
    split; [exact NM|]. split; [reflexivity|]. intros i size E. cbn [inode_of] in E. rewrite Ea in E. cbn [option_map] in E. injection E as <- <-. exists s, s'. repeat (split; [first [reflexivity|assumption]|]).
    destruct L as (L1 & _). rewrite L1 in H3. eapply kind_size; eauto.
  - destruct e' as [i' k'|i' ch'|n' t|n' s' d'|n'|i']; cbn [shown] in H; try discriminate.
    + apply vdir_inj in H as [H1 H2]. assert (H3 : v_head true i' = v_head true (ignored_as_dir i)) by (rewrite H1; reflexivity). destruct (head_like0 _ _ H3) as [L NM]. split; [exact NM|]. split; [reflexivity|].
      intros i0 size E. injection E as <- <-. split; [exact L|reflexivity].
    + unfold v_link in H. destruct (lookup t co); discriminate.
Qed.

(** the outcome, whatever the entry *)
Lemma entry_read : forall st done co co' r e' t rest, distinct_sets st -> Inv true st done co -> rec_ok st done r -> tail_items st done r = Ok t -> bound rest -> dropped r = false ->
  stands st co' (r_entry r) e' -> fst (restore_entry co co' e' (t ++ rest)) = restored st done r.
Proof.
  intros st done co co' r e' t rest HD HI Hr Ht B Dr (_ & Hd & Hs). pose proof Hr as (_ & i & size & Hi & _ & _ & _ & Hb & _). specialize (Hs i size Hi).
  assert (NL : known done (r_entry r) = false -> forall i', like i i' -> fst (restore_inode (opens (r_entry r)) size i' (t ++ rest)) = restored st done r).
  { intros K i' L. eapply tail_read; eauto. }
  destruct (r_entry r) as [ie k|ie ch|n a|n s d|n|ie] eqn:Ee; cbn [inode_of] in Hi; try discriminate.
  - destruct e' as [i' k'|i' ch'|n' t'|n' s' d'|n'|i']; try contradiction; try discriminate Hd. destruct Hs as [L F]. cbn [restore_entry]. rewrite F. apply (NL eq_refl _ L).
  - destruct e' as [i' k'|i' ch'|n' t'|n' s' d'|n'|i']; try contradiction; try discriminate Hd. destruct Hs as [L F]. subst size. cbn [restore_entry]. apply (NL eq_refl _ L).
  - destruct e' as [i' k'|i' ch'|n' t'|n' s' d'|n'|i']; try contradiction; try discriminate Hd; try (destruct Hs as [L F]; discriminate).
    destruct Hs as (s & s' & Ea & Et & Eq & L & F). cbn [restore_entry]. rewrite Et, Eq, F. cbn [known opens] in NL.
    rewrite Ea in Hi. cbn [option_map] in Hi. injection Hi as <- <-.
    destruct (lookup (st_etiq s) co) as [s0|] eqn:El.
    + (* met before *)
      destruct (proj2 HI _ _ El) as (a0 & s1 & In0 & E0 & Q0). assert (a0 = a) by (eapply HD; eauto). subst a0.
      assert (K : mem a done = true) by (apply mem_spec; exact In0).
      unfold restored. rewrite Ee. cbn [inode_of known]. rewrite Ea, K. cbn [option_map]. destruct L as (L1 & L2 & L3). rewrite L1.
      assert (T0 : t = []).
      { unfold tail_items in Ht. rewrite Ee in Ht. cbn [written] in Ht. rewrite K in Ht. destruct (r_body r) as [|w|w d|w la dy]; try (injection Ht as <-; reflexivity); try discriminate.
        - destruct Hb as (k & z & Hk & _). discriminate.
        - destruct Hb as (k & z & Hk & _). discriminate. }
      subst t. cbn [app opens]. unfold restore_inode. rewrite L1. destruct (i_saved (st_ino s)); cbn [andb negb idle set_of fst]; rewrite ?Ea; try reflexivity.
      * eapply bad_copies. unfold write. rewrite L1. reflexivity.
      * eapply bad_copies. unfold write. rewrite L1. reflexivity.
    + assert (K : mem a done = false).
      { destruct (mem a done) eqn:K; [|reflexivity]. apply mem_spec in K. destruct (proj1 HI _ K) as (s1 & s2 & E1 & E2 & _). rewrite Ea in E1. injection E1 as <-. congruence. }
      apply NL; assumption.
  - destruct e' as [i' k'|i' ch'|n' t'|n' s' d'|n'|i']; try contradiction; try discriminate Hd. destruct Hs as [L F]. subst size. cbn [restore_entry]. apply (NL eq_refl _ L).
Qed.
