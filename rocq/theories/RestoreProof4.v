(** Proofs for C40, part 4: a restoration under a preserving policy, from any archive, over any filesystem. *)
From Coq Require Import NArith List Bool Lia.
From Verif Require Import Base DatetimeModel PropDatetime PropChange CritModel RestoreModel RestoreSpec RestoreProof RestoreProof2 RestoreProof3.
Import ListNotations.
Open Scope N_scope.
Local Set Warnings "-notation-overridden".

Definition hkeep (a b : head) : Prop := h_kind b = h_kind a /\ h_data b = h_data a /\ h_ea b = h_ea a /\ (h_kind a <> KDir -> b = a).
Definition keep (t t' : node) : Prop := forall p x, fget p t = Some x -> exists x', fget p t' = Some x' /\ hkeep (hd_of x) (hd_of x').
Lemma hkeep_refl : forall a, hkeep a a. Proof. intro a. repeat split. Qed.
Lemma keep_refl : forall t, keep t t. Proof. intros t p x H. exists x. split; [exact H|apply hkeep_refl]. Qed.
Lemma keep_trans : forall a b c, keep a b -> keep b c -> keep a c.
Proof.
  intros a b c H K p x E. destruct (H p x E) as (y & Ey & (A1 & A2 & A3 & A4)). destruct (K p y Ey) as (z & Ez & (B1 & B2 & B3 & B4)). exists z. split; [exact Ez|].
  split; [congruence|]. split; [congruence|]. split; [congruence|]. intro Q. rewrite B4 by congruence. auto.
Qed.
(** a directory whose entries are kept *)
Lemma keep_dir : forall d d', hkeep (hd_of d) (hd_of d') ->
  (forall n x, aget n (ch_of d) = Some x -> exists x', aget n (ch_of d') = Some x' /\ keep x x') -> keep d d'.
Proof.
  intros d d' H K [|n r] x E; cbn [fget] in *. - injection E as <-. exists d'. auto.
  - destruct (aget n (ch_of d)) as [c|] eqn:Ec; [|discriminate]. destruct (K n c Ec) as (c' & -> & Kc). apply Kc. exact E.
Qed.
Lemma keep_put : forall p v t d, fget p t = Some d -> keep d v -> keep t (fput p v t).
Proof.
  induction p as [|n r IH]; cbn [fget fput]; intros v t d H K. - injection H as ->. exact K.
  - destruct (aget n (ch_of t)) as [c|] eqn:E; [|discriminate]. apply keep_dir; cbn [hd_of ch_of]; [apply hkeep_refl|]. intros m x Em.
    destruct (list_eq_dec N.eq_dec m n) as [->|Hn].
    + rewrite aget_set_same. rewrite E in Em. injection Em as <-. eexists. split; [reflexivity|]. eapply IH; eauto.
    + rewrite aget_set_other by exact Hn. exists x. split; [exact Em|apply keep_refl].
Qed.
Lemma keep_mtime : forall d dt ch, h_kind (hd_of d) = KDir -> (forall n x, aget n (ch_of d) = Some x -> aget n ch = Some x) -> keep d (Node (with_mtime (hd_of d) dt) ch).
Proof.
  intros d dt ch K H. apply keep_dir; cbn [hd_of ch_of]. - repeat split. congruence. - intros n x E. exists x. split; [auto|apply keep_refl].
Qed.
Lemma on_child_id : forall n f d h c, aget n (ch_of d) = Some (Node h c) -> f h = h -> on_child n f d = d.
Proof. intros n f [hd ch] h c E F. unfold on_child. cbn [ch_of hd_of] in *. rewrite E, F. rewrite aset_id by exact E. reflexivity. Qed.
Lemma with_ea_id : forall h, with_ea h (h_ea h) = h. Proof. intros []. reflexivity. Qed.
Lemma with_mtime_id : forall h, with_mtime h (h_mtime h) = h. Proof. intros []. reflexivity. Qed.

Section Preserve.
Variables (me_uid me_gid : N) (now : datetime).
Variable pol : head -> cnode -> adata * aea.
Variable rcov : rpath -> bool -> bool.
Definition preserving : Prop := forall h x, (fst (pol h x) = D_preserve \/ fst (pol h x) = D_preserve_mark) /\ (snd (pol h x) = A_preserve \/ snd (pol h x) = A_preserve_mark).
Hypothesis Hpol : preserving.
Notation write1 := (write1 me_uid me_gid now pol).
Notation rstep := (rstep me_uid me_gid now pol rcov).
Notation rrun := (rrun me_uid me_gid now pol rcov).

Lemma over_preserve : forall d n eh ec x d' flag out, aget n (ch_of d) = Some (Node eh ec) ->
  write_over me_uid me_gid now pol d n eh x = (d', flag, out) -> d' = d /\ (forall b, out = WOk (Some b) -> h_kind eh = KDir).
Proof.
  intros d n eh ec x d' flag out Ed. unfold write_over. destruct (Hpol eh x) as [Hd He]. destruct (pol eh x) as [da ea]. cbn [fst snd] in *.
  destruct x as [xh xch|k|].
  2: { destruct Hd as [-> | ->]; intro E; injection E as <- <- <-; split; auto; discriminate. }
  2: { intro E; injection E as <- <- <-; split; auto; discriminate. }
  assert (Oe : forall h, over_ea ea (c_ea xh) (h_ea eh) h = (h, false)) by (intro h; unfold over_ea; destruct He as [-> | ->]; reflexivity).
  assert (Sn : snd (over_ea ea (c_ea xh) (h_ea eh) []) = false) by (rewrite Oe; reflexivity). rewrite Sn, andb_false_r.
  assert (Rm : is_remove da = false) by (destruct Hd as [-> | ->]; reflexivity). rewrite Rm. cbn [negb andb orb].
  assert (Od : (if c_saved xh then over_data me_uid me_gid now d n eh xh da else (d, Some DNoData)) = (d, None) \/
    exists y, (if c_saved xh then over_data me_uid me_gid now d n eh xh da else (d, Some DNoData)) = (d, Some y) /\ y <> DRestored).
  { destruct (c_saved xh); [|right; eexists; split; [reflexivity|discriminate]]. unfold over_data.
    destruct Hd as [-> | ->]; destruct (is_dir (c_kind xh) && negb (kind_eqb (c_kind xh) (h_kind eh))); try (left; reflexivity); right; eexists; (split; [reflexivity|discriminate]). }
  destruct Od as [->|(y & -> & Hy)].
  - intro E; injection E as <- <- <-. split; [reflexivity|discriminate].
  - rewrite (on_child_id n (fun h => with_ea h (fst (over_ea ea (c_ea xh) (h_ea eh) (h_ea h)))) d eh ec Ed) by (rewrite Oe; apply with_ea_id).
    assert (Q : match y with DRestored => true | _ => false end = false) by (destruct y; congruence). rewrite Q. clear Q. cbn [negb]. rewrite andb_true_r.
    set (es := match c_ea xh with EA_full _ | EA_removed => true | _ => false end).
    replace (if es then d else d) with d by (destruct es; reflexivity). rewrite Ed. cbn [andb]. rewrite andb_false_r.
    rewrite (on_child_id n _ d eh ec Ed) by apply with_mtime_id. rewrite orb_false_r. replace (if es || c_saved xh then d else d) with d by (destruct (es || c_saved xh); reflexivity).
    intro E; injection E as <- <- <-. split; [reflexivity|]. intros b Hb. destruct (is_dir (c_kind xh) && is_dir (h_kind eh)) eqn:Z; [|discriminate].
    apply andb_true_iff in Z. apply is_dir_spec. apply Z.
Qed.
Lemma write1_preserve : forall d n x d' flag out, h_kind (hd_of d) = KDir -> write1 d n x = (d', flag, out) ->
  keep d d' /\ (forall b, out = WOk (Some b) -> exists e, aget n (ch_of d') = Some e /\ h_kind (hd_of e) = KDir).
Proof.
  intros d n x d' flag out K. unfold RestoreModel.write1. destruct (aget n (ch_of d)) as [[eh ec]|] eqn:Ed.
  - intro E. cbn [hd_of] in E. destruct (over_preserve d n eh ec x d' flag out Ed E) as [-> H]. split; [apply keep_refl|]. intros b Hb. exists (Node eh ec). split; [exact Ed|]. exact (H b Hb).
  - unfold write_new. destruct x as [xh xch|k|]; [|intro E; injection E as <- <- <-; split; [apply keep_refl|discriminate]|intro E; injection E as <- <- <-; split; [apply keep_refl|discriminate]].
    destruct (c_saved xh || is_dir (c_kind xh)); [|intro E; injection E as <- <- <-; split; [apply keep_refl|discriminate]].
    match goal with |- (create now n ?hh d, _, _) = _ -> _ => remember hh as hn eqn:Eh end. intro E; injection E as <- <- <-. split.
    + unfold create, touch. apply keep_mtime; [exact K|]. intros m y Em. rewrite aget_app, Em. reflexivity.
    + intros b Hb. unfold create, touch. cbn [ch_of]. rewrite aget_app, Ed. cbn. rewrite neqb_refl. eexists. split; [reflexivity|]. cbn [hd_of].
      destruct (is_dir (c_kind xh)) eqn:Z; [|discriminate]. apply is_dir_spec in Z. subst hn. destruct (c_ea xh); cbn; exact Z.
Qed.

(** the directories entered are directories *)
Fixpoint dirs_ok (f : node) (st : list sframe) : Prop :=
  match st with [] => True | a :: r => (exists x, fget (rev (map sf_name st)) f = Some x /\ h_kind (hd_of x) = KDir) /\ dirs_ok f r end.
Lemma dirs_keep : forall f f' st, keep f f' -> dirs_ok f st -> dirs_ok f' st.
Proof.
  induction st as [|a r IH]; cbn [dirs_ok]; intros K H; [exact I|]. destruct H as [(x & E & D) H]. split; [|auto]. destruct (K _ _ E) as (x' & E' & Q & _). exists x'. split; [exact E'|congruence].
Qed.
Lemma mark_names : forall b st, map sf_name (mark b st) = map sf_name st. Proof. intros [|] [|a r]; reflexivity. Qed.
Lemma dirs_mark : forall f b st, dirs_ok f (mark b st) <-> dirs_ok f st. Proof. intros f [|] [|a r]; cbn; tauto. Qed.
Definition inv (t : node) (s : rstate) : Prop := keep t (fs s) /\ cur s = map sf_name (stk s) /\ dirs_ok (fs s) (stk s).
Lemma eod_inv : forall t s, inv t s -> match eod s with Running s' => inv t s' | Finished s' => inv t s' | Aborted s' => inv t s' end.
Proof.
  intros t s (K & C & D). unfold eod. destruct (stk s) as [|f r] eqn:Es; [split; [exact K|]; rewrite Es; auto|]. rewrite C. cbn [map tl]. cbn [dirs_ok] in D. destruct D as [(x & E & Dx) D].
  destruct (sf_date f).
  - change (sf_name f :: map sf_name r) with (map sf_name (f :: r)). rewrite E. destruct x as [h ch]. cbn [hd_of] in Dx.
    assert (Kp : keep (fs s) (fput (rev (map sf_name (f :: r))) (Node (with_meta h (sf_head f)) ch) (fs s))).
    { eapply keep_put; [exact E|]. apply keep_dir; cbn [hd_of ch_of]. - repeat split. congruence. - intros n y Ey. exists y. split; [exact Ey|apply keep_refl]. }
    split; cbn [fs cur stk]; [eapply keep_trans; [exact K|exact Kp]|]. split; [reflexivity|]. eapply dirs_keep; eauto.
  - split; cbn [fs cur stk]; auto.
Qed.
Lemma rstep_inv : forall t s, inv t s -> match rstep s with Running s' => inv t s' | Finished s' => inv t s' | Aborted s' => inv t s' end.
Proof.
  intros t s I. assert (I0 := I). destruct I as (K & C & D). unfold RestoreModel.rstep. destruct (rd s) as [|fr up]; [exact I0|]. destruct (rf_rest fr) as [|[n x] rest].
  - destruct up as [|f2 up]; [exact I0|]. apply eod_inv. split; [exact K|]. split; [exact C|exact D].
  - set (rd1 := RF (rf_name fr) rest :: up). set (rd2 := match x with CIno xh ch => if is_dir (c_kind xh) then RF n ch :: rd1 else rd1 | _ => rd1 end).
    match goal with |- context [if ?c then _ else _] => destruct c end; [|split; [exact K|split; [exact C|exact D]]].
    destruct (dir_at (cur s) (fs s)) as [d|] eqn:Ed.
    + destruct (write1 d n x) as [[d' flag] out] eqn:W. destruct (dir_at_get _ _ _ Ed) as [Hf Kd]. destruct (write1_preserve d n x d' flag out Kd W) as [Kp Pp].
      assert (Kf : keep (fs s) (fput (rev (cur s)) d' (fs s))) by (eapply keep_put; eauto).
      assert (Kt := keep_trans _ _ _ K Kf). assert (Df := dirs_keep _ _ _ Kf D).
      destruct out as [push|].
      * assert (Nopush : inv t (RS (fput (rev (cur s)) d' (fs s)) (cur s) (mark flag (stk s)) rd2 (errs s))).
        { split; [exact Kt|]. cbn [cur stk fs]. rewrite mark_names, dirs_mark. auto. }
        destruct push as [b|]; [|exact Nopush]. destruct x as [xh ch|k|]; [|exact Nopush|exact Nopush].
        split; [exact Kt|]. cbn [cur stk fs map sf_name dirs_ok]. rewrite mark_names, dirs_mark. split; [congruence|]. split; [|exact Df].
        rewrite <- C. cbn [rev]. rewrite fget_snoc, (fget_put _ _ _ _ Hf). destruct (Pp b eq_refl) as (e0 & E0 & Q). eauto.
      * split; [exact Kt|]. split; [exact C|exact Df].
    + assert (Nop : forall e r, inv t (RS (fs s) (cur s) (stk s) r e)) by (intros; split; [exact K|split; [exact C|exact D]]).
      destruct x as [xh ch|k|]; [destruct (_ || _)| |]; apply Nop.
Qed.
Lemma restore_preserve : forall arc t, match restore me_uid me_gid now pol rcov arc t with Running s => keep t (fs s) | Finished s => keep t (fs s) | Aborted s => keep t (fs s) end.
Proof.
  intros arc t. unfold restore. assert (I : inv t (RS t [] [] [RF [] arc] 0)) by (split; [apply keep_refl|split; [reflexivity|exact I]]).
  revert I. generalize (RS t [] [] [RF [] arc] 0). generalize (S (S (weights arc))). induction n as [|k IH]; intros s I; cbn [RestoreModel.rrun]; [apply I|].
  assert (H := rstep_inv t s I). destruct (rstep s) as [s1|s1|s1]; [apply IH; exact H|apply H|apply H].
Qed.
End Preserve.

Lemma look_fget : forall p t, p <> [] -> look (ch_of t) p = option_map hd_of (fget p t).
Proof.
  induction p as [|n r IH]; intros t H; [congruence|]. rewrite look_cons. cbn [fget]. destruct (aget n (ch_of t)) as [c|]; [|reflexivity].
  destruct r as [|m q]; [reflexivity|]. rewrite <- IH by discriminate. reflexivity.
Qed.
