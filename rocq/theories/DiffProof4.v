From Coq Require Import List.
From Verif Require Import Base InfinintModel CrcModel CrcProof PropCrc DatetimeModel PropDatetime PathModel PropPath CatModel SeqModel PropChange DiffModel DiffSpec DiffProof DiffProof2 DiffProof3.
Import ListNotations.
Open Scope N_scope.

Section Lines.
  Variables (o : dopt) (subtree : fpath -> bool) (names : list N -> bool) (fs : fpath -> lookup).
  Notation REPORTS := (reports o subtree names fs).
  Notation ALL := (reports_all o subtree names fs).
  Notation VIS := (visible o subtree names fs).
  Scheme rep_ind := Induction for reports Sort Prop with rall_ind := Induction for reports_all Sort Prop.
  Lemma all_in : forall here ts lines t, ALL here ts lines -> In t ts -> exists l, REPORTS here t l /\ forall x, In x l -> In x lines.
  Proof.
    intros here ts lines t H. induction H as [|here t0 ts l m R RA IH]; intro I; [destruct I|]. destruct I as [->|I].
    - exists l. split; [exact R|]. intros x X. apply in_or_app. auto.
    - destruct (IH I) as (l' & R' & S'). exists l'. split; [exact R'|]. intros x X. apply in_or_app. right. auto.
  Qed.
  Lemma visible_reported : forall here ts p i, VIS here ts p i -> forall lines, ALL here ts lines -> exists v, In (p, v) lines /\ judge o i (fs p) v.
  Proof.
    intros here ts p i H. induction H as [here ts t i I M SU NA|here ts i ch p j I SU DI V IH]; intros lines A.
    - destruct (all_in _ _ _ _ A I) as (l & R & S). destruct R as [h i0 ch SS|h i0 ch v more SS J D RA|h i0 ch v SS J D|h i0 SS|h i0 v SS NN J|h i0 n SS|h i0 n v SS NN LE J|h i0 n SS NN LE|h n SS|h n SS NN];
        cbn [inode_met is_directory] in M, NA; try discriminate; try (injection M as <-).
      + congruence.
      + exists v. split; [apply S; left; reflexivity|exact J].
      + exists v. split; [apply S; left; reflexivity|exact J].
      + destruct NA as [|NA]; [discriminate|]. rewrite SU, NA in SS. discriminate.
      + exists v. split; [apply S; left; reflexivity|exact J].
      + destruct (left_out o i0 n); [discriminate|]. injection M as <-. destruct NA as [|NA]; [discriminate|]. rewrite SU, NA in SS. discriminate.
      + rewrite LE in M. injection M as <-. exists v. split; [apply S; left; reflexivity|exact J].
      + rewrite LE in M. discriminate.
    - destruct (all_in _ _ _ _ A I) as (l & R & S). inversion R; subst; try congruence. destruct (IH more) as (v0 & I0 & J0); [assumption|]. exists v0. split; [|exact J0]. apply S. right. exact I0.
  Qed.
  (** conversely a verdict is about an entry of the archive *)
  Definition told (p : fpath) (v : verdict) : bool := match v with Vok | Vdiff | Vmissing | Verr _ => true | _ => false end.
  Lemma reported_visible : forall here ts lines, ALL here ts lines -> forall p v, In (p, v) lines -> told p v = true -> exists i, VIS here ts p i /\ judge o i (fs p) v.
  Proof.
    intros here ts lines A.
    pose (P := fun (here : fpath) (t : atree) (l : list dline) (_ : REPORTS here t l) => forall p v, In (p, v) l -> told p v = true -> exists i, VIS here [t] p i /\ judge o i (fs p) v).
    pose (Q := fun (here : fpath) (ts : list atree) (l : list dline) (_ : ALL here ts l) => forall p v, In (p, v) l -> told p v = true -> exists i, VIS here ts p i /\ judge o i (fs p) v).
    assert (MONO : forall h t us p i, In t us -> VIS h [t] p i -> VIS h us p i).
    { intros h t us p i It V. inversion V as [? ? t1 ? I1|? ? ? ? ? ? I1]; subst; (destruct I1 as [->|[]]); [eapply vis_here; eauto|eapply vis_below; eauto]. }
    assert (TAIL : forall h t us p i, VIS h us p i -> VIS h (t :: us) p i).
    { intros h t us p i V. inversion V; subst; [eapply vis_here; [right|..]; eauto|eapply vis_below; [right|..]; eauto]. }
    refine (rall_ind o subtree names fs P Q _ _ _ _ _ _ _ _ _ _ _ _ here ts lines A); unfold P, Q; clear P Q A here ts lines.
    - intros h i ch SS p v [E|[]] T. injection E as <- <-. discriminate.
    - intros h i ch v more SS J D RA IH p v0 [E|I] T.
      + injection E as <- <-. exists i. split; [|exact J]. eapply vis_here; [left; reflexivity|reflexivity|exact SS|left; reflexivity].
      + destruct (IH p v0 I T) as (j & V & Jj). exists j. split; [|exact Jj]. eapply vis_below; [left; reflexivity|exact SS|exact D|exact V].
    - intros h i ch v SS J D p v0 [E|[]] T. injection E as <- <-. exists i. split; [|exact J]. eapply vis_here; [left; reflexivity|reflexivity|exact SS|left; reflexivity].
    - intros h i SS p v [E|[]] T. injection E as <- <-. discriminate.
    - intros h i v SS NN J p v0 [E|[]] T. injection E as <- <-. exists i. split; [|exact J]. eapply vis_here; [left; reflexivity|reflexivity|exact SS|right; exact NN].
    - intros h i n SS p v I T. apply in_app_or in I as [I|[E|[]]]; [|injection E as <- <-; discriminate]. destruct (left_out o i n); [|destruct I]. destruct I as [E|[]]. injection E as <- <-. discriminate.
    - intros h i n v SS NN LE J p v0 [E|[]] T. injection E as <- <-. exists i. split; [|exact J]. eapply vis_here; [left; reflexivity|cbn [inode_met]; rewrite LE; reflexivity|exact SS|right; exact NN].
    - intros h i n SS NN LE p v [E|[E|[]]] T; injection E as <- <-; discriminate.
    - intros h n SS p v [E|[]] T. injection E as <- <-. discriminate.
    - intros h n SS NN p v [E|[]] T. injection E as <- <-. discriminate.
    - intros h p v [].
    - intros h t ts l m R IH1 RA IH2 p v I T. apply in_app_or in I as [I|I].
      + destruct (IH1 p v I T) as (i & V & J). exists i. split; [|exact J]. eapply MONO; [left; reflexivity|exact V].
      + destruct (IH2 p v I T) as (i & V & J). exists i. split; [|exact J]. apply TAIL. exact V.
  Qed.
End Lines.

(** ** a backup compared with the filesystem it was made of *)
Lemma child_in : forall l t, NoDup (map (fun t => f_name (froot t)) l) -> In t l -> child (f_name (froot t)) l = Some t.
Proof.
  induction l as [|u l IH]; intros t ND I; [destruct I|]. cbn [map] in ND. inversion ND as [|? ? N1 N2]; subst. cbn [child]. destruct I as [->|I]; [rewrite str_eqb_refl; reflexivity|].
  destruct (str_eqb_spec (f_name (froot u)) (f_name (froot t))) as [E|E]; [|apply IH; assumption]. exfalso. apply N1. rewrite E. apply in_map_iff. eauto.
Qed.
Lemma dates_refl : forall cap h d, dates_agree cap h d d.
Proof. intros. exists 0. split; [lia|]. unfold ndist. lia. Qed.
Lemma backup_agrees : forall o f, finode_ok f -> agrees o (backup_inode f) f.
Proof.
  intros o f HF. unfold agrees, backup_inode. cbn [a_name a_uid a_gid a_perm a_mtime].
  split; [reflexivity|]. split; [auto|]. split; [auto|]. split; [intros; apply dates_refl|]. split; [intros; apply dates_refl|]. split; [|split].
  - unfold kinds_agree. cbn [a_kind a_mtime a_saved]. destruct (f_kind f); cbn [backup_kind]; auto.
    split; [reflexivity|]. split; [apply dates_refl|]. unfold data_agrees. cbn [a_saved].
    assert (K : crc_size (stored_crc data) = crc_width (N.of_nat (length data))) by (unfold crc_size, stored_crc; cbn [cyclic]; unfold checksum; rewrite map_length, seq_length; reflexivity).
    assert (R : right_sum (stored_crc data) data) by (unfold right_sum; rewrite K; reflexivity).
    destruct (o_isolated o); [intros k E; injection E as <-; exact R|]. split; [reflexivity|]. intros k E. injection E as <-. split; [exact R|intros _; exact K].
  - unfold eas_agree. cbn [a_ea a_eas]. destruct (f_eas f) as [l|]; [|exact I]. exists l. split; [reflexivity|]. auto.
  - unfold fsas_agree. cbn [a_fsa a_fsas]. destruct (f_fsas f) as [l|]; [|exact I]. auto.
Qed.
Lemma backup_ok : forall o f, finode_ok f -> ainode_ok (backup_inode f) /\ fsa_reached o (backup_inode f) f.
Proof.
  intros o f [H1 H2]. split.
  - unfold ainode_ok, backup_inode. cbn [a_eas a_fsas a_kind a_saved]. split; [destruct (f_eas f) as [l|]; [apply H1; reflexivity|constructor]|].
    split; [destruct (f_fsas f) as [l|]; [apply (H2 l eq_refl)|exact I]|]. destruct (f_kind f); cbn [backup_kind]; auto.
    split; [|split; [discriminate|split; [discriminate|discriminate]]]. intros k E. injection E as <-. unfold crc_size, stored_crc. cbn [cyclic]. unfold checksum. rewrite map_length, seq_length. apply crc_width_pos.
  - intros you x E I S. unfold backup_inode in I. cbn [a_fsas] in I. rewrite E in I. exists x. split; [exact I|apply fsa_lt_not_before; apply fsa_lt_irrefl].
Qed.
Fixpoint fsize (t : ftree) : nat := match t with FT _ ch => S ((fix go l := match l with [] => O | t :: l => (fsize t + go l)%nat end) ch) end.
Definition fsizes (l : list ftree) : nat := fold_right (fun t n => (fsize t + n)%nat) O l.
Lemma fsize_eq : forall f ch, fsize (FT f ch) = S (fsizes ch).
Proof. intros f ch. cbn [fsize]. apply f_equal. induction ch as [|t ch IH]; [reflexivity|]. change (fsizes (t :: ch)) with (fsize t + fsizes ch)%nat. rewrite <- IH. reflexivity. Qed.
Lemma ftree_ok_eq : forall f ch, ftree_ok (FT f ch) -> finode_ok f /\ NoDup (map (fun t => f_name (froot t)) ch) /\ Forall ftree_ok ch.
Proof. intros f ch H. cbn [ftree_ok] in H. destruct H as (H1 & H2 & H3). split; [exact H1|]. split; [exact H2|]. induction ch as [|t ch IH]; [constructor|]. destruct H3 as [H3 H4]. constructor; [exact H3|]. apply IH; [inversion H2; assumption|exact H4]. Qed.
Lemma backup_name : forall links t, tname (backup links t) = f_name (froot t).
Proof. intros links [f ch]. cbn [backup froot]. destruct (is_dirkind (f_kind f)); [reflexivity|]. destruct (links f); reflexivity. Qed.
Section Backup.
  Variables (o : dopt) (links : finode -> option N) (root : list ftree).
  Notation FS := (fs_of root).
  (** the trees [ts] are among those found in the directory [here] *)
  Definition found_in (here : fpath) (ts : list ftree) : Prop :=
    exists l, fold_left enter (rev here) (Some root) = Some l /\ NoDup (map (fun t => f_name (froot t)) l) /\ Forall ftree_ok l /\ forall t, In t ts -> In t l.
  Lemma found_fs : forall here ts t, found_in here ts -> In t ts -> FS (f_name (froot t) :: here) = Found (froot t) /\ ftree_ok t /\
    (is_dirkind (f_kind (froot t)) = true -> found_in (f_name (froot t) :: here) (fchildren t)).
  Proof.
    intros here ts t (l & E & ND & OK & S) I. pose proof (child_in l t ND (S t I)) as C. assert (OT : ftree_ok t) by (rewrite Forall_forall in OK; apply OK, S, I).
    split; [cbn [fs_of]; rewrite E, C; reflexivity|]. split; [exact OT|]. intro D. destruct t as [f ch]. cbn [froot fchildren] in *. destruct (ftree_ok_eq _ _ OT) as (_ & N2 & O2).
    exists ch. split; [|auto]. cbn [rev]. rewrite fold_left_app. cbn [fold_left]. rewrite E. cbn [enter]. rewrite C. cbn [froot fchildren]. rewrite D. reflexivity.
  Qed.
  Lemma backup_trees : forall k ts here, (fsizes ts <= k)%nat -> found_in here ts -> trees_ok o FS here (map (backup links) ts).
  Proof.
    induction k as [|k IH]; intros ts here Hk HF.
    - destruct ts as [|[f ch] ts]; [constructor|]. change (fsizes (FT f ch :: ts)) with (fsize (FT f ch) + fsizes ts)%nat in Hk. rewrite fsize_eq in Hk. lia.
    - apply Forall_forall. intros a Ia. apply in_map_iff in Ia as (t & <- & It).
      assert (Sz : (fsize t <= fsizes ts)%nat).
      { clear -It. induction ts as [|u ts IHt]; [destruct It|]. change (fsizes (u :: ts)) with (fsize u + fsizes ts)%nat. destruct It as [->|It]; [lia|]. specialize (IHt It). lia. }
      destruct (found_fs here ts t HF It) as (E & OT & D). destruct t as [f ch]. cbn [froot fchildren] in *. rewrite fsize_eq in Sz. destruct (ftree_ok_eq _ _ OT) as (FO & _ & _).
      destruct (backup_ok o f FO) as [AO FR]. cbn [backup].
      assert (MET : ainode_ok (backup_inode f) /\ (forall e, FS (a_name (backup_inode f) :: here) = Fails e -> fatal e = false) /\
        (forall f0, FS (a_name (backup_inode f) :: here) = Found f0 -> finode_ok f0 /\ f_name f0 = a_name (backup_inode f) /\ fsa_reached o (backup_inode f) f0)).
      { cbn [a_name backup_inode] in *. rewrite E. split; [exact AO|]. split; [discriminate|]. intros f0 E0. injection E0 as <-. auto. }
      destruct (is_dirkind (f_kind f)) eqn:KD.
      + cbn [tree_ok]. split; [exact MET|]. split; [cbn [a_name backup_inode]; rewrite E; discriminate|]. split; [cbn [a_kind backup_inode]; destruct (f_kind f); try discriminate; reflexivity|].
        specialize (IH ch (f_name f :: here) ltac:(lia) (D eq_refl)). unfold trees_ok in IH. cbn [a_name backup_inode]. revert IH. generalize (map (backup links) ch). induction l as [|x l IHl]; intro F; [exact I|]. inversion F; subst. split; [assumption|apply IHl; assumption].
      + assert (NK : a_kind (backup_inode f) <> Adir) by (cbn [a_kind backup_inode]; destruct (f_kind f); discriminate).
        destruct (links f); cbn [tree_ok]; split; assumption.
  Qed.
  Lemma backup_visible : forall k ts here p i subtree names, (fsizes ts <= k)%nat -> found_in here ts -> visible o subtree names FS here (map (backup links) ts) p i ->
    exists f, FS p = Found f /\ finode_ok f /\ i = backup_inode f.
  Proof.
    induction k as [|k IH]; intros ts here p i subtree names Hk HF V; inversion V as [? ? t ? I1 M SU NA|? ? i1 ch1 ? ? I1 SU DI V1]; subst; apply in_map_iff in I1 as ([f ch] & E & It);
      (assert (Sz : (fsize (FT f ch) <= fsizes ts)%nat) by (clear -It; induction ts as [|u ts IHt]; [destruct It|]; change (fsizes (u :: ts)) with (fsize u + fsizes ts)%nat; destruct It as [->|It]; [lia|]; specialize (IHt It); lia));
      rewrite fsize_eq in Sz; try lia; destruct (found_fs here ts (FT f ch) HF It) as (EF & OT & D); cbn [froot fchildren] in *; destruct (ftree_ok_eq _ _ OT) as (FO & _ & _); cbn [backup] in E.
    - assert (i = backup_inode f).
      { destruct (is_dirkind (f_kind f)); [subst t; cbn [inode_met] in M; congruence|]. destruct (links f); subst t; cbn [inode_met] in M; [destruct (left_out o (backup_inode f) n); congruence|congruence]. }
      subst i. exists f. cbn [a_name backup_inode]. auto.
    - destruct (is_dirkind (f_kind f)) eqn:KD; [|destruct (links f); discriminate]. injection E as <- <-. apply (IH ch (f_name f :: here) p i subtree names); [lia|exact (D eq_refl)|exact V1].
  Qed.
End Backup.
