(** Proofs for C40, part 2: restoring one entry. *)
From Coq Require Import NArith List Bool Lia.
From Verif Require Import Base DatetimeModel PropDatetime PropChange CritModel RestoreModel RestoreSpec RestoreProof.
Import ListNotations.
Open Scope N_scope.
Local Set Warnings "-notation-overridden".

Section Detect.
Variables (cap : time_unit) (hourshift : N).
Lemma changed_seen : forall h f t, crel f t -> h_kind h = h_kind t -> changed cap hourshift h f = false -> ~ seen_changed cap hourshift t h.
Proof.
  intros h f t (Ck & Cu & Cg & Cp & Cm & Cc & Cs & _) K H Q.
  set (f' := {| i_uid := c_uid f; i_gid := c_gid f; i_perm := c_perm f; i_mod := c_mtime f; i_size := if kind_eqb (h_kind h) KFile then c_size f else size_of h |}).
  assert (E : file_has_changed_since cap (ino_of_head h) f' hourshift F_all = Ok false).
  { unfold changed in H. destruct (kind_eqb (h_kind h) KFile).
    - destruct (C34_changed_exactly cap (ino_of_head h) (ino_of_chead f) hourshift F_all) as (b & E & _). rewrite E in H. subst b. exact E.
    - destruct (C34_changed_exactly cap (ino_of_head h) f' hourshift F_all) as (b & E & _).
      assert (Z : has_changed_since cap (ino_of_head h) f' hourshift F_all = has_changed_since cap (ino_of_head h) (ino_of_chead f) hourshift F_all) by reflexivity.
      unfold file_has_changed_since in *. rewrite Z in *. destruct (has_changed_since cap (ino_of_head h) (ino_of_chead f) hourshift F_all) as [b0|]; [|discriminate].
      subst b0. cbn [bind]. unfold f'. cbn [ino_of_head i_size]. rewrite N.eqb_refl. reflexivity. }
  destruct (C34_changed_exactly cap (ino_of_head h) f' hourshift F_all) as (b & E' & S). rewrite E in E'. injection E' as <-.
  assert (F : false = true); [|discriminate]. apply S. unfold f', ino_of_head in *. cbn [i_uid i_gid i_perm i_mod i_size]. unfold seen_changed in Q.
  destruct Q as [Q|[Q|[Q|[[Q1 Q]|Q]]]].
  - right. left. split; [reflexivity|]. left. congruence.
  - right. left. split; [reflexivity|]. right. congruence.
  - right. right. left. split; [left; reflexivity|]. congruence.
  - right. right. right. rewrite Q1, Cs. cbn [kind_eqb]. unfold size_of. lia.
  - left. split; [discriminate|]. unfold date_seen, ino_of_head in *. cbn [i_mod] in *. rewrite Cm. exact Q.
Qed.
Lemma ctime_old_seen : forall h f t, crel f t -> ctime_old h f = true -> ~ ctime_moved t h.
Proof.
  intros h f t (Ck & Cu & Cg & Cp & Cm & Cc & Cs & _) H Q. unfold ctime_old in H. unfold ctime_moved in Q. cbv zeta in Q. rewrite C19_order, C19_loose_equal, Cc in H.
  assert (U : unit_max (uni (h_ctime h)) (uni (h_ctime t)) = unit_max (uni (h_ctime t)) (uni (h_ctime h))) by (destruct (uni (h_ctime h)), (uni (h_ctime t)); reflexivity).
  rewrite U in H. set (g := unit_ns _) in *. assert (0 < g) by (subst g; destruct (unit_max _ _); cbn; unfold G; lia). apply orb_true_iff in H. destruct H as [H|H].
  - rewrite negb_true_iff, N.ltb_ge in H. assert (instant (h_ctime h) / g <= instant (h_ctime t) / g) by (apply N.div_le_mono; lia). lia.
  - apply N.eqb_eq in H. lia.
Qed.
End Detect.

Section Write.
Variables (me_uid me_gid : N) (now : datetime).
Variable cov : rpath -> bool.
Variable s : bool.
Variables (cap : time_unit) (hourshift : N).
Definition pol0 : head -> cnode -> adata * aea := fun _ _ => (D_overwrite, A_overwrite).
Notation write1 := (write1 me_uid me_gid now pol0).
Notation save_head := (save_head cap hourshift).
Notation trel := (trel cov s).
Notation prel := (prel cov s).
Notation cmatch := (cmatch cov).

(** [d']: [d] but for its entry [n], now [Node h c] *)
Definition has (d d' : node) (n : name) (flag : bool) (h : head) (c : list (name * node)) : Prop :=
  (forall m, m <> n -> aget m (ch_of d') = aget m (ch_of d)) /\
  (hd_of d' = hd_of d \/ (flag = true /\ hd_of d' = with_mtime (hd_of d) now)) /\ aget n (ch_of d') = Some (Node h c).
Lemma has_on : forall d d' n flag h c f, has d d' n flag h c -> has d (on_child n f d') n flag (f h) c.
Proof.
  intros d d' n flag h c f (A & B & D). unfold on_child. rewrite D. split; [|split].
  - intros m Hm. cbn [ch_of]. rewrite aget_set_other by exact Hm. auto.
  - exact B.
  - cbn [ch_of]. apply aget_set_same.
Qed.
Lemma has_id : forall d n h c, aget n (ch_of d) = Some (Node h c) -> has d d n false h c.
Proof. intros. split; [reflexivity|]. split; [left; reflexivity|assumption]. Qed.
Lemma has_flag : forall d d' n h c, has d d' n false h c -> has d d' n true h c.
Proof. intros d d' n h c (A & [B|[B _]] & D); [|discriminate]. split; [exact A|]. split; [left; exact B|exact D]. Qed.
Lemma has_create : forall d n h, aget n (ch_of d) = None -> has d (create now n h d) n true h [].
Proof.
  intros d n h E. unfold create, touch. split; [|split]; cbn [ch_of hd_of].
  - intros m Hm. rewrite aget_app. destruct (aget m (ch_of d)); [reflexivity|]. cbn. rewrite neqb_ne by exact Hm. reflexivity.
  - right. auto.
  - rewrite aget_app, E. cbn. rewrite neqb_refl. reflexivity.
Qed.
Lemma has_replace : forall d n h, has d (create now n h (remove now n d)) n true h [].
Proof.
  intros d n h. unfold create, remove, touch. split; [|split]; cbn [ch_of hd_of].
  - intros m Hm. rewrite aget_app, aget_del_other by exact Hm. destruct (aget m (ch_of d)); [reflexivity|]. cbn. rewrite neqb_ne by exact Hm. reflexivity.
  - right. auto.
  - rewrite aget_app, aget_del_same. cbn. rewrite neqb_refl. reflexivity.
Qed.

Definition meta_eq (a b : head) : Prop := h_uid a = h_uid b /\ h_gid a = h_gid b /\ h_perm a = h_perm b /\ h_mtime a = h_mtime b.

Lemma save_kind : forall h f, c_kind (save_head h f) = h_kind h. Proof. reflexivity. Qed.
Lemma save_none_saved : forall h, c_saved (save_head h None) = true. Proof. reflexivity. Qed.
Lemma save_none_data : forall h, c_data (save_head h None) = h_data h. Proof. reflexivity. Qed.
Lemma save_none_ea : forall h, c_ea (save_head h None) = match h_ea h with [] => EA_none | l => EA_full l end. Proof. reflexivity. Qed.
Lemma with_meta_save : forall h0 h f, (h_kind h = KLink -> h_perm h0 = h_perm h) -> meta_eq (with_meta h0 (save_head h f)) h.
Proof. intros h0 h f K. unfold meta_eq, with_meta. cbn. repeat split. destruct (h_kind h); auto. Qed.

Lemma cmatch_get : forall rp C T n h c, cmatch rp C T -> aget n T = Some (Node h c) -> cov (n :: rp) = true ->
  exists fh fch, aget n C = Some (CIno fh fch) /\ crel fh h /\ cmatch (n :: rp) fch c.
Proof.
  intros rp C T n h c H E Ec. inversion H; subst. destruct (H1 n h c E Ec) as (fh & fch & F). exists fh, fch. split; [exact F|].
  destruct (H0 n fh fch F) as (_ & h' & c' & E' & K & M). rewrite E in E'. injection E' as <- <-. auto.
Qed.
Lemma cmatch_none : forall rp C T n h, cmatch rp C T -> aget n T = None -> ref_inode h (aget n C) = None /\ below h (aget n C) = [].
Proof.
  intros rp C T n h H E. inversion H; subst. destruct (aget n C) as [[fh fch|k|]|] eqn:F.
  - destruct (H0 n fh fch F) as (_ & h' & c' & E' & _). congruence.
  - unfold below. cbn. destruct (is_dir (h_kind h)); auto.
  - unfold below. cbn. destruct (is_dir (h_kind h)); auto.
  - unfold below. cbn. destruct (is_dir (h_kind h)); auto.
Qed.

(** what the archive holds for an inode that the reference knows *)
Definition hon (th h : head) : Prop := h_kind th = h_kind h ->
    (~ seen_changed cap hourshift th h -> h_uid th = h_uid h /\ h_gid th = h_gid h /\ h_perm th = h_perm h /\ h_mtime th = h_mtime h /\ h_data th = h_data h) /\
    (~ ctime_moved th h -> h_ea th = h_ea h).
Lemma save_same : forall th h fh, crel fh th -> h_kind th = h_kind h -> hon th h ->
  let x := save_head h (Some fh) in
  (c_saved x = false /\ meta_eq th h /\ h_data th = h_data h \/ c_saved x = true /\ c_data x = h_data h) /\
  (match c_ea x with EA_full l => l = h_ea h | EA_removed => h_ea h = [] | EA_none => h_ea h = [] /\ h_ea th = [] | EA_partial => h_ea th = h_ea h end).
Proof.
  intros th h fh Cr K Hn. destruct (Hn K) as [Hd He]. cbv zeta. split.
  - cbn [c_saved c_data RestoreModel.save_head]. destruct (changed cap hourshift h fh) eqn:E; cbn [negb]; [right; auto|].
    left. destruct (Hd (changed_seen cap hourshift h fh th Cr (eq_sym K) E)) as (A & B & C & D & F). unfold meta_eq. auto 10.
  - cbn [c_ea RestoreModel.save_head]. destruct Cr as (Ck & Cu & Cg & Cp & Cm & Cc & Cs & Ce). destruct (h_ea h) as [|kv l] eqn:Eh.
    + destruct (c_ea fh); try reflexivity; split; auto; apply Ce; auto.
    + destruct (has_ea_recorded (c_ea fh) && ctime_old h fh) eqn:Q; [|reflexivity]. apply andb_true_iff in Q. destruct Q as [_ Q].
      apply He. eapply ctime_old_seen; [|exact Q]. unfold crel. auto 10.
Qed.

Lemma nondir : forall k, is_dir k = false <-> k <> KDir. Proof. intros [| | |x]; cbn; split; intro; congruence. Qed.


Lemma ea_write_same : forall l, NoDup (map fst l) -> ea_write l l = l.
Proof.
  assert (G : forall l o, NoDup (map fst (o ++ l)) -> ea_write (o ++ l) l = o ++ l).
  { induction l as [|[k v] r IH]; intros o Nd; [reflexivity|]. unfold ea_write. cbn [fold_left fst snd]. rewrite aset_id by (apply in_aget; [exact Nd|apply in_or_app; right; left; reflexivity]).
    replace (o ++ (k, v) :: r) with ((o ++ [(k, v)]) ++ r) in * by (rewrite <- app_assoc; reflexivity). apply IH. exact Nd. }
  intros l Nd. apply (G l []). exact Nd.
Qed.
(** what write() makes of an existing entry [Node eh ec] *)
Definition xlist (e : eastat) : list (name * list N) := match e with EA_full l => l | _ => [] end.
Definition ea_saved (e : eastat) : bool := match e with EA_full _ | EA_removed => true | _ => false end.
Definition replaced (eh : head) (xh : chead) : bool := c_saved xh && negb (is_dir (c_kind xh) && kind_eqb (c_kind xh) (h_kind eh)).
Lemma over_char : forall d n eh ec xh xch, aget n (ch_of d) = Some (Node eh ec) ->
  exists d' h1, write_over me_uid me_gid now pol0 d n eh (CIno xh xch) =
      (d', c_saved xh, WOk (if is_dir (c_kind xh) && (is_dir (h_kind eh) || c_saved xh) then Some (c_saved xh) else None)) /\
    has d d' n (c_saved xh) h1 (if replaced eh xh then [] else ec) /\
    h_kind h1 = (if replaced eh xh then c_kind xh else h_kind eh) /\
    h_data h1 = (if replaced eh xh then c_data xh else h_data eh) /\
    h_ea h1 = (if ea_saved (c_ea xh) then ea_write [] (xlist (c_ea xh)) else if replaced eh xh then ea_write [] (h_ea eh) else h_ea eh) /\
    (c_saved xh = false -> meta_eq h1 eh) /\
    (c_saved xh = true -> is_dir (h_kind eh) = false -> exists h0, h_uid h1 = c_uid xh /\ h_gid h1 = c_gid xh /\ h_mtime h1 = c_mtime xh /\
       h_perm h1 = (match c_kind xh with KLink => h_perm h0 | _ => c_perm xh end) /\ (c_kind xh = KLink -> h_perm h0 = 511)).
Proof.
  intros d n eh ec xh xch Ed. unfold write_over, pol0. cbn [is_remove negb andb orb].
  set (act := fun h0 : head => with_ea h0 (fst (over_ea A_overwrite (c_ea xh) (h_ea eh) (h_ea h0)))).
  assert (Act : forall h0, act h0 = with_ea h0 (ea_write [] (xlist (c_ea xh)))) by reflexivity.
  change (match c_ea xh with EA_full _ | EA_removed => true | _ => false end) with (ea_saved (c_ea xh)).
  change (snd (over_ea A_overwrite (c_ea xh) (h_ea eh) [])) with true. rewrite andb_true_r.
  assert (B : exists d0 h0, (if c_saved xh then over_data me_uid me_gid now d n eh xh D_overwrite else (d, Some DNoData)) =
     (d0, Some (if c_saved xh then DRestored else DNoData)) /\ has d d0 n (c_saved xh) h0 (if replaced eh xh then [] else ec) /\
     h_kind h0 = (if replaced eh xh then c_kind xh else h_kind eh) /\ h_data h0 = (if replaced eh xh then c_data xh else h_data eh) /\
     h_ea h0 = (if replaced eh xh then ea_write [] (h_ea eh) else h_ea eh) /\ (c_saved xh = false -> h0 = eh) /\
     (c_saved xh = true -> is_dir (h_kind eh) = false -> c_kind xh = KLink -> h_perm h0 = 511)).
  { assert (Old := has_id d n eh ec Ed). unfold replaced. destruct (c_saved xh); cbn [andb].
    - unfold over_data. destruct (is_dir (c_kind xh) && kind_eqb (c_kind xh) (h_kind eh)) eqn:Q; cbn [negb].
      + eexists _, _. split; [reflexivity|]. split; [apply has_on, has_flag, Old|]. repeat split; auto; try discriminate. intros _ Z1 Z2. rewrite Z2 in Q. discriminate.
      + eexists _, _. split; [reflexivity|]. split; [apply has_on, has_replace|]. cbn. repeat split; auto; try discriminate. intros _ _ ->. reflexivity.
    - exists d, eh. repeat split; auto; try discriminate; apply Old. }
  destruct B as (d0 & h0 & -> & H0 & K0 & D0 & E0 & U0 & L0). cbv iota.
  assert (R : match (if c_saved xh then DRestored else DNoData) with DRestored => true | _ => false end = c_saved xh) by (destruct (c_saved xh); reflexivity).
  rewrite R. clear R.
  assert (Z : exists h2, has d (if ea_saved (c_ea xh) then on_child n act d0 else d0) n (c_saved xh) h2 (if replaced eh xh then [] else ec) /\
     h2 = if ea_saved (c_ea xh) then act h0 else h0).
  { eexists. split; [|reflexivity]. destruct (ea_saved (c_ea xh)); [apply has_on|]; exact H0. }
  destruct Z as (h2 & H2 & E2). set (d2 := if ea_saved (c_ea xh) then on_child n act d0 else d0) in *.
  destruct (aget n (ch_of d2)) eqn:G2; [|destruct H2 as (_ & _ & Z'); congruence]. rewrite andb_false_r. clear G2.
  assert (Z : exists h3, has d (if ea_saved (c_ea xh) || c_saved xh then if c_saved xh then if is_dir (h_kind eh) then d2 else on_child n (fun h0 : head => with_meta h0 xh) d2
        else on_child n (fun h0 : head => with_mtime h0 (h_mtime eh)) d2 else d2) n (c_saved xh) h3 (if replaced eh xh then [] else ec) /\
     h3 = (if c_saved xh then if is_dir (h_kind eh) then h2 else with_meta h2 xh else if ea_saved (c_ea xh) then with_mtime h2 (h_mtime eh) else h2)).
  { eexists. split; [|reflexivity]. destruct (c_saved xh), (ea_saved (c_ea xh)); cbn [orb]; try (destruct (is_dir (h_kind eh))); first [exact H2|exact (has_on _ _ _ _ _ _ _ H2)]. }
  destruct Z as (h3 & H3 & E3). set (d3 := if ea_saved (c_ea xh) || c_saved xh then _ else _) in *.
  eexists _, (if ea_saved (c_ea xh) then act h3 else h3). split; [reflexivity|].
  split; [destruct (ea_saved (c_ea xh)); [apply has_on|]; exact H3|].
  rewrite <- K0, <- D0, <- E0. subst h3 h2.
  split; [destruct (ea_saved (c_ea xh)), (c_saved xh), (is_dir (h_kind eh)); reflexivity|].
  split; [destruct (ea_saved (c_ea xh)), (c_saved xh), (is_dir (h_kind eh)); reflexivity|].
  split; [destruct (ea_saved (c_ea xh)), (c_saved xh), (is_dir (h_kind eh)); reflexivity|].
  split.
  - intro Sv. rewrite Sv in *. rewrite (U0 eq_refl). unfold meta_eq. destruct (ea_saved (c_ea xh)); cbn; auto.
  - intros Sv Nde. rewrite Sv, Nde in *. exists h0. destruct (ea_saved (c_ea xh)); cbn; auto 10.
Qed.

(** restoring an inode over the tree of the previous state *)
Lemma write_ino : forall rp d C T n h xch,
  prel rp (ch_of d) T n -> cmatch rp C T -> cov (n :: rp) = true ->
  (forall th tc, aget n T = Some (Node th tc) -> (h_kind th <> KDir -> tc = []) /\ (h_kind th = KDir -> h_data th = []) /\ hon th h /\
      (s = true -> h_kind th <> h_kind h -> h_kind th <> KDir /\ (h_ea th = [] \/ h_ea h <> []))) ->
  NoDup (map fst (h_ea h)) -> (h_kind h = KDir -> h_data h = []) -> (h_kind h = KLink -> h_perm h = 511) ->
  exists d' flag b h1 c1 Tn,
    write1 d n (CIno (save_head h (ref_inode h (aget n C))) xch) = (d', flag, WOk (if is_dir (h_kind h) then Some b else None)) /\
    has d d' n flag h1 c1 /\ h_kind h1 = h_kind h /\ h_data h1 = h_data h /\ (s = true -> h_ea h1 = h_ea h) /\
    (s = true -> is_dir (h_kind h) = false \/ b = false -> meta_eq h1 h) /\
    trel (n :: rp) c1 Tn /\ cmatch (n :: rp) (below h (aget n C)) Tn /\ (Tn = [] \/ exists th, aget n T = Some (Node th Tn)) /\
    (is_dir (h_kind h) = false -> Tn = []).
Proof.
  intros rp d C T n h xch Hp Hm Hc HT Nd Dd Lk. unfold RestoreProof.prel in Hp. rewrite Hc in Hp. unfold RestoreModel.write1.
  destruct (aget n (ch_of d)) as [[eh ec]|] eqn:Ed.
  - (* an entry of that name exists *)
    destruct (aget n T) as [[th tc]|] eqn:ET; [|destruct Hp]. cbn [hd_of ch_of] in *. destruct Hp as [(Hk & Hdt & Hs) Htr].
    destruct (HT th tc eq_refl) as (Tc & Te & Hn & Hty).
    destruct (cmatch_get rp C T n th tc Hm ET Hc) as (fh & fch & EC & Cr & Cm). rewrite EC. cbn [ref_inode].
    assert (Ck : c_kind fh = h_kind th) by apply Cr.
    destruct (kind_eqb (h_kind h) (c_kind fh)) eqn:Ek.
    + (* same type *)
      apply kind_eqb_spec in Ek. assert (K : h_kind th = h_kind h) by congruence.
      destruct (save_same th h fh Cr K Hn) as [Sd Se]. cbv zeta in *.
      set (x := save_head h (Some fh)) in *. assert (Xk : c_kind x = h_kind h) by reflexivity.
      assert (Xm : c_uid x = h_uid h /\ c_gid x = h_gid h /\ c_perm x = h_perm h /\ c_mtime x = h_mtime h) by (repeat split).
      destruct (over_char d n eh ec x xch Ed) as (d' & h1 & W & Ha & HK & HD & HE & HU & HM).
      assert (Rp : replaced eh x = c_saved x && negb (is_dir (h_kind h))).
      { unfold replaced. rewrite Xk, Hk, K, kind_eqb_refl, andb_true_r. reflexivity. }
      assert (Bel : below h (Some (CIno fh fch)) = if is_dir (h_kind h) then fch else []).
      { unfold below, ref_below. rewrite Ck, K. destruct (is_dir (h_kind h)); reflexivity. }
      assert (Tcn : is_dir (h_kind h) = false -> tc = []) by (intro Q; apply Tc; rewrite K; apply nondir; exact Q).
      assert (CMB : cmatch (n :: rp) (below h (Some (CIno fh fch))) tc).
      { rewrite Bel. destruct (is_dir (h_kind h)) eqn:Q; [exact Cm|]. rewrite Tcn by reflexivity. apply cmatch_nil. }
      exists d', (c_saved x), (c_saved x), h1, (if replaced eh x then [] else ec), tc.
      split. { rewrite W, Xk, Hk, K. destruct (is_dir (h_kind h)); reflexivity. }
      split; [exact Ha|]. split. { rewrite HK, Xk. destruct (replaced eh x); congruence. }
      split. { rewrite HD, Rp. destruct Sd as [(Sv & _ & Dt)|(Sv & Dt)]; rewrite Sv; cbn [andb]; [congruence|].
        destruct (is_dir (h_kind h)) eqn:Q; cbn [negb]; [|exact Dt]. apply is_dir_spec in Q. rewrite Hdt, Te, Dd; congruence. }
      split. { intro S. destruct (Hs S) as (_ & _ & _ & _ & E). rewrite HE. destruct (c_ea x) as [| |l|] eqn:Ex; cbn [ea_saved xlist].
        - destruct Se as [Se1 Se2]. rewrite E, Se2, Se1. destruct (replaced eh x); reflexivity.
        - rewrite E, Se. destruct (replaced eh x); [apply ea_write_nil; exact Nd|reflexivity].
        - subst l. apply ea_write_nil; exact Nd.
        - rewrite Se. reflexivity. }
      split. { intros S Q. destruct (Hs S) as (S1 & S2 & S3 & S4 & _). destruct Sd as [(Sv & (M1 & M2 & M3 & M4) & Dt)|(Sv & Dt)].
        - destruct (HU Sv) as (? & ? & ? & ?). unfold meta_eq. repeat split; congruence.
        - destruct Q as [Q|Q]; [|congruence]. destruct HM as (h0 & M1 & M2 & M3 & M4 & M5); [exact Sv|congruence|]. destruct Xm as (X1 & X2 & X3 & X4).
          unfold meta_eq. repeat split; try congruence. rewrite M4, Xk in *. destruct (h_kind h) eqn:Z; try congruence. rewrite M5, Lk; congruence. }
      split. { rewrite Rp. destruct (c_saved x); cbn [andb]; [|exact Htr]. destruct (is_dir (h_kind h)) eqn:Q; cbn [negb]; [exact Htr|]. rewrite (Tcn eq_refl). apply trel_nil. }
      split; [exact CMB|]. split; [right; eauto|exact Tcn].
    + (* the type has changed *)
      assert (K : h_kind th <> h_kind h). { intro Q. rewrite Ck, Q, kind_eqb_refl in Ek. discriminate. }
      set (x := save_head h None) in *. assert (Xk : c_kind x = h_kind h) by reflexivity.
      assert (Xm : c_uid x = h_uid h /\ c_gid x = h_gid h /\ c_perm x = h_perm h /\ c_mtime x = h_mtime h) by (repeat split).
      assert (Sv : c_saved x = true) by reflexivity. assert (Dt : c_data x = h_data h) by reflexivity.
      destruct (over_char d n eh ec x xch Ed) as (d' & h1 & W & Ha & HK & HD & HE & HU & HM).
      assert (Rp : replaced eh x = true).
      { unfold replaced. rewrite Sv, Xk. destruct (kind_eqb (h_kind h) (h_kind eh)) eqn:Q; [apply kind_eqb_spec in Q; congruence|]. rewrite andb_false_r. reflexivity. }
      rewrite Rp in *.
      assert (Bel : below h (Some (CIno fh fch)) = []).
      { unfold below, ref_below. destruct (is_dir (h_kind h)) eqn:Q1; [|reflexivity]. destruct (is_dir (c_kind fh)) eqn:Q2; [|reflexivity].
        apply is_dir_spec in Q1, Q2. congruence. }
      exists d', true, true, h1, [], [].
      split. { rewrite W, Xk, Sv. destruct (is_dir (h_kind h)), (is_dir (h_kind eh)); reflexivity. }
      split; [rewrite Sv in Ha; exact Ha|]. split; [congruence|]. split; [congruence|].
      split. { intro S. destruct (Hs S) as (_ & _ & _ & _ & E). destruct (Hty S K) as [_ Q]. rewrite HE. unfold x. rewrite save_none_ea. destruct (h_ea h) as [|kv l] eqn:Eh.
        - cbn [ea_saved]. destruct Q as [Q|Q]; [|congruence]. rewrite E, Q. reflexivity.
        - cbn [ea_saved xlist]. apply ea_write_nil. exact Nd. }
      split. { intros S [Q|Q]; [|discriminate]. destruct (Hty S K) as [Q1 _]. destruct HM as (h0 & M1 & M2 & M3 & M4 & M5); [exact Sv|apply nondir; congruence|]. destruct Xm as (X1 & X2 & X3 & X4).
          unfold meta_eq. repeat split; try congruence. rewrite M4, Xk in *. destruct (h_kind h) eqn:Z; try congruence. rewrite M5, Lk; congruence. }
      split; [apply trel_nil|]. rewrite Bel. split; [apply cmatch_nil|]. auto.
  - (* no entry of that name *)
    destruct (aget n T) as [[th tc]|] eqn:ET; [destruct Hp|]. destruct (cmatch_none rp C T n h Hm ET) as [-> ->]. unfold write_new.
    set (x := save_head h None). assert (Xk : c_kind x = h_kind h) by reflexivity.
    assert (Sv : c_saved x = true) by reflexivity. rewrite Sv. cbn [orb].
    eexists _, true, true, _, [], []. split; [rewrite Xk; reflexivity|]. split; [apply has_create; exact Ed|].
    split. { destruct (c_ea x), (is_dir (h_kind h)); reflexivity. }
    split. { destruct (c_ea x), (is_dir (h_kind h)); reflexivity. }
    split. { intro S. unfold x. rewrite save_none_ea. destruct (h_ea h) as [|kv l] eqn:Eh. destruct (is_dir (h_kind h)); reflexivity.
      destruct (is_dir (h_kind h)); cbn [with_ea h_ea with_meta fresh]; rewrite !(ea_write_nil (kv :: l)) by exact Nd; apply ea_write_same; exact Nd. }
    split. { intros S [Q|Q]; [|discriminate]. rewrite Q. assert (M := with_meta_save (match c_ea x with EA_full l => with_ea (fresh me_uid me_gid now x) (ea_write (h_ea (fresh me_uid me_gid now x)) l) | _ => fresh me_uid me_gid now x end) h None).
      fold x in M. destruct (c_ea x); (apply M; intro Z; rewrite (Lk Z); unfold fresh, with_ea; cbn [h_perm c_kind x RestoreModel.save_head]; rewrite Z; reflexivity). }
    split; [apply trel_nil|]. split; [apply cmatch_nil|]. auto.
Qed.
End Write.
