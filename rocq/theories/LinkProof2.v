(** Proofs for C41, part 2: restoring one archive. *)
From Coq Require Import NArith List Bool Lia.
From Verif Require Import Base DatetimeModel PropDatetime PropChange CritModel RestoreModel RestoreSpec RestoreProof RestoreProof2 LinkModel LinkSpec LinkProof.
Import ListNotations.
Open Scope N_scope.
Local Set Warnings "-notation-overridden".

(** [f']: [f] but for the name [p], now a link to inode [k], that holds [h] *)
Definition desc (f f' : lfs) (p : name) (k : N) (h : head) : Prop :=
  (forall q, nm f' q = updn (nm f) p (Some k) q) /\ (forall m, tb f' m = upd (tb f) k h m).
Lemma desc_nm : forall f f' p k h, desc f f' p k h -> nm f' p = Some k. Proof. intros f f' p k h [A _]. rewrite A. apply updn_same. Qed.
Lemma desc_tb : forall f f' p k h, desc f f' p k h -> tb f' k = h. Proof. intros f f' p k h [_ A]. rewrite A. apply upd_same. Qed.
Lemma desc_on : forall f f' p k h g, desc f f' p k h -> desc f (on_name p g f') p k (g h).
Proof.
  intros f f' p k h g D. assert (A := desc_nm _ _ _ _ _ D). assert (B := desc_tb _ _ _ _ _ D). unfold on_name. rewrite A. destruct D as [D1 D2]. split; cbn [nm tb]; [exact D1|].
  intro m. rewrite B. unfold upd. destruct (N.eqb_spec m k); [reflexivity|]. rewrite D2. apply upd_other. assumption.
Qed.
Lemma on_nxt : forall p g f, nxt (on_name p g f) = nxt f. Proof. intros. unfold on_name. destruct (nm f p); reflexivity. Qed.
Lemma desc_self : forall f p k, nm f p = Some k -> desc f f p k (tb f k).
Proof.
  intros f p k A. split; [intro q; unfold updn; destruct (name_eqb q p) eqn:Z; [apply neqb_spec in Z; congruence|reflexivity]|].
  intro m. unfold upd. destruct (N.eqb_spec m k); congruence.
Qed.
Lemma desc_link : forall f p k, desc f (set_name p (Some k) f) p k (tb f k).
Proof. intros. split; intros; cbn; [reflexivity|]. unfold upd. destruct (N.eqb_spec m k); congruence. Qed.
Lemma desc_relink : forall f p k, desc f (set_name p (Some k) (set_name p None f)) p k (tb f k).
Proof. intros. split; intros; cbn; [unfold updn; destruct (name_eqb q p); reflexivity|]. unfold upd. destruct (N.eqb_spec m k); congruence. Qed.
Lemma desc_new : forall f p h, desc f (new_inode p h f) p (nxt f) h. Proof. intros. split; reflexivity. Qed.
Lemma desc_renew : forall f p h, desc f (new_inode p h (set_name p None f)) p (nxt f) h.
Proof. intros. split; intros; cbn; [unfold updn; destruct (name_eqb q p); reflexivity|reflexivity]. Qed.

Definition mkeep (a b : head) : Prop := h_kind a = h_kind b /\ h_uid a = h_uid b /\ h_gid a = h_gid b /\ h_perm a = h_perm b /\ h_mtime a = h_mtime b /\ h_data a = h_data b.
Lemma same_split : forall a b, same_inode a b <-> mkeep a b /\ h_ea a = h_ea b. Proof. unfold same_inode, mkeep. tauto. Qed.

Section One.
Variables (me_uid me_gid : N) (now : datetime).
Variables (p : name) (mir : option N) (x : chead) (H : head).
(** what the archive holds for that inode *)
Definition holds : Prop :=
  c_kind x = h_kind H /\ c_uid x = h_uid H /\ c_gid x = h_gid H /\ c_perm x = h_perm H /\ c_mtime x = h_mtime H /\
  (c_saved x = true -> c_data x = h_data H) /\ (ea_is_saved (c_ea x) = true -> ea_held (c_ea x) = h_ea H) /\
  (h_kind H = KLink -> h_perm H = 511) /\ NoDup (map fst (h_ea H)).
Hypothesis Hx : holds.
Notation wi := (write_inode me_uid me_gid now p mir x).

Lemma meta_fresh : c_saved x = true -> forall l, mkeep (with_meta (with_ea (fresh me_uid me_gid now x) l) x) H.
Proof.
  intros S l. destruct Hx as (A & B & C & D & E & F & _ & G & _). unfold mkeep, with_meta, with_ea, fresh. cbn. repeat split; auto.
  rewrite A. destruct (h_kind H) eqn:K; auto. cbn. rewrite G by reflexivity. reflexivity.
Qed.
Lemma meta_same : forall h, mkeep h H -> mkeep (with_meta h x) H.
Proof.
  intros h M. destruct Hx as (A & B & C & D & E & F & _ & G & _). unfold mkeep, with_meta in *. cbn. repeat split; try tauto. rewrite A. destruct (h_kind H) eqn:K; tauto.
Qed.
Lemma nd : NoDup (map fst (h_ea H)). Proof. apply Hx. Qed.

(** the entry of corres_write of the etiquette, once its first name is restored *)
Definition cw_first (cw cw' : N -> option (name * bool)) : Prop :=
  match mir with
  | None => cw' = cw
  | Some e => (exists b, cw' e = Some (p, b) /\ (ea_is_saved (c_ea x) = true -> b = true)) /\ forall e', e' <> e -> cw' e' = cw e'
  end.

Ltac dd := repeat first [apply desc_on | apply desc_new | apply desc_renew | apply desc_link | apply desc_relink].

Lemma first_new : forall f cw n, c_saved x = true -> (match mir with Some e => cw e = None | None => True end) -> nm f p = None ->
  (ea_is_saved (c_ea x) = true \/ h_ea H = []) ->
  exists f' cw' h', wi (LSt f cw n) = LSt f' cw' n /\ desc f f' p (nxt f) h' /\ same_inode h' H /\ nxt f' = nxt f + 1 /\ cw_first cw cw'.
Proof.
  intros f cw n S C N0 Ea. unfold write_inode. cbn [l_fs l_cw l_err]. rewrite N0, S. cbn [orb]. unfold make_file.
  destruct (ea_is_saved (c_ea x)) eqn:Es.
  - assert (L : ea_held (c_ea x) = h_ea H) by (apply Hx; exact Es). rewrite L.
    destruct mir as [e|] eqn:M.
    + rewrite C. unfold set_ea, raw_set. rewrite !upd_same. set (f1 := on_name p _ (new_inode _ _ _)).
      assert (D : desc f f1 p (nxt f) (with_ea (fresh me_uid me_gid now x) (h_ea H))).
      { unfold f1. eapply eq_rect; [apply desc_on, desc_new|]. cbn [h_ea fresh]. rewrite ea_write_nil by apply nd. reflexivity. }
      rewrite (desc_nm _ _ _ _ _ D). eexists _, _, _. split; [reflexivity|]. split; [apply desc_on; exact D|]. split; [|split].
      * apply same_split. split; [apply meta_fresh; exact S|reflexivity].
      * rewrite on_nxt. unfold f1. rewrite on_nxt. reflexivity.
      * unfold cw_first. rewrite M. split; [exists true; rewrite upd_same; auto|]. intros e' He. rewrite !upd_other by exact He. reflexivity.
    + unfold set_ea, raw_set. set (f1 := on_name p _ (new_inode _ _ _)).
      assert (D : desc f f1 p (nxt f) (with_ea (fresh me_uid me_gid now x) (h_ea H))).
      { unfold f1. eapply eq_rect; [apply desc_on, desc_new|]. cbn [h_ea fresh]. rewrite ea_write_nil by apply nd. reflexivity. }
      rewrite (desc_nm _ _ _ _ _ D). eexists _, _, _. split; [reflexivity|]. split; [do 2 apply desc_on; exact D|]. split; [|split].
      * apply same_split. split; [apply meta_fresh; exact S|]. cbn. apply ea_write_same. apply nd.
      * rewrite !on_nxt. unfold f1. rewrite on_nxt. reflexivity.
      * unfold cw_first. rewrite M. reflexivity.
  - assert (Z : h_ea H = []) by (destruct Ea; [discriminate|assumption]).
    destruct mir as [e|] eqn:M.
    + rewrite C. rewrite (desc_nm _ _ _ _ _ (desc_new _ _ _)). eexists _, _, _. split; [reflexivity|]. split; [apply desc_on, desc_new|]. split; [|split].
      * apply same_split. split; [apply (meta_fresh S [])|symmetry; exact Z].
      * rewrite on_nxt. reflexivity.
      * unfold cw_first. rewrite M. split; [exists false; rewrite upd_same; split; [reflexivity|congruence]|intros; apply upd_other; assumption].
    + rewrite (desc_nm _ _ _ _ _ (desc_new _ _ _)). eexists _, _, _. split; [reflexivity|]. split; [apply desc_on, desc_new|]. split; [|split].
      * apply same_split. split; [apply (meta_fresh S [])|symmetry; exact Z].
      * rewrite on_nxt. reflexivity.
      * unfold cw_first. rewrite M. reflexivity.
Qed.

Lemma first_over : forall f cw n i, c_saved x = true -> (match mir with Some e => cw e = None | None => True end) -> nm f p = Some i ->
  (ea_is_saved (c_ea x) = true \/ h_ea (tb f i) = h_ea H) ->
  exists f' cw' h', wi (LSt f cw n) = LSt f' cw' n /\ desc f f' p (nxt f) h' /\ same_inode h' H /\ nxt f' = nxt f + 1 /\ cw_first cw cw'.
Proof.
  intros f cw n i S C N0 Ea. unfold write_inode. cbn [l_fs l_cw l_err]. rewrite N0, S. unfold make_file.
  assert (D : forall l, desc f (on_name p (fun h => with_ea h (ea_write (h_ea h) l)) (new_inode p (fresh me_uid me_gid now x) (set_name p None f))) p (nxt f)
     (with_ea (fresh me_uid me_gid now x) (ea_write [] l))) by (intro l; exact (desc_on _ _ _ _ _ (fun h => with_ea h (ea_write (h_ea h) l)) (desc_renew f p (fresh me_uid me_gid now x)))).
  assert (Nx : forall l, nxt (on_name p (fun h => with_ea h (ea_write (h_ea h) l)) (new_inode p (fresh me_uid me_gid now x) (set_name p None f))) = nxt f + 1)
    by (intro l; rewrite on_nxt; reflexivity).
  destruct (ea_is_saved (c_ea x)) eqn:Es.
  - assert (L : ea_held (c_ea x) = h_ea H) by (apply Hx; exact Es). rewrite L. cbn [orb].
    destruct mir as [e|] eqn:M.
    + rewrite C. unfold over_ea_l, raw_clear, set_ea, raw_set. rewrite !upd_same.
      eexists _, _, _. split; [reflexivity|]. split; [do 3 apply desc_on; apply D|]. split; [|split].
      * apply same_split. cbn [with_meta with_ea h_ea h_kind h_uid h_gid h_perm h_mtime h_ctime h_data]. split; [apply (meta_fresh S)|]. cbn. apply ea_write_nil. apply nd.
      * rewrite !on_nxt. reflexivity.
      * unfold cw_first. rewrite M. split; [exists true; rewrite upd_same; auto|]. intros e' He. rewrite !upd_other by exact He. reflexivity.
    + unfold over_ea_l, raw_clear, set_ea, raw_set.
      eexists _, _, _. split; [reflexivity|]. split; [do 5 apply desc_on; apply D|]. split; [|split].
      * apply same_split. split; [apply (meta_fresh S)|]. cbn. apply ea_write_nil. apply nd.
      * rewrite !on_nxt. reflexivity.
      * unfold cw_first. rewrite M. reflexivity.
  - assert (Z : h_ea (tb f i) = h_ea H) by (destruct Ea; [discriminate|assumption]). cbn [orb].
    destruct mir as [e|] eqn:M.
    + rewrite C. eexists _, _, _. split; [reflexivity|]. split; [apply desc_on; apply D|]. split; [|split].
      * apply same_split. split; [apply (meta_fresh S)|]. cbn. rewrite Z. apply ea_write_nil. apply nd.
      * rewrite !on_nxt. reflexivity.
      * unfold cw_first. rewrite M. split; [exists false; rewrite upd_same; split; [reflexivity|congruence]|intros; apply upd_other; assumption].
    + eexists _, _, _. split; [reflexivity|]. split; [apply desc_on; apply D|]. split; [|split].
      * apply same_split. split; [apply (meta_fresh S)|]. cbn. rewrite Z. apply ea_write_nil. apply nd.
      * rewrite !on_nxt. reflexivity.
      * unfold cw_first. rewrite M. reflexivity.
Qed.

Lemma first_kept : forall f cw n k, c_saved x = false -> (match mir with Some e => cw e = None | None => True end) -> nm f p = Some k ->
  mkeep (tb f k) H -> (ea_is_saved (c_ea x) = true \/ h_ea (tb f k) = h_ea H) ->
  exists f' cw' h', wi (LSt f cw n) = LSt f' cw' n /\ desc f f' p k h' /\ same_inode h' H /\ nxt f' = nxt f /\ cw_first cw cw'.
Proof.
  intros f cw n k S C N0 Mk Ea. unfold write_inode. cbn [l_fs l_cw l_err]. rewrite N0, S.
  assert (D := desc_self _ _ _ N0).
  destruct (ea_is_saved (c_ea x)) eqn:Es.
  - assert (L : ea_held (c_ea x) = h_ea H) by (apply Hx; exact Es). rewrite L. cbn [orb].
    destruct mir as [e|] eqn:M.
    + rewrite C. unfold over_ea_l, raw_clear, set_ea, raw_set. rewrite !upd_same.
      eexists _, _, _. split; [reflexivity|]. split; [do 3 apply desc_on; apply D|]. split; [|split].
      * apply same_split. split; [exact Mk|]. cbn. apply ea_write_nil. apply nd.
      * rewrite !on_nxt. reflexivity.
      * unfold cw_first. rewrite M. split; [exists true; rewrite upd_same; auto|]. intros e' He. rewrite !upd_other by exact He. reflexivity.
    + unfold over_ea_l, raw_clear, set_ea, raw_set.
      eexists _, _, _. split; [reflexivity|]. split; [do 5 apply desc_on; apply D|]. split; [|split].
      * apply same_split. split; [exact Mk|]. cbn. apply ea_write_nil. apply nd.
      * rewrite !on_nxt. reflexivity.
      * unfold cw_first. rewrite M. reflexivity.
  - assert (Z : h_ea (tb f k) = h_ea H) by (destruct Ea; [discriminate|assumption]). cbn [orb].
    destruct mir as [e|] eqn:M.
    + rewrite C. eexists _, _, _. split; [reflexivity|]. split; [apply D|]. split; [|split].
      * apply same_split. split; [exact Mk|exact Z].
      * reflexivity.
      * unfold cw_first. rewrite M. split; [exists false; rewrite upd_same; split; [reflexivity|congruence]|intros; apply upd_other; assumption].
    + eexists _, _, _. split; [reflexivity|]. split; [apply D|]. split; [|split].
      * apply same_split. split; [exact Mk|exact Z].
      * reflexivity.
      * unfold cw_first. rewrite M. reflexivity.
Qed.

(** a name that is not the first one: it becomes a link to the inode of the first *)
Lemma join : forall f cw n e q b k, mir = Some e -> cw e = Some (q, b) -> q <> p -> nm f q = Some k -> same_inode (tb f k) H ->
  (ea_is_saved (c_ea x) = true -> b = true) ->
  (forall i, nm f p = Some i -> if c_saved x then h_ea (tb f i) = [] \/ h_ea (tb f i) = h_ea H else i = k) ->
  exists f' h', wi (LSt f cw n) = LSt f' cw n /\ desc f f' p k h' /\ same_inode h' H /\ nxt f' = nxt f.
Proof.
  intros f cw n e q b k M C Hq Nq Sk Eb Ea. apply same_split in Sk. destruct Sk as [Mk Ek]. unfold write_inode. cbn [l_fs l_cw l_err]. rewrite M, C.
  assert (B : ea_is_saved (c_ea x) = false \/ (ea_is_saved (c_ea x) = true /\ b = true)) by (destruct (ea_is_saved (c_ea x)); auto).
  destruct (nm f p) as [i|] eqn:Np.
  - destruct (c_saved x) eqn:S.
    + unfold make_file. rewrite C. cbn [set_name nm]. rewrite updn_other by exact Hq. rewrite Nq.
      assert (D : desc f (on_name p (fun h => with_ea h (ea_write (h_ea h) (h_ea (tb f i)))) (set_name p (Some k) (set_name p None f))) p k
        (with_ea (tb f k) (ea_write (h_ea (tb f k)) (h_ea (tb f i))))) by exact (desc_on _ _ _ _ _ (fun h => with_ea h (ea_write (h_ea h) (h_ea (tb f i)))) (desc_relink f p k)).
      assert (X : ea_write (h_ea (tb f k)) (h_ea (tb f i)) = h_ea H).
      { rewrite Ek. destruct (Ea i eq_refl) as [->| ->]; [reflexivity|apply ea_write_same, nd]. }
      fold (set_name p (Some k) (set_name p None f)).
      destruct B as [B|[B ->]]; rewrite B; cbn [orb].
      * eexists _, _. split; [reflexivity|]. split; [apply desc_on; exact D|]. split; [|rewrite !on_nxt; reflexivity]. apply same_split. split; [apply meta_same; exact Mk|exact X].
      * unfold over_ea_l, raw_clear. rewrite C. eexists _, _. split; [reflexivity|]. split; [apply desc_on; exact D|]. split; [|rewrite !on_nxt; reflexivity].
        apply same_split. split; [apply meta_same; exact Mk|exact X].
    + assert (i = k) by (apply Ea; reflexivity). subst i. assert (D := desc_self _ _ _ Np). destruct B as [B|[B ->]]; rewrite B; cbn [orb].
      * eexists _, _. split; [reflexivity|]. split; [exact D|]. split; [apply same_split; auto|reflexivity].
      * unfold over_ea_l, raw_clear. rewrite C. eexists _, _. split; [reflexivity|]. split; [apply desc_on; exact D|]. split; [|rewrite !on_nxt; reflexivity]. apply same_split. split; assumption.
  - rewrite orb_true_r. unfold make_file. rewrite C, Nq. assert (D := desc_link f p k). destruct B as [B|[B ->]]; rewrite B.
    + rewrite (desc_nm _ _ _ _ _ D). eexists _, _. split; [reflexivity|]. split; [apply desc_on; exact D|]. split; [|rewrite !on_nxt; reflexivity]. apply same_split. split; [apply meta_same; exact Mk|exact Ek].
    + unfold set_ea, raw_set. rewrite C. rewrite (desc_nm _ _ _ _ _ D). rewrite C. eexists _, _. split; [reflexivity|]. split; [apply desc_on; exact D|]. split; [|rewrite !on_nxt; reflexivity].
      apply same_split. split; [apply meta_same; exact Mk|exact Ek].
Qed.
End One.
