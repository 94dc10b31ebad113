(** Proofs for C41, part 4: a backup and its restoration, then a history of them. *)
From Coq Require Import NArith List Bool Lia.
From Verif Require Import Base DatetimeModel PropDatetime PropChange CritModel RestoreModel RestoreSpec RestoreProof RestoreProof2 LinkModel LinkSpec LinkProof LinkProof2 LinkProof3.
Import ListNotations.
Open Scope N_scope.
Local Set Warnings "-notation-overridden".

Lemma seen_not : forall cap hs h f t, crel f t -> h_kind h = h_kind t -> changed cap hs h f = true -> seen_changed cap hs t h.
Proof.
  intros cap hs h f t (Ck & Cu & Cg & Cp & Cm & Cc & Cs & _) K H. unfold changed in H. unfold seen_changed.
  assert (D : kind_eqb (h_kind h) KFile = true \/ kind_eqb (h_kind h) KFile = false) by (destruct (kind_eqb (h_kind h) KFile); auto).
  destruct D as [D|D]; rewrite D in H.
  - apply kind_eqb_spec in D. destruct (C34_changed_exactly cap (ino_of_head h) (ino_of_chead f) hs F_all) as (b & E & S). rewrite E in H. subst b.
    destruct (proj1 S eq_refl) as [[_ Q]|[[_ Q]|[[_ Q]|Q]]]; cbn in Q.
    + right. right. right. right. unfold date_seen in *. cbn [i_mod ino_of_head ino_of_chead] in *. rewrite Cm in Q. exact Q.
    + destruct Q as [Q|Q]; [left|right; left]; congruence.
    + right. right. left. congruence.
    + right. right. right. left. split; [exact D|]. rewrite Cs in Q. unfold size_of in Q. lia.
  - set (f' := {| i_uid := c_uid f; i_gid := c_gid f; i_perm := c_perm f; i_mod := c_mtime f; i_size := size_of h |}).
    destruct (C34_changed_exactly cap (ino_of_head h) f' hs F_all) as (b & E & S).
    assert (Z : has_changed_since cap (ino_of_head h) f' hs F_all = has_changed_since cap (ino_of_head h) (ino_of_chead f) hs F_all) by reflexivity.
    unfold file_has_changed_since in E. rewrite Z in E. destruct (has_changed_since cap (ino_of_head h) (ino_of_chead f) hs F_all) as [b0|]; [|discriminate]. subst b0.
    cbn [bind] in E. assert (b = true) by (destruct b; [reflexivity|cbn in E; congruence]). subst b.
    destruct (proj1 S eq_refl) as [[_ Q]|[[_ Q]|[[_ Q]|Q]]]; cbn in Q.
    + right. right. right. right. unfold date_seen in *. cbn [i_mod ino_of_head f'] in *. rewrite Cm in Q. exact Q.
    + destruct Q as [Q|Q]; [left|right; left]; congruence.
    + right. right. left. congruence.
    + exfalso. apply Q. reflexivity.
Qed.

Section One.
Variables (cap : time_unit) (hs : N).
Variable cov : name -> bool.
Variables (me_uid me_gid : N) (now : datetime).
Notation picked := (picked cov).

(** an archive describes a filesystem *)
Definition rmatch (ref : larc) (d : disk) : Prop := forall p, match ref_at ref p, picked d p with Some c, Some i => crel c (d_inode d i) | None, None => True | _, _ => False end.
Definition arc_ok (ref : larc) (d : disk) : Prop := rmatch ref d /\ NoDup (map fst (a_ents ref)).

Notation Ps d := (filter (fun x => cov (fst x)) (d_names d)).
Lemma NoDup_filter_fst : forall (A : Type) (g : name * A -> bool) l, NoDup (map fst l) -> NoDup (map fst (filter g l)).
Proof.
  intros A g. induction l as [|[a b] l IH]; intro Nd; [constructor|]. cbn in *. inversion Nd as [|? ? Ha Nl]. subst. destruct (g (a, b)); [|auto]. cbn. constructor; [|auto].
  intro Z. apply Ha. apply in_map_iff in Z. destruct Z as (y & E & Y). apply filter_In in Y. apply in_map_iff. exists y. tauto.
Qed.
Lemma picked_in : forall d p i, NoDup (map fst (d_names d)) -> (picked d p = Some i <-> In (p, i) (Ps d)).
Proof.
  intros d p i Nd. unfold LinkSpec.picked, ino_of. rewrite filter_In. cbn [fst]. rewrite <- aget_named. split.
  - intro Q. destruct (cov p); [|discriminate]. split; [apply aget_in; exact Q|reflexivity].
  - intros [A ->]. apply in_aget; assumption.
Qed.
Lemma first_leader : forall l i q, first (filter (fun x => cov (fst x)) l) i q -> leader cov l i = Some q.
Proof.
  intros l i q (A & B & EP & F). assert (L : leader cov (filter (fun x => cov (fst x)) l) i = leader cov l i).
  { unfold leader. f_equal. clear. induction l as [|x l IH]; [reflexivity|]. cbn [filter find]. destruct (cov (fst x)) eqn:C; [|exact IH]. cbn [find]. rewrite C. destruct (true && (snd x =? i)); [reflexivity|exact IH]. }
  assert (Cq : cov q = true) by (assert (Z : In (q, i) (filter (fun x => cov (fst x)) l)) by (rewrite EP; apply in_or_app; right; left; reflexivity); apply filter_In in Z; apply Z).
  rewrite <- L, EP, leader_app. destruct (leader cov A i) as [r|] eqn:La; [exfalso; apply leader_in in La; exact (F r (proj1 La))|].
  unfold leader. cbn. rewrite Cq, N.eqb_refl. reflexivity.
Qed.

Lemma back_ok : forall ref d, disk_ok d -> NoDup (map fst (a_ents ref)) -> arc_ok (lbackup cap hs cov ref d) d.
Proof.
  intros ref d Ok Nr. destruct (lback_spec cap hs cov ref d Ok Nr) as (ent & E & D & Ee & He & _ & ND & HD). destruct Ok as (Nd & _ & _).
  assert (NP := NoDup_filter_fst _ (fun x => cov (fst x)) _ Nd).
  assert (Fe : map fst (map (fun x : name * N => (fst x, ent (fst x) (snd x))) (Ps d)) = map fst (Ps d)) by (rewrite map_map; reflexivity).
  assert (Fd : map fst (map (fun x : name * fkind => (fst x, LDet (snd x))) D) = map fst D) by (rewrite map_map; reflexivity).
  assert (Dis : forall p i, In (p, i) (Ps d) -> ~ In p (map fst D)).
  { intros p i Z Y. apply HD in Y. destruct Y as [Y _]. apply filter_In in Z. destruct Z as [Z _]. unfold ino_of in Y. rewrite <- aget_named in Y. apply aget_none_inv in Y. apply Y. apply (in_map fst) in Z. exact Z. }
  split.
  - intro p. unfold ref_at. rewrite Ee, aget_app. destruct (picked d p) as [i|] eqn:Pi.
    + apply picked_in in Pi; [|exact Nd]. assert (G : aget p (map (fun x : name * N => (fst x, ent (fst x) (snd x))) (Ps d)) = Some (ent p i)).
      { apply in_aget; [rewrite Fe; exact NP|]. apply in_map_iff. exists (p, i). auto. }
      rewrite G. destruct (He p i Pi) as [[-> _]|(e & -> & _ & ->)]; apply save_crel.
    + assert (G : aget p (map (fun x : name * N => (fst x, ent (fst x) (snd x))) (Ps d)) = None).
      { apply aget_none. rewrite Fe. intro Z. apply in_map_iff in Z. destruct Z as ([q i] & Q & Z). cbn in Q. subst q. apply picked_in in Z; [congruence|exact Nd]. }
      rewrite G. destruct (aget p (map (fun x : name * fkind => (fst x, LDet (snd x))) D)) as [y|] eqn:Y; [|exact I].
      apply aget_in in Y. apply in_map_iff in Y. destruct Y as (z & Q & _). injection Q as _ <-. exact I.
  - rewrite Ee, map_app, Fe, Fd. clear - NP ND Dis. induction (Ps d) as [|[p i] l IH]; [exact ND|]. cbn in *. inversion NP as [|? ? Hp NP']. subst. constructor.
    + rewrite in_app_iff. intros [Z|Z]; [contradiction|]. exact (Dis p i (or_introl eq_refl) Z).
    + apply IH; [exact NP'|]. intros q j Z. exact (Dis q j (or_intror Z)).
Qed.

Lemma X_holds : forall ref d d0 p i fo, disk_ok d -> In (p, i) (d_names d) ->
  (match fo with Some fh => crel fh d0 /\ h_kind d0 = h_kind (d_inode d i) /\ hon cap hs d0 (d_inode d i) | None => True end) ->
  saved_as cap hs cov ref d (d_names d) i = save_head cap hs (d_inode d i) fo -> holds (saved_as cap hs cov ref d (d_names d) i) (d_inode d i).
Proof.
  intros ref d d0 p i fo (_ & _ & Ok) Hin C ->. destruct (Ok p i Hin) as [Ne Pe]. unfold holds. do 5 (split; [reflexivity|]). split; [|split; [|split; assumption]].
  - destruct fo as [fh|]; [|reflexivity]. destruct C as (Cr & K & Hn). destruct (save_same cap hs d0 (d_inode d i) fh Cr K Hn) as [[(S & _)|(_ & S)] _]; [congruence|auto].
  - destruct fo as [fh|].
    + destruct C as (Cr & K & Hn). destruct (save_same cap hs d0 (d_inode d i) fh Cr K Hn) as [_ S]. destruct (c_ea _); cbn; intro Z; try discriminate; auto.
    + rewrite save_none_ea. destruct (h_ea (d_inode d i)); cbn; [discriminate|reflexivity].
Qed.

Lemma one_diff : forall ref d0 d R, arc_ok ref d0 -> disk_ok d -> good cov R d0 -> lfs_ok R ->
  lhonest cap hs cov d0 d -> links_kept cov d0 d -> ea_type_kept cov d0 d -> ea_links_kept cap hs cov d0 d ->
  let s := lrestore me_uid me_gid now (lbackup cap hs cov ref d) R in l_err s = 0%nat /\ good cov (l_fs s) d /\ lfs_ok (l_fs s).
Proof.
  intros ref d0 d R [Rm Nr] Ok [G1 G2] LR Hon Lk Et El s.
  assert (Nd : NoDup (map fst (d_names d))) by apply Ok.
  destruct (lback_spec cap hs cov ref d Ok Nr) as (ent & E & D & Ee & He & Ei & ND & HD).
  set (X := saved_as cap hs cov ref d (d_names d)).
  (* the reference of the first name of an inode *)
  assert (Ref : forall i q, first (Ps d) i q -> exists fo, X i = save_head cap hs (d_inode d i) fo /\
    match fo with Some fh => exists i0, picked d0 q = Some i0 /\ crel fh (d_inode d0 i0) /\ h_kind (d_inode d0 i0) = h_kind (d_inode d i) /\ hon cap hs (d_inode d0 i0) (d_inode d i)
    | None => forall i0, picked d0 q = Some i0 -> h_kind (d_inode d0 i0) <> h_kind (d_inode d i) end).
  { intros i q Fq. exists (ref_for ref q (d_inode d i)). unfold X, saved_as. rewrite (first_leader _ _ _ Fq). split; [reflexivity|]. specialize (Rm q). unfold ref_for.
    destruct (ref_at ref q) as [c|]; [|intros i0 Z; rewrite Z in Rm; destruct Rm]. destruct (picked d0 q) as [i0|] eqn:P0; [|destruct Rm].
    destruct (kind_eqb (h_kind (d_inode d i)) (c_kind c)) eqn:K.
    - apply kind_eqb_spec in K. exists i0. split; [reflexivity|]. split; [exact Rm|]. assert (K' : h_kind (d_inode d0 i0) = h_kind (d_inode d i)) by (rewrite K; symmetry; apply Rm).
      split; [exact K'|]. apply first_in in Fq. apply picked_in in Fq; [|exact Nd]. exact (Hon q i0 i P0 Fq).
    - intros i1 Z. injection Z as <-. intro K'. assert (kind_eqb (h_kind (d_inode d i)) (c_kind c) = true); [|congruence]. apply kind_eqb_spec. rewrite <- K'. symmetry. apply Rm. }
  assert (InR : forall p k, nm R p = Some k -> exists i0, picked d0 p = Some i0 /\ same_inode (tb R k) (d_inode d0 i0)).
  { intros p k Z. specialize (G1 p). unfold found in G1. rewrite Z in G1. cbn in G1. destruct (picked d0 p) as [i0|]; [|destruct G1]. eauto. }
  assert (InR' : forall p i0, picked d0 p = Some i0 -> exists k, nm R p = Some k /\ same_inode (tb R k) (d_inode d0 i0)).
  { intros p i0 Z. specialize (G1 p). unfold found in G1. rewrite Z in G1. cbn in G1. destruct (nm R p) as [k|]; [|destruct G1]. cbn in G1. eauto. }
  assert (Pk : forall p i, In (p, i) (Ps d) -> picked d p = Some i) by (intros p i Z; apply picked_in; assumption).
  assert (HX : forall p i, In (p, i) (Ps d) -> holds (X i) (d_inode d i)).
  { intros p i Z. destruct (first_ex _ _ _ Z) as [q Fq]. destruct (Ref i q Fq) as (fo & EX & C). destruct fo as [fh|].
    - destruct C as (i0 & P0 & Cr & K & Hn). apply (X_holds ref d (d_inode d0 i0) q i (Some fh)); auto. apply first_in in Fq. apply filter_In in Fq. apply Fq.
    - apply (X_holds ref d (d_inode d i) q i None); auto. apply first_in in Fq. apply filter_In in Fq. apply Fq. }
  assert (Uns : forall i q, first (Ps d) i q -> c_saved (X i) = false -> exists i0, picked d0 q = Some i0 /\ mkeep (d_inode d0 i0) (d_inode d i) /\
     (ea_is_saved (c_ea (X i)) = true \/ h_ea (d_inode d0 i0) = h_ea (d_inode d i))).
  { intros i q Fq S. destruct (Ref i q Fq) as (fo & EX & C). destruct fo as [fh|]; [|rewrite EX in S; discriminate]. destruct C as (i0 & P0 & Cr & K & Hn). exists i0. split; [exact P0|].
    destruct (save_same cap hs _ _ fh Cr K Hn) as [S1 S2]. rewrite <- EX in S1, S2. split.
    - destruct S1 as [(_ & (A & B & C & D') & F)|(S1 & _)]; [|congruence]. unfold mkeep. auto 10.
    - destruct (c_ea (X i)); cbn; auto. right. destruct S2 as [-> ->]. reflexivity. }
  assert (mk : forall a b c, same_inode a b -> mkeep b c -> mkeep a c).
  { unfold same_inode, mkeep. intros a b c (A1 & A2 & A3 & A4 & A5 & A6 & _) (B1 & B2 & B3 & B4 & B5 & B6). rewrite A1, A2, A3, A4, A5, A6. auto 10. }
  assert (ske : forall a b, same_inode a b -> h_ea a = h_ea b) by (unfold same_inode; tauto).
  assert (A := arc_all me_uid me_gid now (Ps d) ent E X (d_inode d) (a_star (lbackup cap hs cov ref d)) R (NoDup_filter_fst _ _ _ Nd) HX).
  specialize (A He Ei LR).
  assert (B : forall Z, Z = s -> (l_err Z = 0%nat /\ lfs_ok (l_fs Z) /\
    (forall p i, In (p, i) (Ps d) -> exists k, nm (l_fs Z) p = Some k /\ same_inode (tb (l_fs Z) k) (d_inode d i)) /\
    (forall p i q j, In (p, i) (Ps d) -> In (q, j) (Ps d) -> (nm (l_fs Z) p = nm (l_fs Z) q <-> i = j)) /\
    (forall p, In p (map fst D) -> nm (l_fs Z) p = None) /\
    (forall p, ~ In p (map fst (Ps d)) -> ~ In p (map fst D) -> nm (l_fs Z) p = nm R p))).
  { intros Z ->. unfold s, lrestore. rewrite Ee. refine ((fun H => conj (proj1 H) (conj (proj1 (proj2 H)) (conj (proj1 (proj2 (proj2 H))) (conj (proj1 (proj2 (proj2 (proj2 H)))) (conj (proj1 (proj2 (proj2 (proj2 (proj2 H))))) (proj1 (proj2 (proj2 (proj2 (proj2 (proj2 H))))))))))) _).
    apply A; clear A.
    - (* K1 *) intros i q Fq S. destruct (Uns i q Fq S) as (i0 & P0 & M & Ea). destruct (InR' q i0 P0) as (k & Nk & Sk). exists k. split; [exact Nk|]. split; [eapply mk; eauto|].
      destruct Ea as [Ea|Ea]; [auto|right]. rewrite (ske _ _ Sk). exact Ea.
    - (* K2 *) intros i q p k Fq S Z Nk. destruct (Uns i q Fq S) as (iq & Pq & _). destruct (InR p k Nk) as (ip & Pp & _).
      assert (ip = iq) by (apply (Lk p q ip iq i i Pp Pq (Pk p i Z) (Pk q i (first_in _ _ _ Fq))); reflexivity). subst ip. rewrite <- Nk. apply (G2 q p iq iq Pq Pp). reflexivity.
    - (* K3 *) intros i j q r Fq Fr Si Sj Eq. destruct (Uns i q Fq Si) as (iq & Pq & _). destruct (Uns j r Fr Sj) as (ir & Pr & _).
      apply (Lk q r iq ir i j Pq Pr (Pk _ _ (first_in _ _ _ Fq)) (Pk _ _ (first_in _ _ _ Fr))). apply (G2 q r iq ir Pq Pr). exact Eq.
    - (* K4 *) intros i p k Fp S Nk. destruct (InR p k Nk) as (ip & Pp & Sk). rewrite (ske _ _ Sk). destruct (Ref i p Fp) as (fo & EX & C). destruct fo as [fh|].
      + destruct C as (i0 & P0 & Cr & K & Hn). assert (i0 = ip) by congruence. subst i0. destruct (save_same cap hs _ _ fh Cr K Hn) as [_ S2]. rewrite <- EX in S2.
        destruct (c_ea (X i)); cbn; auto. destruct S2 as [-> ->]. auto.
      + rewrite EX, save_none_ea. destruct (Et p ip i Pp (Pk _ _ (first_in _ _ _ Fp)) (C ip Pp)) as [->|Ne]; destruct (h_ea (d_inode d i)); cbn; auto.
    - (* K4j *) intros i p k Z Nf S Nk. destruct (InR p k Nk) as (ip & Pp & Sk). rewrite (ske _ _ Sk). destruct (first_ex _ _ _ Z) as [q Fq].
      assert (Hq : q <> p) by (intros ->; contradiction). assert (Pq := Pk _ _ (first_in _ _ _ Fq)). destruct (El p q ip i Pp (Pk _ _ Z) Pq Hq) as [Y|[Y|(K & Ns & Old)]]; [auto|auto|]. exfalso.
      specialize (Old q Pq). destruct (picked d0 q) as [iq|] eqn:P0; [|congruence]. assert (iq = ip) by (apply (Lk q p iq ip i i P0 Pp Pq (Pk _ _ Z)); reflexivity). subst iq.
      destruct (Ref i q Fq) as (fo & EX & C). destruct fo as [fh|]; [|exact (C ip P0 K)]. destruct C as (i0 & P0' & Cr & K' & Hn). assert (i0 = ip) by congruence. subst i0.
      rewrite EX in S. cbn [c_saved save_head] in S. destruct (changed cap hs (d_inode d i) fh) eqn:Ch; [|discriminate]. apply Ns. eapply seen_not; eauto.
    - (* K4n *) intros i p Fp S Nk. destruct (Ref i p Fp) as (fo & EX & C). destruct fo as [fh|].
      + destruct C as (i0 & P0 & _). destruct (InR' p i0 P0) as (k & Z & _). congruence.
      + rewrite EX, save_none_ea. destruct (h_ea (d_inode d i)); cbn; auto.
    - (* K6 *) intros i p k j r Z S Nk Fr Sj Nr'. destruct (InR p k Nk) as (ip & Pp & _). destruct (InR r k Nr') as (ir & Pr & _).
      assert (ip = ir) by (apply (G2 p r ip ir Pp Pr); congruence). subst ir. assert (i = j) by (apply (Lk p r ip ip i j Pp Pr (Pk _ _ Z) (Pk _ _ (first_in _ _ _ Fr))); reflexivity). congruence.
    - exact ND.
    - (* K5 *) intros n Hn. apply HD in Hn. destruct Hn as [I0 Rn]. split.
      + specialize (Rm n). destruct (ref_at ref n); [|congruence]. destruct (picked d0 n) as [i0|] eqn:P0; [|destruct Rm]. destruct (InR' n i0 P0) as (k & Z & _). congruence.
      + intro Z. apply in_map_iff in Z. destruct Z as ([n' i] & Q & Z). cbn in Q. subst n'. apply Pk in Z. unfold LinkSpec.picked in Z. destruct (cov n); congruence. }
  destruct (B s eq_refl) as (B1 & B2 & B3 & B4 & B5 & B6). split; [exact B1|]. split; [|exact B2]. split.
  - intro p. unfold found. destruct (picked d p) as [i|] eqn:Pp.
    + apply picked_in in Pp; [|exact Nd]. destruct (B3 p i Pp) as (k & -> & Z). exact Z.
    + assert (Np : ~ In p (map fst (Ps d))). { intro Z. apply in_map_iff in Z. destruct Z as ([n' i] & Q & Z). cbn in Q. subst n'. apply Pk in Z. congruence. }
      destruct (in_dec (list_eq_dec N.eq_dec) p (map fst D)) as [Hd|Hd]; [rewrite (B5 p Hd); exact I|]. rewrite (B6 p Np Hd).
      destruct (nm R p) as [k|] eqn:Nk; [|exact I]. exfalso. destruct (InR p k Nk) as (i0 & P0 & _). apply Hd. apply HD. specialize (Rm p). rewrite P0 in Rm.
      split; [|destruct (ref_at ref p); [discriminate|destruct Rm]]. unfold LinkSpec.picked in *. destruct (cov p); [exact Pp|discriminate].
  - intros p q i j Pp Pq. apply picked_in in Pp; [|exact Nd]. apply picked_in in Pq; [|exact Nd]. apply B4; assumption.
Qed.

Lemma one_full : forall d R, disk_ok d -> lfs_ok R -> (forall p i h, picked d p = Some i -> found R p = Some h -> h_ea h = []) ->
  let s := lrestore me_uid me_gid now (lbackup cap hs cov empty_archive d) R in l_err s = 0%nat /\ lfs_ok (l_fs s) /\
  (forall p i, picked d p = Some i -> exists h, found (l_fs s) p = Some h /\ same_inode h (d_inode d i)) /\
  (forall p q i j, picked d p = Some i -> picked d q = Some j -> (nm (l_fs s) p = nm (l_fs s) q <-> i = j)) /\
  (forall p, picked d p = None -> nm (l_fs s) p = nm R p /\ found (l_fs s) p = found R p).
Proof.
  intros d R Ok LR Ne s. assert (Nd : NoDup (map fst (d_names d))) by apply Ok.
  destruct (lback_spec cap hs cov empty_archive d Ok) as (ent & E & D & Ee & He & Ei & ND & HD); [constructor|].
  set (X := saved_as cap hs cov empty_archive d (d_names d)).
  assert (EX : forall i, X i = save_head cap hs (d_inode d i) None) by (intro i; unfold X, saved_as; destruct (leader cov (d_names d) i); reflexivity).
  assert (D0 : D = []). { destruct D as [|[n k] D']; [reflexivity|]. exfalso. destruct (proj1 (HD n) (or_introl eq_refl)) as [_ Z]. apply Z. reflexivity. }
  assert (Pk : forall p i, In (p, i) (Ps d) -> picked d p = Some i) by (intros p i Z; apply picked_in; assumption).
  assert (Sv : forall i, c_saved (X i) = true) by (intro i; rewrite EX; reflexivity).
  assert (HX : forall p i, In (p, i) (Ps d) -> holds (X i) (d_inode d i)).
  { intros p i Z. apply (X_holds empty_archive d (d_inode d i) p i None); auto. apply filter_In in Z. apply Z. }
  assert (Ea : forall i, ea_is_saved (c_ea (X i)) = true \/ h_ea (d_inode d i) = []) by (intro i; rewrite EX, save_none_ea; destruct (h_ea (d_inode d i)); cbn; auto).
  assert (Nk : forall p i k, In (p, i) (Ps d) -> nm R p = Some k -> h_ea (tb R k) = []).
  { intros p i k Z Y. apply (Ne p i); [apply Pk; exact Z|]. unfold found. rewrite Y. reflexivity. }
  assert (A := arc_all me_uid me_gid now (Ps d) ent E X (d_inode d) (a_star (lbackup cap hs cov empty_archive d)) R (NoDup_filter_fst _ _ _ Nd) HX He Ei LR).
  assert (B : forall Z, Z = s -> (l_err Z = 0%nat /\ lfs_ok (l_fs Z) /\
    (forall p i, In (p, i) (Ps d) -> exists k, nm (l_fs Z) p = Some k /\ same_inode (tb (l_fs Z) k) (d_inode d i)) /\
    (forall p i q j, In (p, i) (Ps d) -> In (q, j) (Ps d) -> (nm (l_fs Z) p = nm (l_fs Z) q <-> i = j)) /\
    (forall p, In p (map fst D) -> nm (l_fs Z) p = None) /\
    (forall p, ~ In p (map fst (Ps d)) -> ~ In p (map fst D) -> nm (l_fs Z) p = nm R p) /\
    (forall k, k < nxt R -> (forall p i q, In (p, i) (Ps d) -> c_saved (X i) = false -> first (Ps d) i q -> nm R q <> Some k) -> tb (l_fs Z) k = tb R k))).
  { intros Z ->. unfold s, lrestore. rewrite Ee. apply A; clear A; try (intros; rewrite Sv in *; discriminate).
    - intros i p k Fp _ Y. rewrite (Nk p i k (first_in _ _ _ Fp) Y). destruct (Ea i) as [->| ->]; auto.
    - intros i p k Z _ _ Y. left. eapply Nk; eauto.
    - intros i p _ _ _. apply Ea.
    - exact ND.
    - intros n Hn. rewrite D0 in Hn. destruct Hn. }
  destruct (B s eq_refl) as (B1 & B2 & B3 & B4 & _ & B6 & B7). split; [exact B1|]. split; [exact B2|]. split; [|split].
  - intros p i Pp. apply picked_in in Pp; [|exact Nd]. destruct (B3 p i Pp) as (k & Z & Y). exists (tb (l_fs s) k). unfold found. rewrite Z. split; [reflexivity|exact Y].
  - intros p q i j Pp Pq. apply picked_in in Pp; [|exact Nd]. apply picked_in in Pq; [|exact Nd]. apply B4; assumption.
  - intros p Pp. assert (Np : ~ In p (map fst (Ps d))). { intro Z. apply in_map_iff in Z. destruct Z as ([n' i] & Q & Z). cbn in Q. subst n'. apply Pk in Z. congruence. }
    assert (Q : nm (l_fs s) p = nm R p) by (apply B6; [exact Np|rewrite D0; intros []]). split; [exact Q|]. unfold found. rewrite Q. destruct (nm R p) as [k|] eqn:Y; [|reflexivity]. cbn. f_equal.
    apply B7; [apply LR in Y; exact Y|]. intros q i r _ Z. rewrite Sv in Z. discriminate.
Qed.
End One.
