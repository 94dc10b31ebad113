From Coq Require Import List.
From Verif Require Import Base InfinintModel InfinintProof InfinintProof2 CrcModel CrcProof PropCrc DatetimeModel HeaderModel HeaderProof2 PathModel PropPath EscapeModel EscapeSpec EscapeProof4.
From Verif Require Import ReadStable CatModel CatSpec CatProof CatProof2 CatProof3 PropCatalogue SeqModel SeqSpec SeqProof SeqProof2 SeqProof3 SeqProof4 SeqProof5.
Import ListNotations.
Open Scope N_scope.

(** ** a header cut short *)
Lemma small_cut : forall algo co h x co' p q, (forall rest, small_read algo co (h ++ rest) = Ok (Some (x, co', rest))) -> h = p ++ q -> q <> [] ->
  forall y, small_read algo co p <> Ok (Some y).
Proof.
  intros algo co h x co' p q R E Hq [[e co2] r] H. specialize (R []). rewrite app_nil_r in R. subst h.
  unfold small_read in H, R. destruct (sig_read p); [|discriminate]. destruct (sig_read (p ++ q)); [|discriminate].
  apply bind_ok_inv in H as ([[x2 co3] f] & E1 & H). apply bind_ok_inv in H as (calc & E2 & H). apply bind_ok_inv in H as ([k f6] & E3 & H).
  destruct (crc_eq k calc) eqn:G; [|discriminate]. injection H as -> -> ->.
  assert (F : ent_read true algo (fuel_for (p ++ q)) co p = Ok (e, co2, f)).
  { rewrite <- E1. destruct (fuel_enough true algo (S (length p)) p ltac:(lia)) as [L _].
    apply (proj2 (L (fuel_for p) co ltac:(unfold fuel_for; lia))). unfold fuel_for. rewrite app_length. lia. }
  destruct (proj1 (framed_steps true algo (fuel_for (p ++ q)) co) _ _ _ F) as (p6 & P6 & Q6). subst p.
  rewrite <- !app_assoc in R. rewrite <- app_assoc in Q6. rewrite Q6 in R. cbn [bind] in R.
  assert (C1 : firstn (length (p6 ++ f) - length f) (p6 ++ f) = p6) by (apply firstn_app_exact_n; rewrite app_length; lia). rewrite C1 in E2.
  assert (C2 : firstn (length (p6 ++ f ++ q) - length (f ++ q)) (p6 ++ f ++ q) = p6) by (apply firstn_app_exact_n; rewrite (app_length p6); lia). rewrite C2 in R.
  rewrite E2 in R. cbn [bind] in R. destruct (framed_crc_get _ _ _ E3) as (p8 & -> & Q8). rewrite <- app_assoc, Q8 in R. cbn [bind] in R. rewrite G in R.
  injection R as _ _ R. destruct r, q; try discriminate. contradiction.
Qed.

(** ** lists cut in two *)
Lemma split_at : forall A (a b x y : list A), a ++ b = x ++ y -> b <> [] ->
  (exists z, z <> [] /\ x = a ++ z /\ b = z ++ y) \/ (exists z, a = x ++ z /\ y = z ++ b).
Proof.
  induction a as [|u a IH]; intros b x y H N; cbn [app] in *.
  - destruct x as [|v x]; [right; exists []; auto|left; exists (v :: x); split; [discriminate|auto]].
  - destruct x as [|v x]; [right; exists (u :: a); auto|]. cbn [app] in H. injection H as -> H. destruct (IH b x y H N) as [(z & Z & -> & ->)|(z & -> & ->)]; [left|right]; exists z; auto.
Qed.
Lemma map_D_split : forall d a b, map D d = a ++ b -> exists p q, a = map D p /\ b = map D q /\ d = p ++ q.
Proof.
  intros d a b H. apply map_eq_app in H as (p & q & -> & <- & <-). exists p, q. auto.
Qed.
(** what is left of the items after [a], when the stream stops there *)
Definition junk_ok (b : list item) (j : list N) : Prop := match b with D _ :: _ => j = [] | _ => True end.
Lemma junk_app : forall b c j, b <> [] -> junk_ok (b ++ c) j -> junk_ok b j.
Proof. intros [|x b] c j N H; [contradiction|exact H]. Qed.
Lemma map_D_app : forall a b, map D a ++ map D b = map D (a ++ b).
Proof. intros. symmetry. apply map_app. Qed.

(** ** the data of a file cut short *)
Definition bad (o : outcome) : Prop := o = Oerr \/ o = Ohang \/ o = Oundef.
Lemma crc_short : forall k p q, crc_dump k = p ++ q -> q <> [] -> forall x, crc_get p <> Ok x.
Proof.
  intros k p q E Hq [k2 r] H. pose proof (crc_rt k []) as R. rewrite app_nil_r, E in R. destruct (framed_crc_get _ _ _ H) as (p1 & -> & F).
  rewrite <- app_assoc, F in R. injection R as _ R. destruct r, q; try discriminate. contradiction.
Qed.
Lemma copies_unmarked : forall k b size i its w d, write b size i its = (w, map D d) -> w <> Whang -> w <> Wundef -> (forall x y, w <> Wok x y) -> bad (fst (copies (S k) b size i its)).
Proof.
  intros k b size i its w d H W1 W2 W3. rewrite copies_S, H, find_none. destruct w; try (left; reflexivity); try contradiction. exfalso. eapply W3; reflexivity.
Qed.
(** a copy cut short *)
Lemma copy_cut : forall k size i c a a1 a2 j, i_saved i = Ssaved -> copy_items c = Ok a -> a = a1 ++ a2 -> a2 <> [] -> junk_ok a2 j ->
  bad (fst (copies k false (Some size) i (a1 ++ map D j))).
Proof.
  intros [|k] size i c a a1 a2 j Hs Ha E N J; [left; reflexivity|]. destruct (copy_dump c) as (kk & Ek & E2). rewrite Ha in E2. injection E2 as ->.
  symmetry in E. destruct (split_at _ _ _ _ _ E N) as [(z & Z & E1 & E2)|(z & E1 & E2)].
  - (* within the data *)
    destruct (map_D_split _ _ _ E1) as (p & q & -> & -> & Ed). rewrite map_D_app.
    apply (copies_unmarked k false (Some size) i _ Wbad []); try discriminate. unfold write, write_new, data_get. rewrite Hs, find_none. reflexivity.
  - destruct z as [|m z]; cbn [app] in E2.
    + rewrite app_nil_r in E1. subst a1. rewrite map_D_app.
      apply (copies_unmarked k false (Some size) i _ Wbad []); try discriminate. unfold write, write_new, data_get. rewrite Hs, find_none. reflexivity.
    + injection E2 as <- E2. destruct (map_D_split _ _ _ E2) as (p & q & -> & -> & Ed). subst a1.
      assert (Q : q <> []) by (intros ->; apply N; reflexivity). assert (J0 : j = []) by (destruct q; [contradiction|exact J]). subst j. cbn [map]. rewrite app_nil_r.
      rewrite copies_S. unfold write, write_new, data_get. rewrite Hs, find_D, find_hit. cbn [negb].
      replace (data_before (map D p)) with p by (rewrite <- (app_nil_r (map D p)), db_D; cbn [data_before]; rewrite app_nil_r; reflexivity).
      pose proof (crc_short kk p q Ed Q) as SH. destruct (crc_get p) as [x|e]; [exfalso; eapply SH; reflexivity|].
      destruct e; cbn [bind]; rewrite ?find_none; cbn [andb fst]; unfold bad; auto.
Qed.
(** nothing more than bytes after a complete copy *)
Definition got (i : cinode) (x : eas) (d : list N) (o : outcome) : Prop := bad o \/ o = Odone (Some d) false (attributes i x).
Lemma copy_last : forall k size i i' x c a j, i_saved i' = Ssaved -> like i i' -> copy_items c = Ok a -> crc_width (fst c) = crc_width size ->
  got i x (snd c) (fst (copies k false (Some size) i' (a ++ map D j))).
Proof.
  intros [|k] size i i' x c a j Hs (L1 & L2 & L3) Ha W; [left; left; reflexivity|]. rewrite copies_S. unfold write, write_new. rewrite Hs, (copy_read size c a _ Ha W). cbn [bind].
  unfold ea_get, got, attributes. rewrite L2. destruct (i_ea i); rewrite ?find_none; cbn [negb]; rewrite ?find_none; cbn [andb again].
  1,2,3,4,5: try (replace (find seqt_delta_sig (map D j)) with (false, @nil item) by (symmetry; apply find_none)).
  all: try (right; reflexivity); try (left; left; reflexivity).
Qed.
Lemma wasted_cut : forall w k size i i' x a a1 a2 j, i_saved i' = Ssaved -> like i i' -> wasted_items w = Ok a -> same_width size w -> a = a1 ++ a2 -> a2 <> [] -> junk_ok a2 j ->
  exists d, In d (map snd w) /\ got i x d (fst (copies k false (Some size) i' (a1 ++ map D j))).
Proof.
  induction w as [|c w IH]; intros k size i i' x a a1 a2 j Hs L Ha W E N J; cbn [wasted_items] in Ha.
  - injection Ha as <-. destruct a1; [|discriminate]. cbn [app] in E. congruence.
  - destruct (copy_items c) as [ac|] eqn:Ec; [|discriminate]. destruct (wasted_items w) as [aw|] eqn:Ew; [|discriminate]. cbn [bind] in Ha. injection Ha as <-.
    inversion W as [|c0 w0 W1 W2]; subst c0 w0. symmetry in E. destruct (split_at _ _ _ _ _ E N) as [(z & Z & E1 & E2)|(z & E1 & E2)].
    + exists (snd c). split; [left; reflexivity|]. left. subst a2. eapply copy_cut; eauto. eapply junk_app; eauto.
    + subst a1. destruct z as [|m z]; cbn [app] in E2.
      * exists (snd c). split; [left; reflexivity|]. rewrite app_nil_r. eapply copy_last; eauto.
      * injection E2 as <- E2. destruct k as [|k]; [exists (snd c); split; [left; reflexivity|left; left; reflexivity]|].
        rewrite <- app_assoc, <- app_comm_cons. rewrite (copies_wasted k size i' c ac _ Hs Ec W1).
        destruct (IH k size i i' x aw z a2 j Hs L eq_refl W2 E2 N J) as (d & D1 & D2). exists d. split; [right; exact D1|exact D2].
Qed.
