From Coq Require Import List.
From Verif Require Import Base InfinintModel CrcModel CrcProof PropCrc DatetimeModel PropDatetime PathModel PropPath CatModel SeqModel PropChange PropCatalogue DiffModel DiffSpec.
Import ListNotations.
Open Scope N_scope.

(** ** generic_file::diff *)
Lemma same_bytes_le : forall a b, (same_bytes a b <= length a)%nat /\ (same_bytes a b <= length b)%nat.
Proof. induction a as [|x a IH]; intros [|y b]; cbn [same_bytes length]; try lia. destruct (x =? y); [|lia]. destruct (IH b). lia. Qed.
Lemma same_bytes_all : forall a b, length a = length b -> same_bytes a b = length a -> a = b.
Proof.
  induction a as [|x a IH]; intros [|y b]; cbn [same_bytes length]; try discriminate; [reflexivity|]. intros L H. destruct (N.eqb_spec x y); [|discriminate]. subst. f_equal. apply IH; lia.
Qed.
Lemma same_bytes_refl : forall a, same_bytes a a = length a.
Proof. induction a; cbn; [reflexivity|]. rewrite N.eqb_refl. congruence. Qed.
Lemma same_bytes_first : forall a b, firstn (same_bytes a b) a = firstn (same_bytes a b) b.
Proof. induction a as [|x a IH]; intros [|y b]; cbn [same_bytes]; try reflexivity. destruct (N.eqb_spec x y); [|reflexivity]. subst. cbn [firstn]. f_equal. apply IH. Qed.
Lemma same_bytes_next : forall a b, (same_bytes a b < length a)%nat -> (same_bytes a b < length b)%nat -> nth (same_bytes a b) a 0 <> nth (same_bytes a b) b 0.
Proof. induction a as [|x a IH]; intros [|y b]; cbn [same_bytes length]; try lia. destruct (N.eqb_spec x y); [|cbn; congruence]. cbn [nth]. intros. apply IH; lia. Qed.
Lemma parts_same : forall a b, a <> b -> parts_at (same_bytes a b) a b.
Proof.
  intros a b H. destruct (same_bytes_le a b). split; [apply same_bytes_first|]. split; [assumption|]. split; [assumption|]. split; [apply same_bytes_next|].
  intros [E1 E2]. apply H. apply same_bytes_all; congruence.
Qed.
Lemma same_bytes_app : forall p a b, same_bytes (p ++ a) (p ++ b) = (length p + same_bytes a b)%nat.
Proof. induction p; intros; cbn; [reflexivity|]. rewrite N.eqb_refl, IHp. reflexivity. Qed.
Lemma same_bytes_firstn : forall n a b, (n <= length a)%nat -> (n <= length b)%nat -> (same_bytes (firstn n a) (firstn n b) < n)%nat -> same_bytes (firstn n a) (firstn n b) = same_bytes a b.
Proof.
  induction n as [|n IH]; intros [|x a] [|y b]; cbn [firstn same_bytes length]; try lia. intros. destruct (x =? y); [|reflexivity]. f_equal. apply IH; lia.
Qed.
Lemma same_bytes_cut : forall n a b, (same_bytes (firstn n a) (firstn n b) < length (firstn n a))%nat -> (same_bytes (firstn n a) (firstn n b) < length (firstn n b))%nat ->
  same_bytes (firstn n a) (firstn n b) = same_bytes a b.
Proof.
  induction n as [|n IH]; intros [|x a] [|y b]; cbn [firstn same_bytes length]; try lia. intros. destruct (x =? y); [|reflexivity]. f_equal. apply IH; lia.
Qed.
Lemma crc_feed_app : forall a b c, crc_feed (a ++ b) c = let* c' := crc_feed a c in crc_feed b c'.
Proof. induction a as [|[ad buf] a IH]; intros b c; cbn [app crc_feed bind]; [reflexivity|]. destruct (crc_compute ad buf c); cbn [bind]; [apply IH|reflexivity]. Qed.
Definition crc_good (c : crc) : Prop := (pointer c < crc_size c)%nat.
Lemma feed_total : forall w chunks c0, crc_create w = Ok c0 -> exists c, crc_feed chunks c0 = Ok c.
Proof. intros w chunks c0 H. destruct (crc_feed_create w chunks c0 H) as (c & E & _). eauto. Qed.
Lemma diff_loop_spec : forall fuel sz w me you value off p chunks c0, (0 < sz)%nat -> crc_create w = Ok c0 -> (length me < fuel)%nat ->
  crc_feed chunks c0 = Ok value -> concat (map snd chunks) = p -> off = N.of_nat (length p) ->
  exists d v x, diff_loop fuel sz me you value off = Ok (d, v, N.of_nat x) /\
    if d : bool then me <> you /\ (length me = length you -> parts_at x (p ++ me) (p ++ you))
    else me = you /\ x = length (p ++ me) /\ exists ch, crc_feed ch c0 = Ok v /\ concat (map snd ch) = p ++ me.
Proof.
  induction fuel as [|fuel IH]; intros sz w me you value off p chunks c0 Hs Hc Hf Hv Hp Ho; [lia|]. cbn [diff_loop].
  destruct (Nat.eqb_spec (length (firstn sz me)) (length (firstn sz you))) as [L|L].
  - pose proof (same_bytes_le (firstn sz me) (firstn sz you)) as [B1 B2].
    destruct (Nat.ltb_spec (same_bytes (firstn sz me) (firstn sz you)) (length (firstn sz me))) as [D|D].
    + exists true, value, (length p + same_bytes me you)%nat. rewrite (same_bytes_cut sz me you D ltac:(lia)) in *. rewrite Ho. split; [f_equal; f_equal; lia|].
      assert (NE : me <> you).
      { intro E. subst you. rewrite same_bytes_refl in D. rewrite firstn_length in D. lia. }
      split; [exact NE|]. intros _. rewrite <- same_bytes_app. apply parts_same. intro E. apply NE. eapply app_inv_head; eauto.
    + assert (EQ : firstn sz me = firstn sz you) by (apply same_bytes_all; lia).
      set (b := firstn sz me) in *. destruct (feed_total w (chunks ++ [(0, b)]) c0 Hc) as (v1 & F1). pose proof F1 as F2. rewrite crc_feed_app, Hv in F2. cbn [bind crc_feed] in F2.
      destruct (crc_compute 0 b value) as [v2|]; [|discriminate]. cbn [bind] in F2. injection F2 as ->. cbn [bind].
      assert (C1 : concat (map snd (chunks ++ [(0, b)])) = p ++ b) by (rewrite map_app, concat_app, Hp; cbn; rewrite app_nil_r; reflexivity).
      destruct (Nat.ltb_spec 0 (length b)) as [P|P].
      * destruct (IH sz w (skipn sz me) (skipn sz you) v1 (off + N.of_nat (length b)) (p ++ b) (chunks ++ [(0, b)]) c0 Hs Hc) as (d & v & x & E & R).
        -- rewrite skipn_length. unfold b in P. rewrite firstn_length in P. lia.
        -- exact F1.
        -- exact C1.
        -- rewrite app_length. lia.
        -- exists d, v, x. split; [exact E|].
           assert (M : (p ++ b) ++ skipn sz me = p ++ me) by (rewrite <- app_assoc; unfold b; rewrite firstn_skipn; reflexivity).
           assert (Y : (p ++ b) ++ skipn sz you = p ++ you) by (rewrite <- app_assoc; rewrite EQ, firstn_skipn; reflexivity).
           rewrite M, Y in R. destruct d.
           ++ destruct R as [R1 R2]. split; [intro Q; apply R1; congruence|]. intro LL. apply R2. rewrite !skipn_length. lia.
           ++ destruct R as (R1 & R2 & R3). split; [|split; [exact R2|exact R3]]. rewrite <- (firstn_skipn sz me), <- (firstn_skipn sz you). fold b. congruence.
      * assert (Z1 : b = []) by (destruct b; [reflexivity|cbn in P; lia]). assert (M0 : me = []) by (unfold b in Z1; destruct me, sz; cbn in Z1; try lia; congruence).
        assert (Y0 : you = []) by (rewrite Z1 in EQ; destruct you, sz; cbn in EQ; try lia; congruence). subst me you.
        exists false, v1, (length p). rewrite Z1. cbn [length]. rewrite Ho. split; [f_equal; f_equal; lia|]. split; [reflexivity|]. split; [rewrite app_nil_r; reflexivity|].
        exists (chunks ++ [(0, b)]). split; [exact F1|]. rewrite C1, Z1. reflexivity.
  - exists true, value, (length p + (if (length (firstn sz you) <? length (firstn sz me))%nat then length (firstn sz you) else length (firstn sz me)))%nat. split; [rewrite Ho; f_equal; f_equal; lia|].
    split; [intro E; apply L; congruence|]. intro E. exfalso. apply L. rewrite !firstn_length. lia.
Qed.
Lemma gf_diff_spec : forall sz me you w, (0 < sz)%nat -> w <> O ->
  exists d v x, gf_diff sz me you w = Ok (d, v, N.of_nat x) /\
    if d : bool then me <> you /\ (length me = length you -> parts_at x me you) else me = you /\ x = length me /\ cyclic v = checksum w me /\ crc_size v = w.
Proof.
  intros sz me you w Hs Hw. unfold gf_diff. assert (E0 : crc_create w = Ok (mk_crc (repeat 0 w) 0)) by (unfold crc_create; destruct (Nat.eqb_spec w 0); [contradiction|reflexivity]).
  rewrite E0. cbn [bind]. destruct (diff_loop_spec (S (S (length me))) sz w me you _ 0 [] [] _ Hs E0 ltac:(lia) eq_refl eq_refl eq_refl) as (d & v & x & E & R).
  exists d, v, x. split; [exact E|]. destruct d; cbn [app] in R; [exact R|]. destruct R as (R1 & R2 & ch & F & C). split; [exact R1|]. split; [exact R2|].
  destruct (crc_feed_create w ch _ E0) as (c & Fc & V). assert (c = v) by congruence. subst c. rewrite checksum_spec, <- C. split; [exact V|].
  unfold crc_size. rewrite V. unfold crc_spec. rewrite map_length, seq_length. reflexivity.
Qed.
