(** * Whatever bytes a header is read from: the reader consumes a prefix; CRC. *)
From Verif Require Import Base NumModel InfinintModel InfinintProof InfinintProof2 CrcModel CrcProof SliceModel HeaderModel HeaderProof HeaderProof2.
Open Scope N_scope.

Definition suf (f r : list N) : Prop := exists enc, f = enc ++ r.
Lemma suf_refl : forall f, suf f f.
Proof. intro f. exists []. reflexivity. Qed.
Lemma suf_trans : forall a b c, suf a b -> suf b c -> suf a c.
Proof. intros a b c (x & ->) (y & ->). exists (x ++ y). apply app_assoc. Qed.
Lemma suf_cons : forall x a, suf (x :: a) a.
Proof. intros. exists [x]. reflexivity. Qed.
Lemma suf_skipn : forall n f, suf f (skipn n f).
Proof. intros. exists (firstn n f). symmetry. apply firstn_skipn. Qed.
Lemma bind_ok {A B} : forall (m : res A) (k : A -> res B) r, bind m k = Ok r -> exists x, m = Ok x /\ k x = Ok r.
Proof. intros [x|e] k r H; cbn in H; [eauto|discriminate]. Qed.

Lemma readN_suf : forall f n r, readN f = Ok (n, r) -> suf f r.
Proof. intros f n r H. destruct (readN_suffix _ _ _ H) as (e & H1 & _). exists e. auto. Qed.
Lemma flags_read_suf : forall f b n r, flags_read b f = Ok (n, r) -> suf f r.
Proof.
  induction f as [|a f IH]; intros b n r H; [discriminate|]. cbn [flags_read] in H. destruct (_ =? _); [|discriminate].
  destruct (N.testbit a 0); [|assert (r = f) by congruence; subst; apply suf_cons].
  eapply suf_trans; [apply suf_cons|]. eauto.
Qed.
Lemma label_suf : forall f l r, label_read f = Ok (l, r) -> suf f r.
Proof. intros f l r H. apply label_read_inv in H as [-> _]. exists l. reflexivity. Qed.
Lemma tlv_suf : forall f t r, tlv_read f = Ok (t, r) -> suf f r.
Proof.
  intros [|a [|b f]] t r H; try discriminate. unfold tlv_read in H. apply bind_ok in H as ((n & g) & H1 & H).
  destruct (_ <? _); [discriminate|]. assert (r = skipn (N.to_nat n) g) as -> by congruence.
  eapply suf_trans; [apply suf_cons|]. eapply suf_trans; [apply suf_cons|]. eapply suf_trans; [eapply readN_suf; eauto|]. apply suf_skipn.
Qed.
Lemma tlvs_loop_suf : forall k f l r, tlvs_loop k f = Ok (l, r) -> suf f r.
Proof.
  induction k as [|k IH]; intros f l r H; cbn [tlvs_loop] in H; [assert (r = f) by congruence; subst; apply suf_refl|].
  apply bind_ok in H as ((t & g) & H1 & H). apply bind_ok in H as ((l' & g') & H2 & H). assert (r = g') by congruence. subst.
  eapply suf_trans; [eapply tlv_suf; eauto|eauto].
Qed.
Lemma tlvs_suf : forall f l r, tlvs_read f = Ok (l, r) -> suf f r.
Proof.
  intros f l r H. unfold tlvs_read in H. apply bind_ok in H as ((n & g) & H1 & H).
  eapply suf_trans; [eapply readN_suf; eauto|eapply tlvs_loop_suf; eauto].
Qed.
Ltac sufstep :=
  match goal with
  | H : Err _ = Ok _ |- _ => discriminate H
  | H : Ok ?x = Ok ?y |- _ => assert (x = y) by congruence; clear H
  | H : (_, _) = (_, _) |- _ => apply pair_equal_spec in H; destruct H
  | H : ?x = ?y |- _ => (is_var x; subst x) || (is_var y; subst y)
  | H : bind _ _ = Ok _ |- _ => let x := fresh "x" in let E := fresh "E" in apply bind_ok in H; destruct H as (x & E & H)
  | H : context[let (_, _) := ?x in _] |- _ => is_var x; destruct x
  | H : (if ?b then _ else _) = Ok _ |- _ => destruct b
  | H : (match ?x with _ => _ end) = Ok _ |- _ => is_var x; destruct x
  end.
Ltac sufuse :=
  repeat match goal with
  | H : readN ?f = Ok (_, ?r) |- _ => apply readN_suf in H
  | H : flags_read _ ?f = Ok (_, ?r) |- _ => apply flags_read_suf in H
  | H : label_read _ = Ok _ |- _ => apply label_suf in H
  | H : tlvs_read _ = Ok _ |- _ => apply tlvs_suf in H
  end.
Ltac sufgo :=
  match goal with
  | |- suf ?f ?f => apply suf_refl
  | H : suf ?f ?g |- suf ?f ?r => apply (suf_trans _ _ _ H); clear H; sufgo
  | H : suf (skipn ?n ?f) ?g |- suf ?f ?r => apply (suf_trans _ _ _ (suf_skipn n f)); sufgo
  | |- suf (?x :: ?f) ?r => apply (suf_trans _ _ _ (suf_cons x f)); sufgo
  | |- suf ?f (skipn _ ?f) => apply suf_skipn
  end.
Lemma layout_suf : forall f l r, layout_read f = Ok (l, r) -> suf f r.
Proof.
  intros f l r H. unfold layout_read in H.
  apply bind_ok in H; destruct H as ((a & f1) & H1 & H). apply bind_ok in H; destruct H as ((b & f2) & H2 & H).
  apply bind_ok in H; destruct H as ((c & f3) & H3 & H). apply bind_ok in H; destruct H as ((d & f4) & H4 & H).
  destruct f4 as [|t g]; cbn [read1] in H; [discriminate|].
  assert (r = g) by (destruct (t =? 55); [|destruct (t =? 56)]; congruence). subst. clear H. sufuse. sufgo.
Qed.
Lemma sh_suf : forall fic pause pos f s r, sh_read fic pause pos f = Ok (s, r) -> suf f r.
Proof.
  intros fic pause pos f s r H. unfold sh_read in H. repeat sufstep; sufuse; try sufgo.
Qed.
Lemma rss_suf : forall fuel n f s r, read_string_size fuel n f = Ok (s, r) -> suf f r.
Proof. intros fuel n f s r H. unfold read_string_size in H. apply rss_loop_suffix in H. exact H. Qed.
Lemma av_suf : forall old f v r, av_read old f = Ok (v, r) -> suf f r.
Proof. intros old f v r H. destruct (av_read_suffix _ _ _ _ H) as (e & H1 & _). exists e. auto. Qed.
Lemma read_string_suf : forall f v r, read_string f = Ok (v, r) -> suf f r.
Proof. intros f v r H. destruct (read_string_suffix _ _ _ H) as (e & H1 & _). exists e. auto. Qed.
Lemma hv_suf : forall fuel pause pos f h b r, hv_inner fuel pause pos f = Ok (h, b, r) -> suf f r.
Proof.
  induction fuel as [|fuel IH]; intros pause pos f h b r H; [discriminate|]. cbn [hv_inner] in H.
  repeat sufstep;
  repeat match goal with
  | H : av_read _ _ = Ok _ |- _ => apply av_suf in H
  | H : read_string _ = Ok _ |- _ => apply read_string_suf in H
  | H : sh_read _ _ _ _ = Ok _ |- _ => apply sh_suf in H
  | H : layout_read _ = Ok _ |- _ => apply layout_suf in H
  | H : read_string_size _ _ _ = Ok _ |- _ => apply rss_suf in H
  | H : hv_inner _ _ _ _ = Ok _ |- _ => apply IH in H
  end; sufuse; try sufgo.
Qed.

(** the CRC of the header *)
Lemma crc_of_spec : forall b, exists c, crc_of b = Ok c /\ cyclic c = crc_spec HEADER_CRC_SIZE b.
Proof.
  intro b. destruct (crc_feed_create HEADER_CRC_SIZE [(0, b)] (mk_crc (repeat 0 HEADER_CRC_SIZE) 0) eq_refl) as (c & E & V).
  cbn [map snd concat] in V. rewrite app_nil_r in V. exists c. split; [|exact V].
  unfold crc_of. change (crc_create HEADER_CRC_SIZE) with (Ok (mk_crc (repeat 0 HEADER_CRC_SIZE) 0) : res crc). cbn [bind].
  cbn [crc_feed] in E. destruct (crc_compute 0 b _); cbn [bind] in E; [|discriminate]. congruence.
Qed.
Lemma crc_of_size : forall b c, crc_of b = Ok c -> crc_size c = HEADER_CRC_SIZE.
Proof.
  intros b c H. destruct (crc_of_spec b) as (c' & E & V). assert (c' = c) by congruence. subst c'.
  unfold crc_size. rewrite V. unfold crc_spec. rewrite map_length, seq_length. reflexivity.
Qed.
Lemma crc_read_inv : forall f c r, crc_read f false = Ok (c, r) -> exists enc, f = enc ++ cyclic c ++ r.
Proof.
  intros f c r H. unfold crc_read in H. apply bind_ok in H as ((n & g) & H1 & H). apply readN_suf in H1 as (enc & ->).
  destruct (_ <? _); [destruct (_ <? _); discriminate|].
  assert (c = mk_crc (firstn (N.to_nat n) g) 0) as -> by congruence. assert (r = skipn (N.to_nat n) g) as -> by congruence.
  exists enc. cbn [cyclic]. rewrite firstn_skipn. reflexivity.
Qed.

Definition with_ioff (x : N) (h : hver) : hver :=
  mk_hv (hv_edition h) (hv_zip h) (hv_cmd h) x (hv_sym h) (hv_key h) (hv_rhead h) (hv_rver h) (hv_rterm h) (hv_only_layout h) (hv_marks h)
        (hv_ciphered h) (hv_signed h) (hv_has_kdf h) (hv_salt h) (hv_iter h) (hv_hash h) (hv_bs h).
Lemma hv_read_write : forall h pause pos rest, wf_hv h -> exists b, hv_write h = Ok b /\
  hv_read pause pos (b ++ rest) = Ok (if hv_ioff h =? 0 then with_ioff (pos + N.of_nat (length b)) h else h, rest).
Proof.
  intros h pause pos rest W.
  assert (Q : exists b, hv_body h = Ok b) by (destruct (hv_body_ok h 0 pause W) as (b & E & _); eauto).
  destruct Q as (b & Eb). destruct (crc_of_spec b) as (c & Ec & Vc).
  exists (b ++ crc_dump c). split; [unfold hv_write; rewrite Eb; cbn [bind]; rewrite Ec; reflexivity|].
  unfold hv_read.
  assert (I : hv_inner (S (length ((b ++ crc_dump c) ++ rest))) pause pos ((b ++ crc_dump c) ++ rest) = Ok (h, hv_flags h, crc_dump c ++ rest)).
  { assert (L : exists k, length ((b ++ crc_dump c) ++ rest) = S k).
    { rewrite !app_length. unfold crc_dump. rewrite app_length. pose proof (dumpN_ne (N.of_nat (crc_size c))).
      destruct (dumpN (N.of_nat (crc_size c))); [congruence|]. exists (length b + (length l + length (cyclic c)) + length rest)%nat. cbn [length]. lia. }
    destruct L as (k & ->). destruct (hv_body_ok h k pause W) as (b' & Eb' & R). assert (b' = b) by congruence. subst b'.
    rewrite <- app_assoc. apply R. }
  rewrite I. cbn [bind]. rewrite <- app_assoc.
  replace (firstn _ (b ++ _)) with b.
  2: { rewrite (app_length b). replace (_ - _)%nat with (length b) by lia. symmetry. apply firstn_app_exact. }
  rewrite Ec. cbn [bind]. destruct W as [(Hv & Hx & He & Hc & _) _].
  replace (_ =? EMPTY_VALUE * 256) with false by (symmetry; apply N.eqb_neq; auto).
  replace (av_gt (hv_edition h) 7) with true by (symmetry; unfold av_gt, av_value; apply N.ltb_lt; lia).
  rewrite crc_read_dump. cbn [bind]. unfold crc_size at 1. cbn [cyclic]. pose proof (crc_of_size _ _ Ec) as Sz. unfold crc_size in Sz. rewrite Sz.
  change (INFININT_MODE_START <=? N.of_nat HEADER_CRC_SIZE) with false. cbn iota.
  replace (crc_eq _ _) with true by (symmetry; apply crc_eq_spec; reflexivity). cbn [bind].
  destruct (hv_ioff h =? 0); [|reflexivity]. unfold with_ioff, consumed. repeat f_equal. rewrite !app_length. lia.
Qed.

(** an accepted header: either the stored CRC is the checksum of all the bytes before it, or a flag was unknown, or the format
    is older than 8 *)
Lemma hv_read_crc : forall pause pos f h rest, hv_read pause pos f = Ok (h, rest) ->
  exists h0 bits g body, hv_inner (S (length f)) pause pos f = Ok (h0, bits, g) /\ f = body ++ g /\ hv_edition h = hv_edition h0 /\
  (av_gt (hv_edition h) 7 = true -> all_flags_known bits = true ->
   exists enc, g = enc ++ crc_spec HEADER_CRC_SIZE body ++ rest).
Proof.
  intros pause pos f h rest H. unfold hv_read in H. apply bind_ok in H as (((h0 & bits) & g) & HI & H).
  pose proof (hv_suf _ _ _ _ _ _ _ HI) as (body & Ef). exists h0, bits, g, body. split; auto. split; auto.
  replace (firstn (length f - length g) f) with body in H.
  2: { rewrite Ef, app_length. replace (_ - _)%nat with (length body) by lia. symmetry. apply firstn_app_exact. }
  destruct (crc_of_spec body) as (c & Ec & Vc). rewrite Ec in H. cbn [bind] in H.
  destruct (_ =? EMPTY_VALUE * 256); [discriminate|]. apply bind_ok in H as (f' & H1 & H).
  assert (Ee : hv_edition h = hv_edition h0).
  { match type of H with Ok (?x, _) = _ => assert (x = h) as Ex by congruence end. rewrite <- Ex. destruct (hv_ioff h0 =? 0); reflexivity. }
  split; auto. intros A K. rewrite Ee in A. rewrite A in H1. rewrite K in H1. cbn [negb] in H1.
  assert (f' = rest) by congruence. subst f'.
  destruct (crc_read g false) as [[coh g2]|] eqn:R; cbn [bind] in H1; [|discriminate].
  destruct (INFININT_MODE_START <=? _); [discriminate|]. destruct (crc_eq coh c) eqn:EQ; [|discriminate].
  assert (g2 = rest) by congruence. subst g2. apply crc_eq_spec in EQ. apply crc_read_inv in R as (enc & ->).
  exists enc. rewrite EQ, Vc. reflexivity.
Qed.
