(** * Lemmas about the header readers and writers. *)
From Verif Require Import Base NumModel InfinintModel InfinintProof InfinintProof2 CrcModel CrcProof SliceModel HeaderModel.
Open Scope N_scope.

Lemma app_cut : forall (a b p q : list N), a ++ b = p ++ q -> q <> [] ->
  (exists q', a = p ++ q' /\ q' <> []) \/ (exists p', p = a ++ p' /\ b = p' ++ q).
Proof.
  intros a b p q E Hq. destruct (app_eq_app a b p q E) as (l & [[E1 E2]|[E1 E2]]).
  - destruct l as [|x l].
    + rewrite app_nil_r in E1. subst. right. exists []. rewrite app_nil_r. cbn in *. auto.
    + left. exists (x :: l). split; auto. discriminate.
  - right. eauto.
Qed.

Lemma consumed_app : forall a rest, consumed (a ++ rest) rest = N.of_nat (length a).
Proof. intros. unfold consumed. rewrite app_length. lia. Qed.

Lemma readN_suffix : forall f n r, readN f = Ok (n, r) -> exists enc, f = enc ++ r /\ enc <> [].
Proof.
  intros f n r. unfold readN. destruct (inf_read f) as [[x y]|] eqn:I; cbn [bind]; [|discriminate].
  intro R. assert (y = r) as -> by congruence. clear R.
  unfold inf_read in I. revert I. generalize 0. induction f as [|c f IHf]; intros z I; [discriminate|].
  cbn [inf_read_from] in I. destruct (c =? 0).
  - apply IHf in I. destruct I as (enc & -> & _). exists (c :: enc). split; auto. discriminate.
  - destruct (negb _); [discriminate|]. match type of I with context[if ?b then _ else _] => destruct b end; [discriminate|].
    match type of I with context[skipn ?n f] => exists (c :: firstn n f); assert (r = skipn n f) as -> by congruence end.
    split; [|discriminate]. cbn [app]. rewrite firstn_skipn. reflexivity.
Qed.

(** label *)
Lemma label_read_app : forall l rest, length l = LABEL_SIZE -> label_read (l ++ rest) = Ok (l, rest).
Proof.
  intros l rest H. unfold label_read. rewrite app_length, H. unfold LABEL_SIZE in *.
  replace (10 + length rest <? 10)%nat with false by (symmetry; apply Nat.ltb_ge; lia).
  rewrite firstn_app_exact_n, skipn_app_exact_n by auto. reflexivity.
Qed.
Lemma label_read_short : forall l, (length l < LABEL_SIZE)%nat -> label_read l = Err Erange.
Proof. intros l H. unfold label_read. replace (length l <? LABEL_SIZE)%nat with true; auto. symmetry. apply Nat.ltb_lt. auto. Qed.
Lemma label_read_inv : forall f l r, label_read f = Ok (l, r) -> f = l ++ r /\ length l = LABEL_SIZE.
Proof.
  intros f l r. unfold label_read. destruct (Nat.ltb_spec (length f) LABEL_SIZE); [discriminate|].
  intro E. assert (l = firstn LABEL_SIZE f /\ r = skipn LABEL_SIZE f) as [-> ->] by (split; congruence).
  split; [symmetry; apply firstn_skipn|]. rewrite firstn_length. lia.
Qed.
Lemma label_read_err : forall f e, label_read f = Err e -> e = Erange.
Proof. intros f e. unfold label_read. destruct (length f <? LABEL_SIZE)%nat; congruence. Qed.

(** tlv *)
Definition tlv_ok (t : tlv) : Prop := tlv_type t < 65536.
Lemma be16_join : forall n, n < 65536 -> ((n / 256) mod 256) * 256 + n mod 256 = n.
Proof. intros. lia. Qed.
Lemma be32_join : forall n, n < 4294967296 ->
  ((n / 16777216) mod 256) * 16777216 + ((n / 65536) mod 256) * 65536 + ((n / 256) mod 256) * 256 + n mod 256 = n.
Proof. intros. lia. Qed.
Lemma tlv_read_app : forall t rest, tlv_ok t -> tlv_read (tlv_dump t ++ rest) = Ok (t, rest).
Proof.
  intros [ty v] rest H. unfold tlv_ok in H. cbn in H. unfold tlv_dump, be16. cbn [tlv_type tlv_val].
  cbn [app]. unfold tlv_read. rewrite <- app_assoc, readN_dumpN. cbn [bind].
  rewrite app_length. replace (_ <? _) with false by (symmetry; apply N.ltb_ge; lia).
  rewrite Nat2N.id, firstn_app_exact, skipn_app_exact. pose proof (be16_join ty H) as J. rewrite J. reflexivity.
Qed.
Lemma tlv_read_prefix : forall t p q, tlv_dump t = p ++ q -> q <> [] -> tlv_read p = Err Erange.
Proof.
  intros [ty v] p q E Hq. unfold tlv_dump, be16 in E. cbn [tlv_type tlv_val app] in E.
  destruct p as [|x [|y p]]; auto. cbn [app] in E. injection E as _ _ E. cbn [tlv_read].
  destruct (app_cut _ _ _ _ E Hq) as [(q' & E1 & H1)|(p' & E1 & E2)].
  - rewrite (readN_prefix _ _ _ E1 H1). reflexivity.
  - subst p v. rewrite readN_dumpN. cbn [bind]. rewrite app_length.
    replace (_ <? _) with true; auto. symmetry. apply N.ltb_lt. destruct q; [congruence|]. cbn [length]. lia.
Qed.
Lemma tlvs_loop_app : forall l rest, Forall tlv_ok l ->
  tlvs_loop (length l) (concat (map tlv_dump l) ++ rest) = Ok (l, rest).
Proof.
  induction l as [|t l IH]; intros rest H; auto. inversion H; subst. cbn [length tlvs_loop map concat].
  rewrite <- app_assoc, tlv_read_app by auto. cbn [bind]. rewrite IH by auto. reflexivity.
Qed.
Lemma tlv_dump_ne : forall t, (1 <= length (tlv_dump t))%nat.
Proof. intros t. unfold tlv_dump. rewrite app_length. cbn. lia. Qed.
Lemma concat_len : forall l, (length l <= length (concat (map tlv_dump l)))%nat.
Proof. induction l as [|t l IH]; cbn [map concat length]; [lia|]. rewrite app_length. pose proof (tlv_dump_ne t). lia. Qed.
Lemma tlvs_read_app : forall l rest, Forall tlv_ok l -> tlvs_read (tlvs_dump l ++ rest) = Ok (l, rest).
Proof.
  intros l rest H. unfold tlvs_read, tlvs_dump. rewrite <- app_assoc, readN_dumpN. cbn [bind].
  pose proof (concat_len l). rewrite app_length. replace (_ <? _) with false by (symmetry; apply N.ltb_ge; lia).
  rewrite Nat2N.id. apply tlvs_loop_app. auto.
Qed.
Lemma tlvs_loop_prefix : forall l p q, Forall tlv_ok l -> concat (map tlv_dump l) = p ++ q -> q <> [] ->
  forall n, (length l <= n)%nat -> tlvs_loop n p = Err Erange.
Proof.
  induction l as [|t l IH]; intros p q H E Hq n Hn.
  - cbn in E. destruct p; destruct q; cbn in E; congruence.
  - inversion H; subst. destruct n; [cbn in Hn; lia|]. cbn [map concat] in E. cbn [tlvs_loop].
    destruct (app_cut _ _ _ _ E Hq) as [(q' & E1 & H1)|(p' & E1 & E2)].
    + rewrite (tlv_read_prefix _ _ _ E1 H1). reflexivity.
    + subst p. rewrite tlv_read_app by auto. cbn [bind]. rewrite (IH p' q); auto. cbn [length] in Hn. lia.
Qed.
Lemma tlvs_loop_short : forall n f, (length f < n)%nat -> tlvs_loop n f = Err Erange.
Proof.
  induction n as [|n IH]; intros f H; [lia|]. cbn [tlvs_loop]. destruct (tlv_read f) as [[t r]|e] eqn:E; cbn [bind].
  - rewrite IH; auto. unfold tlv_read in E. destruct f as [|a [|b f]]; try discriminate.
    destruct (readN f) as [[len g]|] eqn:R; cbn [bind] in E; [|discriminate].
    destruct (N.of_nat (length g) <? len); [discriminate|].
    assert (r = skipn (N.to_nat len) g) as -> by congruence.
    apply readN_suffix in R. destruct R as (enc & -> & _).
    cbn [length] in H. rewrite app_length in H.
    rewrite skipn_length. cbn [length] in *. lia.
  - unfold tlv_read in E. destruct f as [|a [|b f]]; try congruence.
    destruct (readN f) as [[len g]|] eqn:R; cbn [bind] in E.
    + destruct (N.of_nat (length g) <? len); congruence.
    + apply readN_only_erange in R. congruence.
Qed.

(** ** slice header *)
Lemma build_tlv_ok : forall h with_hs l, build_tlv h with_hs = Ok l -> Forall tlv_ok l.
Proof.
  intros h w l. unfold build_tlv. destruct (_ && _); [discriminate|]. intro E.
  match type of E with Ok ?x = _ => assert (l = x) as -> by congruence end. clear E.
  assert (K : forall (b : bool) t, tlv_ok t -> Forall tlv_ok (if b then [] else [t])) by (intros [] t Ht; auto).
  assert (K' : forall (b : bool) t, tlv_ok t -> Forall tlv_ok (if b then [t] else [])) by (intros [] t Ht; auto).
  rewrite !Forall_app. split; [apply K; reflexivity|]. split; [apply K; reflexivity|]. split; [apply K'; reflexivity|]. constructor; [reflexivity|constructor].
Qed.
Lemma fill_build : forall pause h with_hs l, length (sh_data h) = LABEL_SIZE -> build_tlv h with_hs = Ok l ->
  fill_from pause l (mk_layout 0 0 0 0 false) label_zero =
  Ok (mk_layout (first_size (sh_sly h)) (other_size (sh_sly h))
        (if with_hs then first_slice_header (sh_sly h) else 0) (if with_hs then other_slice_header (sh_sly h) else 0) false,
      sh_data h).
Proof.
  intros pause h w l Hd. unfold build_tlv.
  destruct (w && ((other_slice_header (sh_sly h) =? 0) || (first_slice_header (sh_sly h) =? 0))) eqn:W; [discriminate|].
  intro E. match type of E with Ok ?x = _ => assert (l = x) as -> by congruence end. clear E.
  pose proof (label_read_app (sh_data h) [] Hd) as HL. rewrite app_nil_r in HL.
  assert (D : forall n, readN (dumpN n) = Ok (n, [])).
  { intro n. pose proof (readN_dumpN n []) as D. rewrite app_nil_r in D. exact D. }
  destruct (N.eqb_spec (first_size (sh_sly h)) 0) as [Z1|Z1]; destruct (N.eqb_spec (other_size (sh_sly h)) 0) as [Z2|Z2];
  (destruct w; [cbn [andb] in W; apply orb_false_elim in W; destruct W as [W1 W2]|]);
  cbn [app fill_from tlv_type tlv_val first_size other_size first_slice_header other_slice_header older_sar_than_v8 N.eqb Pos.eqb
       tlv_first_size_t tlv_size_t tlv_data_name_t tlv_header_size_t];
  rewrite ?D; cbn [bind]; cbn [app fill_from tlv_type tlv_val first_size other_size first_slice_header other_slice_header older_sar_than_v8 N.eqb Pos.eqb
       tlv_first_size_t tlv_size_t tlv_data_name_t tlv_header_size_t];
  rewrite ?D; cbn [bind];
  cbn [app fill_from tlv_type tlv_val first_size other_size first_slice_header other_slice_header older_sar_than_v8 N.eqb Pos.eqb
       tlv_first_size_t tlv_size_t tlv_data_name_t tlv_header_size_t];
  rewrite ?readN_dumpN; cbn [bind]; rewrite ?D; cbn [bind]; rewrite ?W1, ?W2;
  cbn [app fill_from tlv_type tlv_val first_size other_size first_slice_header other_slice_header older_sar_than_v8 N.eqb Pos.eqb
       tlv_first_size_t tlv_size_t tlv_data_name_t tlv_header_size_t];
  rewrite HL; cbn [bind fill_from]; rewrite ?Z1, ?Z2; reflexivity.
Qed.

(** the slice header object a reader gets back: [os] is the slice size it deduces *)
Definition eff_name (h : slice_header) : list N := if label_is_cleared (sh_data h) then sh_name h else sh_data h.

Lemma sh_read_tlv : forall fic pause pos h as_first with_hs b rest,
  sh_magic h = SAUV_MAGIC -> length (sh_name h) = LABEL_SIZE -> length (sh_data h) = LABEL_SIZE ->
  older_sar_than_v8 (sh_sly h) = false -> sh_bytes h as_first with_hs = Ok b ->
  let s := sh_sly h in
  let n := pos + N.of_nat (length b) in
  let os := if with_hs then other_size s
            else if other_size s =? 0 then match fic with Some z => z | None => 0 end else other_size s in
  let fs := if first_size s =? 0 then os else first_size s in
  let fh := if with_hs then first_slice_header s else n in
  let oh := if with_hs then other_slice_header s else n in
  (fs <> 0 -> fh < fs) -> (os <> 0 -> oh < os) ->
  sh_read fic pause pos (b ++ rest) = Ok (mk_sh SAUV_MAGIC (sh_name h) (eff_name h) (sh_flag h) (mk_layout fs os fh oh false), rest).
Proof.
  intros fic pause pos h as_first w b rest Hm Hn Hd Ho Hb s n os fs fh oh Hf Hs.
  unfold sh_bytes in Hb. fold s in Hb. destruct (w && negb as_first) eqn:E0; [discriminate|].
  unfold s in Hb. rewrite Ho in Hb. destruct (build_tlv h w) as [l|e] eqn:B; cbn [bind] in Hb; [|discriminate].
  assert (Eb : b = be32 (sh_magic h) ++ sh_name h ++ [sh_flag h] ++ extension_tlv :: tlvs_dump l) by congruence.
  clear Hb. pose proof (build_tlv_ok _ _ _ B) as Hl. pose proof (fill_build pause h w l Hd B) as F.
  assert (C : consumed (b ++ rest) rest = N.of_nat (length b)) by apply consumed_app.
  unfold sh_read. rewrite Eb at 1. rewrite Hm. unfold be32. rewrite <- !app_assoc. cbn [app].
  change (_ =? SAUV_MAGIC) with true. cbn [negb]. rewrite label_read_app by auto. cbn [bind app].
  change (extension_tlv =? extension_none) with false. change (extension_tlv =? extension_size) with false.
  change (extension_tlv =? extension_tlv) with true. cbn [bind]. rewrite tlvs_read_app by auto. cbn [bind].
  rewrite F. cbn [bind first_size other_size first_slice_header other_slice_header]. rewrite C.
  fold n. fold s. subst fs fh oh os.
  assert (W : w = true -> first_slice_header s <> 0 /\ other_slice_header s <> 0).
  { intros ->. unfold build_tlv in B. fold s in B. cbn [andb] in B.
    destruct (N.eqb_spec (other_slice_header s) 0); [discriminate|]. destruct (N.eqb_spec (first_slice_header s) 0); [discriminate|]. auto. }
  assert (N16 : min_size < n).
  { unfold n. rewrite Eb, Hm. cbn [app be32 length]. rewrite !app_length, Hn. unfold LABEL_SIZE, min_size, tlvs_dump. cbn [length].
    rewrite app_length. pose proof (dumpN_ne (N.of_nat (length l))). destruct (dumpN (N.of_nat (length l))); [congruence|].
    cbn [length]. lia. }
  assert (X : mk_sh (0 * 16777216 + 0 * 65536 + 0 * 256 + 123) (sh_name h) (if label_is_cleared (sh_data h) then sh_name h else sh_data h) (sh_flag h) = mk_sh SAUV_MAGIC (sh_name h) (eff_name h) (sh_flag h)) by reflexivity.
  destruct w.
  - destruct (W eq_refl) as [W1 W2]. replace (other_slice_header s =? 0) with false by (symmetry; apply N.eqb_neq; auto).
    cbn [bind first_size other_size first_slice_header other_slice_header].
    destruct (N.eqb_spec (first_size s) 0) as [Z|Z].
    + destruct (N.eqb_spec (other_size s) 0) as [Z2|Z2].
      * rewrite Z2. cbn [N.eqb negb andb bind]. reflexivity.
      * cbn [negb andb]. replace (_ <=? _) with false by (symmetry; apply N.leb_gt; auto).
        replace (_ <=? _) with false by (symmetry; apply N.leb_gt; auto). reflexivity.
    + destruct (N.eqb_spec (first_size s) 0) as [|_]; [congruence|]. cbn [negb andb].
      replace (_ <=? _) with false by (symmetry; apply N.leb_gt; auto).
      destruct (N.eqb_spec (other_size s) 0) as [Z2|Z2]; cbn [negb andb].
      * reflexivity.
      * replace (_ <=? _) with false by (symmetry; apply N.leb_gt; auto). reflexivity.
  - cbn [N.eqb]. replace (n <=? min_size) with false by (symmetry; apply N.leb_gt; auto).
    rewrite N.eqb_refl. cbn [negb bind first_size other_size first_slice_header other_slice_header].
    set (os := match fic with Some z => if other_size s =? 0 then z else other_size s | None => other_size s end).
    assert (Eo : os = if other_size s =? 0 then match fic with Some z => z | None => 0 end else other_size s).
    { unfold os. destruct fic; destruct (N.eqb_spec (other_size s) 0); congruence. }
    rewrite <- Eo in *. clearbody os. clear Eo.
    destruct (N.eqb_spec (first_size s) 0) as [Z|Z].
    + destruct (N.eqb_spec os 0) as [Z2|Z2].
      * rewrite Z2. cbn [N.eqb negb andb bind]. reflexivity.
      * cbn [negb andb]. replace (_ <=? _) with false by (symmetry; apply N.leb_gt; auto). reflexivity.
    + destruct (N.eqb_spec (first_size s) 0) as [|_]; [congruence|]. cbn [negb andb].
      replace (_ <=? _) with false by (symmetry; apply N.leb_gt; auto).
      destruct (N.eqb_spec os 0) as [Z2|Z2]; cbn [negb andb]; [reflexivity|].
      replace (_ <=? _) with false by (symmetry; apply N.leb_gt; auto). reflexivity.
Qed.

Lemma sh_read_prefix : forall fic pause pos h as_first with_hs b p q,
  sh_magic h = SAUV_MAGIC -> length (sh_name h) = LABEL_SIZE -> older_sar_than_v8 (sh_sly h) = false ->
  sh_bytes h as_first with_hs = Ok b -> b = p ++ q -> q <> [] -> sh_read fic pause pos p = Err Erange.
Proof.
  intros fic pause pos h as_first w b p q Hm Hn Ho Hb Ep Hq.
  unfold sh_bytes in Hb. destruct (w && negb as_first) eqn:E0; [discriminate|].
  rewrite Ho in Hb. destruct (build_tlv h w) as [l|e] eqn:B; cbn [bind] in Hb; [|discriminate].
  assert (Eb : b = be32 (sh_magic h) ++ sh_name h ++ [sh_flag h] ++ extension_tlv :: tlvs_dump l) by congruence.
  clear Hb. rewrite Ep in Eb. clear b Ep. symmetry in Eb. pose proof (build_tlv_ok _ _ _ B) as Hl.
  destruct (app_cut _ _ _ _ Eb Hq) as [(q' & E1 & H1)|(p' & E1 & E2)].
  { rewrite Hm in E1. change (be32 SAUV_MAGIC) with [0; 0; 0; 123] in E1.
    destruct p as [|a [|b [|c [|d p]]]]; try reflexivity. cbn [app] in E1. assert (p ++ q' = []) by congruence.
    apply app_eq_nil in H. destruct H. congruence. }
  subst p. rewrite Hm. change (be32 SAUV_MAGIC) with [0; 0; 0; 123]. cbn [app]. unfold sh_read.
  change (_ =? SAUV_MAGIC) with true. cbn [negb].
  destruct (app_cut _ _ _ _ E2 Hq) as [(q' & E3 & H3)|(p2 & E3 & E4)].
  { rewrite label_read_short; auto. rewrite E3, app_length in Hn. destruct q'; [congruence|]. cbn [length] in Hn. lia. }
  subst p'. rewrite label_read_app by auto. cbn [bind]. cbn [app] in E4.
  destruct p2 as [|x [|y p2]]; auto. cbn [app] in E4. injection E4 as <- <- E4.
  change (extension_tlv =? extension_none) with false. change (extension_tlv =? extension_size) with false.
  change (extension_tlv =? extension_tlv) with true. cbn [bind]. unfold tlvs_dump in E4. unfold tlvs_read.
  destruct (app_cut _ _ _ _ E4 Hq) as [(q' & E5 & H5)|(p3 & E5 & E6)].
  { rewrite (readN_prefix _ _ _ E5 H5). reflexivity. }
  subst p2. rewrite readN_dumpN. cbn [bind].
  destruct (N.ltb_spec (N.of_nat (length p3)) (N.of_nat (length l))).
  - rewrite tlvs_loop_short by lia. reflexivity.
  - rewrite Nat2N.id. rewrite (tlvs_loop_prefix l p3 q) by auto. reflexivity.
Qed.

Lemma tlv_read_err : forall f e, tlv_read f = Err e -> e = Erange.
Proof.
  intros f e E. unfold tlv_read in E. destruct f as [|a [|b f]]; try congruence.
  destruct (readN f) as [[len g]|] eqn:R; cbn [bind] in E.
  - destruct (N.of_nat (length g) <? len); congruence.
  - apply readN_only_erange in R. congruence.
Qed.
Lemma tlvs_read_err : forall f e, tlvs_read f = Err e -> e = Erange.
Proof.
  intros f e. unfold tlvs_read. destruct (readN f) as [[n g]|x] eqn:R; cbn [bind].
  - generalize (if N.of_nat (length g) <? n then S (length g) else N.to_nat n). intro k. revert g R.
    assert (H : forall k g, tlvs_loop k g = Err e -> e = Erange).
    { clear. induction k as [|k IH]; intros g; cbn [tlvs_loop]; [discriminate|].
      destruct (tlv_read g) as [[t g']|x] eqn:T; cbn [bind].
      - destruct (tlvs_loop k g') as [[l g2]|x] eqn:L; cbn [bind]; [discriminate|]. intro E. apply (IH g'). congruence.
      - intro E. apply tlv_read_err in T. congruence. }
    intros g _. apply H.
  - intro E. apply readN_only_erange in R. congruence.
Qed.
Lemma fill_from_err : forall pause l s dn e, fill_from pause l s dn = Err e -> e = Erange \/ (pause = false /\ e = Euser_abort).
Proof.
  intros pause. induction l as [|t l IH]; intros s dn e; cbn [fill_from]; [discriminate|].
  destruct (_ =? _).
  { destruct (readN (tlv_val t)) as [[v r]|x] eqn:R; cbn [bind]; [apply IH|]. apply readN_only_erange in R. left. congruence. }
  destruct (_ =? _).
  { destruct (readN (tlv_val t)) as [[v r]|x] eqn:R; cbn [bind]; [apply IH|]. apply readN_only_erange in R. left. congruence. }
  destruct (_ =? _).
  { destruct (label_read (tlv_val t)) as [[v r]|x] eqn:R; cbn [bind]; [apply IH|]. apply label_read_err in R. left. congruence. }
  destruct (_ =? _).
  { destruct (readN (tlv_val t)) as [[v r]|x] eqn:R; cbn [bind]; [|apply readN_only_erange in R; left; congruence].
    destruct (readN r) as [[v' r']|x] eqn:R'; cbn [bind]; [|apply readN_only_erange in R'; left; congruence].
    destruct (_ =? _); [left; congruence|]. destruct (_ =? _); [left; congruence|]. apply IH. }
  destruct pause eqn:Hp; [apply IH|]. right. split; congruence.
Qed.
Lemma fill_from_headers : forall pause l s dn s' dn', fill_from pause l s dn = Ok (s', dn') ->
  (first_slice_header s = 0 <-> other_slice_header s = 0) -> (first_slice_header s' = 0 <-> other_slice_header s' = 0).
Proof.
  intros pause. induction l as [|t l IH]; intros s dn s' dn'; cbn [fill_from].
  { intros E H. assert (s = s') by congruence. subst. auto. }
  intros E H. revert E.
  destruct (_ =? _).
  { destruct (readN (tlv_val t)) as [[v r]|x]; cbn [bind]; [|discriminate]. intro E. eapply IH; eauto. }
  destruct (_ =? _).
  { destruct (readN (tlv_val t)) as [[v r]|x]; cbn [bind]; [|discriminate]. intro E. eapply IH; eauto. }
  destruct (_ =? _).
  { destruct (label_read (tlv_val t)) as [[v r]|x]; cbn [bind]; [|discriminate]. intro E. eapply IH; eauto. }
  destruct (_ =? _).
  { destruct (readN (tlv_val t)) as [[v r]|x]; cbn [bind]; [|discriminate].
    destruct (readN r) as [[v' r']|x]; cbn [bind]; [|discriminate].
    destruct (N.eqb_spec v 0); [discriminate|]. destruct (N.eqb_spec v' 0); [discriminate|].
    intro E. eapply IH; eauto. cbn. lia. }
  destruct pause; [|discriminate]. intro E. eapply IH; eauto.
Qed.

(** whatever the bytes: accepted with a coherent layout, or a regular error *)
Lemma sh_read_any : forall fic pause pos f,
  match sh_read fic pause pos f with
  | Ok (h, rest) =>
      sh_magic h = SAUV_MAGIC /\ length (sh_name h) = LABEL_SIZE /\
      (first_size (sh_sly h) = 0 \/ first_slice_header (sh_sly h) < first_size (sh_sly h) \/ older_sar_than_v8 (sh_sly h) = true) /\
      (other_size (sh_sly h) = 0 \/ other_slice_header (sh_sly h) < other_size (sh_sly h)) /\
      first_slice_header (sh_sly h) <> 0 /\ other_slice_header (sh_sly h) <> 0
  | Err e => e = Erange \/ (pause = false /\ e = Euser_abort)
  end.
Proof.
  intros fic pause pos f0. unfold sh_read. destruct f0 as [|m3 [|m2 [|m1 [|m0 f]]]]; try (left; reflexivity).
  destruct (N.eqb_spec (m3 * 16777216 + m2 * 65536 + m1 * 256 + m0) SAUV_MAGIC) as [M|M]; cbn [negb]; [|left; reflexivity].
  destruct (label_read f) as [[iname g]|x] eqn:L; cbn [bind]; [|apply label_read_err in L; left; congruence].
  apply label_read_inv in L. destruct L as [_ L].
  destruct g as [|flag [|ext g]]; try (left; reflexivity).
  destruct (ext =? extension_none).
  { destruct fic as [sz|].
    - destruct (N.leb_spec sz min_size); cbn [bind]; [left; reflexivity|].
      cbn [sh_magic sh_name sh_sly first_size other_size first_slice_header other_slice_header older_sar_than_v8].
      unfold min_size in *. intuition lia.
    - cbn. unfold min_size in *. intuition lia. }
  destruct (ext =? extension_size).
  { destruct (readN g) as [[os g']|x] eqn:R; cbn [bind]; [|apply readN_only_erange in R; left; congruence].
    destruct (N.leb_spec os min_size); cbn [bind]; [left; reflexivity|].
    destruct fic as [sz|]; cbn [bind]; [|left; reflexivity]. destruct (N.leb_spec sz min_size); cbn [bind]; [left; reflexivity|].
    destruct (N.ltb_spec (pos + consumed (m3 :: m2 :: m1 :: m0 :: f) g') min_size); cbn [bind]; [left; reflexivity|].
    cbn [sh_magic sh_name sh_sly first_size other_size first_slice_header other_slice_header older_sar_than_v8].
    unfold min_size in *. intuition lia. }
  destruct (ext =? extension_tlv); [|left; reflexivity].
  destruct (tlvs_read g) as [[tl g']|x] eqn:R; cbn [bind]; [|apply tlvs_read_err in R; left; congruence].
  destruct (fill_from pause tl _ _) as [[s dn]|x] eqn:F; cbn [bind].
  2: { apply fill_from_err in F. exact F. }
  pose proof (fill_from_headers _ _ _ _ _ _ F) as HH. cbn in HH. specialize (HH (conj (fun x => x) (fun x => x))).
  assert (K : forall s1, first_slice_header s1 <> 0 -> other_slice_header s1 <> 0 ->
    match (let* '(s, dn, f2) :=
           (let fs := if first_size s1 =? 0 then other_size s1 else first_size s1 in
            let s := mk_layout fs (other_size s1) (first_slice_header s1) (other_slice_header s1) false in
            if negb (first_size s =? 0) && (first_size s <=? first_slice_header s) then Err Erange
            else if negb (other_size s =? 0) && (other_size s <=? other_slice_header s) then Err Erange
            else Ok (s, dn, g')) in
          Ok (mk_sh (m3 * 16777216 + m2 * 65536 + m1 * 256 + m0) iname (if label_is_cleared dn then iname else dn) flag s, f2))
    with
    | Ok (h, rest) => sh_magic h = SAUV_MAGIC /\ length (sh_name h) = LABEL_SIZE /\
      (first_size (sh_sly h) = 0 \/ first_slice_header (sh_sly h) < first_size (sh_sly h) \/ older_sar_than_v8 (sh_sly h) = true) /\
      (other_size (sh_sly h) = 0 \/ other_slice_header (sh_sly h) < other_size (sh_sly h)) /\
      first_slice_header (sh_sly h) <> 0 /\ other_slice_header (sh_sly h) <> 0
    | Err e => e = Erange \/ (pause = false /\ e = Euser_abort)
    end).
  { intros s1 H1 H2. cbn zeta. cbn [first_size other_size first_slice_header other_slice_header].
    set (fs := if first_size s1 =? 0 then other_size s1 else first_size s1).
    destruct (N.eqb_spec fs 0) as [Z|Z]; cbn [negb andb].
    - destruct (N.eqb_spec (other_size s1) 0) as [Z2|Z2]; cbn [negb andb bind].
      + cbn. intuition lia.
      + destruct (N.leb_spec (other_size s1) (other_slice_header s1)); cbn [bind]; [left; reflexivity|]. cbn. intuition lia.
    - destruct (N.leb_spec fs (first_slice_header s1)); cbn [bind]; [left; reflexivity|].
      destruct (N.eqb_spec (other_size s1) 0) as [Z2|Z2]; cbn [negb andb bind].
      + cbn. intuition lia.
      + destruct (N.leb_spec (other_size s1) (other_slice_header s1)); cbn [bind]; [left; reflexivity|]. cbn. intuition lia. }
  destruct (N.eqb_spec (other_slice_header s) 0) as [Z|Z]; cbn [bind].
  - destruct (N.leb_spec (pos + consumed (m3 :: m2 :: m1 :: m0 :: f) g') min_size); cbn [bind]; [left; reflexivity|].
    assert (Z1 : first_slice_header s = 0) by tauto. rewrite Z1. cbn [N.eqb]. rewrite N.eqb_refl. cbn [negb bind].
    apply K; cbn [first_slice_header other_slice_header]; unfold min_size in *; lia.
  - apply K; tauto.
Qed.
