(** * Proofs about the sparse file layer: skipping forward, copying. *)
From Verif Require Import Base NumModel FileModel InfinintModel InfinintProof2 CrcModel CrcProof EscapeModel EscapeSpec EscapeProof EscapeProof2 EscapeProof3 EscapeProof4 SparseModel SparseProof SparseProof2.
Open Scope nat_scope.

Lemma drop_spec : forall fuel bs n r pos d, 0 < bs -> rel r pos d -> n < fuel ->
  exists r', drop_bytes fuel bs n r = Ok (Nat.min n (length d), r') /\ rel r' (pos + Nat.min n (length d)) (skipn n d).
Proof.
  induction fuel as [|k IH]; intros bs n r pos d Hb HR Hf; [lia|]. cbn [drop_bytes]. destruct (Nat.ltb_spec 0 n) as [L|L].
  2:{ assert (n = 0) as -> by lia. exists r. cbn. rewrite Nat.add_0_r. auto. }
  destruct (rs_read_spec (Nat.min bs n) r pos d HR) as (r1 & -> & R1). cbn [bind]. destruct (firstn (Nat.min bs n) d) as [|x y] eqn:Ef.
  - assert (d = []) as ->. { destruct d; [reflexivity|]. replace (Nat.min bs n) with (S (Nat.min bs n - 1)) in Ef by lia. discriminate. }
    rewrite Nat.min_0_r. rewrite skipn_nil in *. exists r1. auto.
  - rewrite <- Ef in *. assert (Lf : length (firstn (Nat.min bs n) d) = Nat.min (Nat.min bs n) (length d)) by apply firstn_length.
    assert (0 < length (firstn (Nat.min bs n) d)) by (rewrite Ef; cbn; lia).
    destruct (IH bs (n - length (firstn (Nat.min bs n) d)) r1 _ _ Hb R1 ltac:(lia)) as (r2 & -> & R2). cbn [bind].
    exists r2. rewrite skipn_length in *. split; [do 2 f_equal; lia|].
    replace (pos + Nat.min n (length d)) with (pos + length (firstn (Nat.min bs n) d) + Nat.min (n - length (firstn (Nat.min bs n) d)) (length d - Nat.min bs n)) by lia.
    assert (X : skipn n d = skipn (n - length (firstn (Nat.min bs n) d)) (skipn (Nat.min bs n) d)).
    { rewrite skipn_skipn. destruct (Nat.le_ge_cases (Nat.min bs n) (length d)); [f_equal; lia|]. rewrite !skipn_all2 by lia. reflexivity. }
    rewrite X. exact R2.
Qed.

(** ** copy_to *)
Definition crc_so_far (w : nat) (content : list N) (c : option crc) : Prop :=
  match c with None => w = 0 | Some c => wf c /\ crc_size c = w /\ forall i, i < w -> nth i (cyclic c) 0%N = col w i 0 content end.
Lemma crc_step : forall w content addr buf c, crc_so_far w content c ->
  exists c', match c with Some c => let* c := crc_compute_at (N.of_nat (length content)) addr buf c in Ok (Some c) | None => Ok None end = Ok c' /\ crc_so_far w (content ++ buf) c'.
Proof.
  intros w content addr buf [c|] H; [|exists None; split; [reflexivity|exact H]]. destruct H as (Hw & Hs & Hc). unfold crc_compute_at.
  assert (Hp : N.to_nat (N.of_nat (length content) mod N.of_nat (crc_size c)) < length (cyclic c)).
  { unfold wf in Hw. unfold crc_size in *.
    assert ((N.of_nat (length content) mod N.of_nat (length (cyclic c)) < N.of_nat (length (cyclic c)))%N) by (apply N.mod_lt; lia). lia. }
  rewrite crc_compute_spec by exact Hp. cbn [cyclic pointer].
  destruct (t_loop buf (cyclic c) (N.to_nat (N.of_nat (length content) mod N.of_nat (crc_size c)))) as [cyc p] eqn:E. cbn [bind].
  destruct (t_loop_wf _ _ _ _ _ Hp E) as [W L]. eexists. split; [reflexivity|]. cbn [crc_so_far]. split; [exact W|]. unfold crc_size in *. cbn [cyclic]. split; [lia|].
  intros i Hi. pose proof (t_loop_nth buf (cyclic c) _ i Hp ltac:(lia)) as T. rewrite E in T. cbn [fst] in T. rewrite T, (Hc i Hi), col_app, Hs.
  unfold wf, crc_size in Hw. rewrite N2Nat.inj_mod, !Nat2N.id, col_mod by lia. reflexivity.
Qed.
Lemma crc_hole : forall w content n c, crc_so_far w content c -> crc_so_far w (content ++ repeat 0%N n) c.
Proof.
  intros w content n [c|] H; [|exact H]. destruct H as (Hw & Hs & Hc). split; [exact Hw|]. split; [exact Hs|]. intros i Hi. rewrite col_app, col_zeros, N.lxor_0_r. apply Hc. exact Hi.
Qed.
(** the target: [content] has been produced, a hole may be pending at the end *)
Definition target (last : bool) (t : gfile) (content : list N) : Prop :=
  fpos t = length content /\ (if last then exists k, 0 < k /\ content = fdata t ++ repeat 0%N k else fdata t = content).
Lemma target_write : forall last t content d, target last t content -> d <> [] -> target false (g_write d t) (content ++ d).
Proof.
  intros last t content d (Hp & Hl) Hd. unfold target, g_write. destruct d as [|x d]; [tauto|]. cbn [fpos fdata]. rewrite app_length. split; [lia|]. unfold overwrite.
  assert (L : length (fdata t) <= length content) by (destruct last; [destruct Hl as (k & _ & ->); rewrite app_length; lia|rewrite Hl; lia]).
  rewrite firstn_all2 by lia. rewrite (skipn_all2 (n := fpos t + length (x :: d))) by lia. rewrite app_nil_r, app_assoc. f_equal. rewrite Hp.
  destruct last; [destruct Hl as (k & _ & ->)|rewrite Hl, Nat.sub_diag, app_nil_r; reflexivity]. rewrite app_length, repeat_length. do 2 f_equal. lia.
Qed.
Lemma target_hole : forall last t content n, target last t content -> 0 < n -> target true (g_skip (length content + n) t) (content ++ repeat 0%N n).
Proof.
  intros last t content n (Hp & Hl) Hn. unfold target, g_skip. cbn [fpos fdata]. rewrite app_length, repeat_length. split; [lia|].
  destruct last; [destruct Hl as (k & Hk & ->)|rewrite Hl; exists n; auto]. exists (k + n). split; [lia|]. rewrite repeat_app, app_assoc. reflexivity.
Qed.
Lemma target_end : forall last t content, target last t content ->
  let t' := if last then g_write [0%N] (snd (g_skip_relative (-1) t)) else t in fdata t' = content /\ fpos t' = length content.
Proof.
  intros last t content (Hp & Hl). destruct last; cbv zeta; [|auto]. destruct Hl as (k & Hk & ->). rewrite app_length, repeat_length in *. unfold g_skip_relative. replace (Z.of_nat (fpos t) + -1 <? 0)%Z with false by lia.
  cbn [snd g_write fdata fpos]. replace (Z.to_nat (Z.of_nat (fpos t) + -1)) with (length (fdata t) + (k - 1)) by lia. cbn [length]. split; [|lia]. unfold overwrite. rewrite firstn_all2 by lia.
  rewrite skipn_all2 by (cbn; lia). rewrite app_nil_r. f_equal. replace (length (fdata t) + (k - 1) - length (fdata t)) with (k - 1) by lia.
  change [0%N] with (repeat 0%N 1). rewrite <- repeat_app. f_equal. lia.
Qed.
Lemma copy_loop_spec : forall fuel bs addr last r t c its d content w, 0 < bs -> rinv S0 (rs_esc r) -> abs S0 (rs_esc r) = its -> denotes 0 its d -> tail_safe its -> length its < fuel ->
  rs_offset r = N.of_nat (length content) -> target last t content -> crc_so_far w content c ->
  exists r' t' c', copy_loop fuel bs false addr last r t c = Ok (r', t', c') /\ fdata t' = content ++ d /\ fpos t' = length (content ++ d) /\ crc_so_far w (content ++ d) c'.
Proof.
  induction fuel as [|k IH]; intros bs addr last r t c its d content w Hb Hi A Hd Ht Hf Ho Hg Hc; [lia|]. cbn [copy_loop].
  destruct (read_any bs (rs_esc r) its d Hi A Hd Ht) as (ds & e & its' & d' & -> & I' & A' & Ei & Hd' & Ed & L' & S'). cbn [bind]. destruct ds as [|x ds].
  - cbn in Ei, Ed, S'. rewrite <- Ed, <- Ei in *. clear Ei Ed its' d'. destruct (S' Hb) as [->|[wk ->]].
    + destruct (meet_end _ I' A') as (e2 & -> & I2 & A2). cbn [bind]. inversion Hd; subst d. rewrite app_nil_r. destruct (target_end last t content Hg) as [T1 T2]. do 3 eexists. split; [reflexivity|]. auto.
    + destruct (meet_hole _ wk d I' A' Hd' Ht) as (n & its2 & d2 & e1 & e2 & e3 & -> & Hn & -> & Hd2 & Ht2 & -> & E2 & E3 & I3 & A3). cbn [bind]. rewrite E2. cbn [bind]. rewrite E3. cbn [bind].
      assert (Lz : length (content ++ repeat 0%N (N.to_nat n)) = length content + N.to_nat n) by (rewrite app_length, repeat_length; reflexivity).
      match goal with |- context [copy_loop k bs false addr true ?rr ?tt c] =>
        destruct (IH bs addr true rr tt c its2 d2 (content ++ repeat 0%N (N.to_nat n)) w Hb) as (r' & t' & c' & E & F1 & F2 & F3) end.
      * exact I3.
      * exact A3.
      * exact Hd2.
      * exact Ht2.
      * cbn [length] in Hf. rewrite app_length in Hf. lia.
      * cbn [rs_offset]. lia.
      * replace (N.to_nat (rs_offset r + n)) with (length content + N.to_nat n) by lia. apply target_hole with last; [exact Hg|lia].
      * apply crc_hole. exact Hc.
      * rewrite E. exists r', t', c'. rewrite <- app_assoc in F1, F2, F3. auto.
  - rewrite Ho. destruct (crc_step w content addr (x :: ds) c Hc) as (c2 & Ec & Hc2). rewrite Ec. cbn [bind].
    match goal with |- context [copy_loop k bs false addr false ?rr ?tt c2] =>
        destruct (IH bs addr false rr tt c2 its' d' (content ++ x :: ds) w Hb) as (r' & t' & c' & E & F1 & F2 & F3) end.
    + exact I'.
    + exact A'.
    + exact Hd'.
    + apply (tail_safe_app (map D (x :: ds))). rewrite <- Ei. exact Ht.
    + rewrite Ei, app_length, map_length in Hf. cbn [length] in Hf. lia.
    + cbn [rs_offset]. rewrite app_length. lia.
    + apply target_write with last; [exact Hg|discriminate].
    + exact Hc2.
    + rewrite E. exists r', t', c'. rewrite Ed. rewrite <- app_assoc in F1, F2, F3. auto.
Qed.
(** in no_skip mode the content is right *)
Lemma copy_loop_noskip : forall fuel bs addr last r t its d content, 0 < bs -> rinv S0 (rs_esc r) -> abs S0 (rs_esc r) = its -> denotes 0 its d -> tail_safe its -> length its < fuel ->
  last = false -> target false t content ->
  exists r' t', copy_loop fuel bs true addr last r t None = Ok (r', t', None) /\ fdata t' = content ++ d /\ fpos t' = length (content ++ d).
Proof.
  induction fuel as [|k IH]; intros bs addr last r t its d content Hb Hi A Hd Ht Hf Hl Hg; [lia|]. cbn [copy_loop].
  destruct (read_any bs (rs_esc r) its d Hi A Hd Ht) as (ds & e & its' & d' & -> & I' & A' & Ei & Hd' & Ed & L' & S'). cbn [bind]. destruct ds as [|x ds].
  - cbn in Ei, Ed, S'. rewrite <- Ed, <- Ei in *. clear Ei Ed its' d'. destruct (S' Hb) as [->|[wk ->]].
    + destruct (meet_end _ I' A') as (e2 & -> & I2 & A2). cbn [bind]. inversion Hd; subst d. rewrite app_nil_r. subst last. destruct (target_end false t content Hg) as [T1 T2]. do 2 eexists. split; [reflexivity|]. auto.
    + destruct (meet_hole _ wk d I' A' Hd' Ht) as (n & its2 & d2 & e1 & e2 & e3 & -> & Hn & -> & Hd2 & Ht2 & -> & E2 & E3 & I3 & A3). cbn [bind]. rewrite E2. cbn [bind]. rewrite E3. cbn [bind].
      match goal with |- context [copy_loop k bs true addr last ?rr ?tt None] =>
        destruct (IH bs addr last rr tt its2 d2 (content ++ repeat 0%N (N.to_nat n)) Hb) as (r' & t' & E & F1 & F2) end; auto.
      * cbn [length] in Hf. rewrite app_length in Hf. lia.
      * apply target_write with false; [exact Hg|]. destruct (N.to_nat n) eqn:Q; [lia|discriminate].
      * rewrite E. exists r', t'. rewrite <- app_assoc in F1, F2. auto.
  - cbn [bind]. match goal with |- context [copy_loop k bs true addr false ?rr ?tt None] =>
        destruct (IH bs addr false rr tt its' d' (content ++ x :: ds) Hb) as (r' & t' & E & F1 & F2) end; auto.
    + apply (tail_safe_app (map D (x :: ds))). rewrite <- Ei. exact Ht.
    + rewrite Ei, app_length, map_length in Hf. cbn [length] in Hf. lia.
    + apply target_write with false; [exact Hg|discriminate].
    + rewrite E. exists r', t'. rewrite Ed. rewrite <- app_assoc in F1, F2. auto.
Qed.
