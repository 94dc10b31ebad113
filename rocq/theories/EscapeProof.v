(** * Proofs about the escape layer: sequence search and the writer. *)
From Verif Require Import Base FileModel EscapeModel.
Open Scope nat_scope.

(** comparison of a pattern with the start of a list *)
Inductive cmpr := Full | Partial | Mismatch.
Fixpoint cmp (p l : list N) : cmpr :=
  match p, l with
  | [], _ => Full
  | _, [] => Partial
  | x :: p', y :: l' => if (x =? y)%N then cmp p' l' else Mismatch
  end.
Definition cmp5 (s0 : N) (l : list N) := cmp (fixed s0) l.

(** first offset where the sequence, or a start of it ending the list, is found *)
Fixpoint find (s0 : N) (l : list N) : nat :=
  match l with
  | [] => 0
  | b :: r => match cmp5 s0 l with Mismatch => S (find s0 r) | _ => 0 end
  end.

Definition s0_ok (s0 : N) : Prop := (s0 <> 253 /\ s0 <> 234 /\ s0 <> 119 /\ s0 <> 33)%N.

Lemma cmp_full : forall p l, cmp p l = Full <-> exists r, l = p ++ r.
Proof.
  induction p as [|x p IH]; intro l; cbn [cmp].
  - split; [exists l; reflexivity|reflexivity].
  - destruct l as [|y l]; [split; [discriminate|intros (r & E); discriminate]|].
    destruct (N.eqb_spec x y) as [->|Hn].
    + rewrite IH. split; intros (r & E); exists r; [cbn; congruence|cbn in E; congruence].
    + split; [discriminate|]. intros (r & E). cbn in E. congruence.
Qed.
Lemma cmp_partial : forall p l, cmp p l = Partial <-> exists r, p = l ++ r /\ r <> [].
Proof.
  induction p as [|x p IH]; intro l; cbn [cmp].
  - split; [discriminate|]. intros (r & E & Hr). symmetry in E. apply app_eq_nil in E. tauto.
  - destruct l as [|y l]; [split; [intros _; exists (x :: p); split; auto; discriminate|auto]|].
    destruct (N.eqb_spec x y) as [->|Hn].
    + rewrite IH. split; intros (r & E & Hr); exists r; (split; [|auto]); [cbn; congruence|cbn in E; congruence].
    + split; [discriminate|]. intros (r & E & _). cbn in E. congruence.
Qed.
Lemma cmp_mismatch_app : forall p l m, cmp p l = Mismatch -> cmp p (l ++ m) = Mismatch.
Proof.
  induction p as [|x p IH]; intros l m H; cbn [cmp] in *; [discriminate|].
  destruct l as [|y l]; [discriminate|]. cbn [app]. destruct (x =? y)%N; auto.
Qed.
Lemma cmp_full_app : forall p l m, cmp p l = Full -> cmp p (l ++ m) = Full.
Proof. intros p l m H. apply cmp_full in H. destruct H as (r & ->). apply cmp_full. exists (r ++ m). rewrite app_assoc. reflexivity. Qed.
Lemma cmp_prefix : forall p1 p2 l, cmp (p1 ++ p2) (p1 ++ l) = cmp p2 l.
Proof. induction p1 as [|x p IH]; intros; cbn; auto. rewrite N.eqb_refl. apply IH. Qed.

(** the C loop computes [find] *)
Lemma amorce_loop_spec : forall fuel s0 a ret curs amorce,
  curs <= length a -> amorce <= 5 -> amorce <= curs ->
  (0 < amorce -> ret = curs - amorce) ->
  firstn amorce (skipn (curs - amorce) a) = firstn amorce (fixed s0) ->
  6 * (length a - (curs - amorce)) + 5 - amorce < fuel ->
  exists ret' curs' amorce', amorce_loop fuel s0 a ret curs amorce = Ok (ret', curs', amorce') /\
    (if length a <=? curs' then (if amorce' =? 0 then length a else ret') else ret') =
      curs - amorce + find s0 (skipn (curs - amorce) a).
Proof.
  induction fuel as [|k IH]; intros s0 a ret curs amorce Hc Ha Hac Hr Hm Hf; [lia|].
  cbn [amorce_loop].
  destruct (Nat.ltb_spec curs (length a)) as [L|L]; cbn [andb].
  2:{ (* reached the end of the field *)
    exists ret, curs, amorce. split; [reflexivity|].
    destruct (Nat.leb_spec (length a) curs); [|lia].
    destruct (Nat.eqb_spec amorce 0) as [->|Z].
    - rewrite skipn_all2 by lia. cbn [find]. lia.
    - assert (ret = curs - amorce) as -> by (apply Hr; lia).
      destruct (skipn (curs - amorce) a) as [|b r] eqn:E.
      + assert (length (skipn (curs - amorce) a) = 0) by (rewrite E; reflexivity). rewrite skipn_length in *. lia.
      + cbn [find]. assert (Hl : length (b :: r) = amorce) by (rewrite <- E, skipn_length; lia).
        rewrite firstn_all2 in Hm by lia.
        assert (C : cmp5 s0 (b :: r) <> Mismatch).
        { unfold cmp5. intro Q. destruct (Nat.eq_dec amorce 5) as [->|].
          - assert (cmp (fixed s0) (b :: r) = Full); [|congruence]. apply cmp_full. exists []. rewrite app_nil_r.
            rewrite Hm. reflexivity.
          - assert (cmp (fixed s0) (b :: r) = Partial); [|congruence]. apply cmp_partial. exists (skipn amorce (fixed s0)).
            rewrite Hm, firstn_skipn. split; auto. intro E2. apply (f_equal (@length N)) in E2. rewrite skipn_length in E2. change (length (fixed s0)) with 5 in E2. cbn [length] in Hl, E2. lia. }
        destruct (cmp5 s0 (b :: r)); try lia; congruence. }
  destruct (Nat.ltb_spec amorce 5) as [L5|L5].
  2:{ exists ret, curs, amorce. split; [reflexivity|]. destruct (Nat.leb_spec (length a) curs); [lia|].
      assert (amorce = 5) by lia. subst amorce. assert (ret = curs - 5) as -> by (apply Hr; lia).
      destruct (skipn (curs - 5) a) as [|b r] eqn:E.
      - assert (length (skipn (curs - 5) a) = 0) by (rewrite E; reflexivity). rewrite skipn_length in *. lia.
      - cbn [find]. assert (C : cmp5 s0 (b :: r) = Full).
        { apply cmp_full. exists (skipn 5 (b :: r)). rewrite <- (firstn_skipn 5 (b :: r)) at 1. rewrite Hm. reflexivity. }
        rewrite C. lia. }
  destruct (nth_error a curs) as [c|] eqn:Ec; [|apply nth_error_None in Ec; lia].
  pose proof (nth_error_nth _ _ 0%N Ec) as Nc.
  destruct (nth_error (fixed s0) amorce) as [f|] eqn:Ef; [|apply nth_error_None in Ef; cbn in Ef; lia].
  pose proof (nth_error_nth _ _ 0%N Ef) as Nf. rewrite Nc, Nf.
  (* splitting the compared area *)
  assert (Sp : skipn (curs - amorce) a = firstn amorce (fixed s0) ++ c :: skipn (S curs) a).
  { rewrite <- (firstn_skipn amorce (skipn (curs - amorce) a)). rewrite Hm, skipn_skipn.
    replace (amorce + (curs - amorce)) with curs by lia. rewrite (skipn_nth_error _ _ _ _ Ec). reflexivity. }
  assert (Fp : fixed s0 = firstn amorce (fixed s0) ++ f :: skipn (S amorce) (fixed s0)).
  { rewrite <- (firstn_skipn amorce (fixed s0)) at 1. rewrite (skipn_nth_error _ _ _ _ Ef). reflexivity. }
  destruct (N.eqb_spec c f) as [->|Hcf].
  - destruct (IH s0 a (if amorce =? 0 then curs else ret) (curs + 1) (amorce + 1)) as (r' & c' & a' & E & V); try lia.
    + intros _. destruct (Nat.eqb_spec amorce 0); [lia|]. rewrite Hr by lia. lia.
    + replace (curs + 1 - (amorce + 1)) with (curs - amorce) by lia. rewrite Sp.
      rewrite firstn_app, firstn_length. replace (length (fixed s0)) with 5 by reflexivity.
      rewrite (firstn_all2 (firstn amorce (fixed s0))) by (rewrite firstn_length; lia).
      replace (amorce + 1 - Nat.min amorce 5) with 1 by lia. cbn [firstn].
      rewrite Fp at 2. rewrite firstn_app, firstn_length. replace (length (fixed s0)) with 5 by reflexivity.
      rewrite (firstn_all2 (firstn amorce (fixed s0))) by (rewrite firstn_length; lia).
      replace (amorce + 1 - Nat.min amorce 5) with 1 by lia. reflexivity.
    + exists r', c', a'. split; [exact E|]. rewrite V. replace (curs + 1 - (amorce + 1)) with (curs - amorce) by lia. reflexivity.
  - (* mismatch: nothing starts at curs - amorce *)
    assert (Mm : cmp5 s0 (skipn (curs - amorce) a) = Mismatch).
    { unfold cmp5. rewrite Sp. rewrite Fp at 1. rewrite cmp_prefix. cbn [cmp]. destruct (N.eqb_spec f c); [congruence|reflexivity]. }
    assert (Fn : find s0 (skipn (curs - amorce) a) = S (find s0 (skipn (curs - amorce + 1) a))).
    { destruct (skipn (curs - amorce) a) as [|b r] eqn:E; [discriminate|]. cbn [find]. rewrite Mm. do 2 f_equal.
      rewrite Nat.add_1_r. assert (Q : skipn 1 (skipn (curs - amorce) a) = r) by (rewrite E; reflexivity).
      rewrite skipn_skipn in Q. rewrite <- Q. f_equal. }
    destruct (Nat.ltb_spec 0 amorce) as [L0|L0].
    + destruct (IH s0 a ret (curs - amorce + 1) 0) as (r' & c' & a' & E & V); try lia.
      { reflexivity. }
      exists r', c', a'. split; [exact E|]. rewrite V, Fn, Nat.sub_0_r. lia.
    + assert (amorce = 0) by lia. subst amorce. rewrite Nat.sub_0_r in *.
      destruct (IH s0 a ret (curs + 1) 0) as (r' & c' & a' & E & V); try lia.
      { reflexivity. }
      exists r', c', a'. split; [exact E|]. rewrite V, Fn, Nat.sub_0_r. lia.
Qed.

Lemma trouve_amorce_spec : forall s0 a, trouve_amorce s0 a = Ok (find s0 a).
Proof.
  intros s0 a. unfold trouve_amorce.
  destruct (amorce_loop_spec (6 * S (length a)) s0 a 0 0 0) as (r & c & m & E & V); try lia; auto.
  rewrite E. cbn [bind]. cbn [Nat.sub Nat.add skipn] in V.
  destruct (length a <=? c); [destruct (m =? 0)|]; congruence.
Qed.

Lemma find_le : forall s0 a, find s0 a <= length a.
Proof. intros s0 a. induction a as [|b r IH]; cbn [find length]; [lia|]. destruct (cmp5 s0 (b :: r)); lia. Qed.
Lemma find_before : forall s0 a j, j < find s0 a -> cmp5 s0 (skipn j a) = Mismatch.
Proof.
  intros s0 a. induction a as [|b r IH]; intros j H; cbn [find] in H; [lia|].
  destruct (cmp5 s0 (b :: r)) eqn:C; try lia. destruct j as [|j]; [exact C|]. cbn [skipn]. apply IH. lia.
Qed.
Lemma find_at : forall s0 a, find s0 a < length a -> cmp5 s0 (skipn (find s0 a) a) <> Mismatch.
Proof.
  intros s0 a. induction a as [|b r IH]; intro H; cbn [find length] in *; [lia|].
  destruct (cmp5 s0 (b :: r)) eqn:C; cbn [skipn]; try congruence. apply IH. lia.
Qed.

Lemma amorce_cases : forall s0 l, l <> [] -> cmp5 s0 l <> Mismatch ->
  (exists r, l = fixed s0 ++ r) \/ (length l < 5 /\ exists r, fixed s0 = l ++ r).
Proof.
  intros s0 l Hl C. destruct (cmp5 s0 l) eqn:E; [| |congruence].
  - left. apply cmp_full in E. exact E.
  - right. apply cmp_partial in E. destruct E as (r & E & Hr). split; [|eauto].
    apply (f_equal (@length N)) in E. rewrite app_length in E. cbn in E. destruct r; [congruence|cbn in E; lia].
Qed.

(** ** escaping of data *)
Definition X : N := 88.
Fixpoint enc_f (fuel : nat) (s0 : N) (l : list N) : list N :=
  match fuel with
  | O => []
  | S k =>
    match l with
    | [] => []
    | b :: r => match cmp5 s0 l with Full => fixed s0 ++ [X] ++ enc_f k s0 (skipn 5 l) | _ => b :: enc_f k s0 r end
    end
  end.
Definition enc (s0 : N) (l : list N) : list N := enc_f (length l) s0 l.

Lemma enc_fuel : forall f1 f2 s0 l, length l <= f1 -> length l <= f2 -> enc_f f1 s0 l = enc_f f2 s0 l.
Proof.
  induction f1 as [|f1 IH]; intros [|f2] s0 [|b r] H1 H2; cbn [length] in *; try lia; auto.
  cbn [enc_f]. assert (length (skipn 5 (b :: r)) <= f1 /\ length (skipn 5 (b :: r)) <= f2) as [Q1 Q2] by (rewrite skipn_length; cbn [length]; lia).
  rewrite (IH f2 s0 (skipn 5 (b :: r))), (IH f2 s0 r) by (auto; lia). reflexivity.
Qed.
Lemma enc_nil : forall s0, enc s0 [] = [].
Proof. reflexivity. Qed.
Lemma enc_full : forall s0 l, enc s0 (fixed s0 ++ l) = fixed s0 ++ [X] ++ enc s0 l.
Proof.
  intros s0 l. unfold enc at 1. destruct (length (fixed s0 ++ l)) as [|n] eqn:E; [discriminate|].
  cbn [enc_f]. destruct (fixed s0 ++ l) as [|b r] eqn:E1; [discriminate|]. rewrite <- E1.
  assert (cmp5 s0 (fixed s0 ++ l) = Full) as -> by (apply cmp_full; eauto).
  change (skipn 5 (fixed s0 ++ l)) with l. do 2 f_equal. apply enc_fuel; [|lia].
  rewrite <- E1, app_length in E. cbn [fixed length] in E. lia.
Qed.
Lemma enc_cons : forall s0 b r, cmp5 s0 (b :: r) <> Full -> enc s0 (b :: r) = b :: enc s0 r.
Proof. intros s0 b r H. unfold enc. cbn [length enc_f]. destruct (cmp5 s0 (b :: r)); congruence. Qed.

(** data before a possible start of sequence goes unchanged *)
Lemma enc_find : forall s0 a v, enc s0 (a ++ v) = firstn (find s0 a) a ++ enc s0 (skipn (find s0 a) a ++ v).
Proof.
  intros s0 a v. induction a as [|b r IH]; cbn [find]; [reflexivity|].
  destruct (cmp5 s0 (b :: r)) eqn:C; cbn [firstn skipn app]; auto.
  rewrite enc_cons.
  - rewrite IH. reflexivity.
  - change (b :: r ++ v) with ((b :: r) ++ v). unfold cmp5. rewrite cmp_mismatch_app by exact C. discriminate.
Qed.
Lemma enc_short : forall s0 l, length l < 5 -> enc s0 l = l.
Proof.
  intros s0 l. induction l as [|b r IH]; intro H; [reflexivity|]. rewrite enc_cons.
  - rewrite IH; [reflexivity|cbn in H; lia].
  - intro C. apply cmp_full in C. destruct C as (q & E). rewrite E, app_length in H. cbn in H. lia.
Qed.

(** ** the writer *)
(** below is only appended to *)
Definition at_eof (f : gfile) : Prop := fpos f = length (fdata f).
Lemma g_write_eof : forall f w, at_eof f -> fdata (g_write w f) = fdata f ++ w /\ at_eof (g_write w f).
Proof.
  intros f w H. unfold g_write, at_eof in *. destruct w as [|x w].
  - rewrite app_nil_r. auto.
  - cbn [fdata fpos]. unfold overwrite. rewrite H, firstn_all, Nat.sub_diag. cbn [repeat app].
    rewrite skipn_all2 by lia. rewrite app_nil_r, !app_length. auto.
Qed.

(** [out]: bytes produced since the start of the current run; [data]: bytes received since then *)
Definition wstate (s0 : N) (base data : list N) (w : wesc) : Prop :=
  at_eof (w_below w) /\ length (w_buf w) < 5 /\
  exists out, fdata (w_below w) = base ++ out /\ forall v, enc s0 (data ++ v) = out ++ enc s0 (w_buf w ++ v).

Lemma write_loop_spec : forall fuel s0 a w base out total, length a < fuel -> w_buf w = [] -> at_eof (w_below w) ->
  fdata (w_below w) = base ++ out -> (forall v, enc s0 (total ++ v) = out ++ enc s0 (a ++ v)) ->
  exists w', write_loop fuel s0 a w = Ok w' /\ wstate s0 base total w'.
Proof.
  induction fuel as [|k IH]; intros s0 a w base out total Hf Hb He Ho Hv; [lia|].
  cbn [write_loop]. destruct (Nat.eqb_spec (length a) 0) as [Z|Z].
  - destruct a; [|cbn in Z; lia]. exists w. split; auto. split; auto. rewrite Hb. split; [cbn; lia|]. exists out. auto.
  - rewrite trouve_amorce_spec. cbn [bind]. pose proof (find_le s0 a) as Fl.
    destruct (Nat.eqb_spec (find s0 a) (length a)) as [Q|Q].
    + exists (put a w). split; auto. unfold put. destruct (g_write_eof (w_below w) a He) as [D E].
      split; [exact E|]. cbn [w_buf w_below]. rewrite Hb. split; [cbn; lia|]. rewrite D, Ho.
      exists (out ++ a). split; [apply app_assoc_reverse|]. intro v. rewrite Hv, enc_find, Q, firstn_all, skipn_all.
      cbn [app]. apply app_assoc.
    + set (i := find s0 a) in *.
      assert (Hi : i < length a) by lia.
      set (w1 := if 0 <? i then put (firstn i a) w else w).
      assert (W1 : fdata (w_below w1) = base ++ out ++ firstn i a /\ at_eof (w_below w1) /\ w_buf w1 = []).
      { unfold w1. destruct (Nat.ltb_spec 0 i).
        - unfold put. cbn [w_below w_buf]. destruct (g_write_eof (w_below w) (firstn i a) He) as [D E].
          rewrite D, Ho, <- app_assoc. auto.
        - assert (i = 0) as -> by lia. cbn [firstn]. rewrite app_nil_r. auto. }
      destruct W1 as (D1 & E1 & B1).
      destruct (Nat.leb_spec (i + 5) (length a)) as [F|F].
      * assert (Sk : exists r, skipn i a = fixed s0 ++ r).
        { destruct (amorce_cases s0 (skipn i a)) as [S|[S _]]; auto.
          - intro Q2. apply (f_equal (@length N)) in Q2. rewrite skipn_length in Q2. cbn in Q2. lia.
          - apply find_at. exact Hi.
          - rewrite skipn_length in S. lia. }
        destruct Sk as (r & Sk).
        assert (Sk5 : skipn (i + 5) a = r).
        { rewrite Nat.add_comm, <- skipn_skipn, Sk. reflexivity. }
        unfold put. cbn [w_buf w_below w_cnt].
        destruct (g_write_eof (w_below w1) (fixed s0 ++ [type2char seqt_not_a_sequence]) E1) as [D2 E2].
        apply (IH s0 (skipn (i + 5) a) _ base (out ++ firstn i a ++ fixed s0 ++ [X]) total).
        { rewrite skipn_length. lia. }
        { exact B1. }
        { exact E2. }
        { cbn [w_below]. rewrite D2, D1, <- !app_assoc. reflexivity. }
        { intro v. rewrite Hv, enc_find. fold i. rewrite Sk, <- app_assoc, enc_full, Sk5, <- !app_assoc. reflexivity. }
      * rewrite skipn_length. destruct (Nat.leb_spec 5 (length a - i)); [lia|].
        eexists. split; [reflexivity|]. split; [exact E1|]. cbn [w_buf w_below]. rewrite skipn_length. split; [lia|].
        rewrite D1. exists (out ++ firstn i a). split; [reflexivity|]. intro v. rewrite Hv, enc_find, <- app_assoc. reflexivity.
Qed.

Lemma skipn_all_nil : forall (A : Type) n (l : list A), length l <= n -> skipn n l = [].
Proof. intros. apply skipn_all2. auto. Qed.

Lemma esc_write_spec : forall s0 a w base data, wstate s0 base data w ->
  exists w', esc_write s0 a w = Ok w' /\ wstate s0 base (data ++ a) w'.
Proof.
  intros s0 a w base data (He & Hl & out & Ho & Hv). unfold esc_write.
  destruct (Nat.eqb_spec (length a) 0) as [Z|Z].
  { destruct a; [|cbn in Z; lia]. exists w. rewrite app_nil_r. split; auto. split; auto. split; auto. eauto. }
  assert (Hv' : forall v, enc s0 ((data ++ a) ++ v) = out ++ enc s0 ((w_buf w ++ a) ++ v)).
  { intro v. rewrite <- !app_assoc. apply Hv. }
  destruct (Nat.ltb_spec 0 (length (w_buf w))) as [L|L].
  2:{ cbn [bind]. assert (Hb : w_buf w = []) by (destruct (w_buf w); [auto|cbn in L; lia]). rewrite Hb. cbn [length].
      change (0 <? 0) with false. rewrite andb_false_r. cbn [skipn].
      apply (write_loop_spec _ s0 a w base out); auto. intro v. rewrite Hv', Hb. reflexivity. }
  destruct (Nat.leb_spec 5 (length (w_buf w))); [lia|].
  set (ini := length (w_buf w)) in *. set (delta := Nat.min (WRITE_BUF - ini) (length a)) in *.
  set (buf := w_buf w ++ firstn delta a) in *.
  assert (Lb : length buf = ini + delta) by (unfold buf; rewrite app_length, firstn_length; unfold delta; lia).
  unfold WRITE_BUF in *.
  rewrite trouve_amorce_spec. cbn [bind]. pose proof (find_le s0 buf) as Fl.
  set (i := find s0 buf) in *.
  (* the pending data and the new data, split after the buffer *)
  assert (Sp : w_buf w ++ a = buf ++ skipn delta a).
  { unfold buf. rewrite <- app_assoc, firstn_skipn. reflexivity. }
  assert (Hv2 : forall v, enc s0 ((data ++ a) ++ v) = out ++ firstn i buf ++ enc s0 (skipn i buf ++ skipn delta a ++ v)).
  { intro v. rewrite Hv', Sp, <- app_assoc, enc_find. reflexivity. }
  (* the not yet written part in terms of [a] *)
  assert (Tail : forall j, ini <= j -> skipn (j - ini) a = skipn j (w_buf w ++ a)).
  { intros j Hj. rewrite skipn_app. rewrite (skipn_all_nil _ j (w_buf w)) by (fold ini; lia). reflexivity. }
  destruct (Nat.eqb_spec i (length buf)) as [Q|Q].
  - cbn [bind w_buf length]. change (0 <? 0) with false. rewrite andb_false_r.
    destruct (g_write_eof (w_below w) buf He) as [D E].
    apply (write_loop_spec _ s0 _ _ base (out ++ buf)); cbn [w_buf w_below]; auto.
    + rewrite skipn_length. lia.
    + rewrite D, Ho, <- app_assoc. reflexivity.
    + intro v. rewrite Hv2, Q, firstn_all, skipn_all. cbn [app]. apply app_assoc.
  - assert (Hi : i < length buf) by lia.
    destruct (Nat.leb_spec (i + 5) (length buf)) as [F|F].
    + cbn [bind w_buf length]. change (0 <? 0) with false. rewrite andb_false_r.
      assert (Sk : exists r, skipn i buf = fixed s0 ++ r).
      { destruct (amorce_cases s0 (skipn i buf)) as [S|[S _]]; auto.
        - intro Q2. apply (f_equal (@length N)) in Q2. rewrite skipn_length in Q2. cbn in Q2. lia.
        - apply find_at. exact Hi.
        - rewrite skipn_length in S. lia. }
      destruct Sk as (r & Sk).
      destruct (g_write_eof (w_below w) (firstn i buf) He) as [D1 E1].
      destruct (g_write_eof (g_write (firstn i buf) (w_below w)) (fixed s0 ++ [type2char seqt_not_a_sequence]) E1) as [D2 E2].
      apply (write_loop_spec _ s0 _ _ base (out ++ firstn i buf ++ fixed s0 ++ [X])); cbn [w_buf w_below]; auto.
      * rewrite skipn_length. lia.
      * rewrite D2, D1, Ho, <- !app_assoc. reflexivity.
      * intro v. rewrite Hv2, Sk, <- app_assoc, enc_full, <- !app_assoc. do 5 f_equal.
        rewrite Tail by lia. rewrite Sp, skipn_app.
        replace (i + 5 - length buf) with 0 by lia. cbn [skipn].
        rewrite Nat.add_comm, <- skipn_skipn, Sk. cbn [fixed skipn app]. rewrite <- app_assoc. reflexivity.
    + destruct (Nat.ltb_spec (length buf) 12) as [B|B]; cbn [andb].
      * assert (Hd : delta = length a) by (unfold delta in *; lia).
        replace (length a - delta) with 0 by lia. change (0 <? 0) with false. cbn iota.
        destruct (Nat.leb_spec (i + 5 - length buf) 0); [lia|].
        rewrite skipn_length. destruct (Nat.leb_spec 5 (length buf - i)); [lia|].
        destruct (Nat.ltb_spec 12 (length buf - i + 0)); [lia|]. cbn [bind w_buf].
        rewrite Nat.eqb_refl. cbn [negb andb]. rewrite skipn_all. 
        destruct (g_write_eof (w_below w) (firstn i buf) He) as [D1 E1].
        eexists. split; [reflexivity|]. split; [exact E1|]. cbn [w_buf w_below].
        rewrite (skipn_all_nil _ delta a) by lia. rewrite app_nil_r, skipn_length. split; [lia|].
        rewrite D1, Ho. exists (out ++ firstn i buf). split; [rewrite <- app_assoc; reflexivity|].
        intro v. rewrite Hv2, (skipn_all_nil _ delta a) by lia. cbn [app]. apply app_assoc.
      * assert (Lb12 : length buf = 12) by (unfold delta in *; lia).
        cbn iota. destruct (g_write_eof (w_below w) (firstn i buf) He) as [D1 E1].
        destruct (Nat.leb_spec (i + 5 - length buf) (length a - delta)) as [M|M].
        -- destruct (Nat.ltb_spec i ini); [lia|]. cbn [bind w_buf length]. change (0 <? 0) with false. rewrite andb_false_r.
           apply (write_loop_spec _ s0 _ _ base (out ++ firstn i buf)); cbn [w_buf w_below]; auto.
           ++ rewrite skipn_length. lia.
           ++ rewrite D1, Ho, <- app_assoc. reflexivity.
           ++ intro v. rewrite Hv2, <- app_assoc. do 3 f_equal. rewrite Tail by lia. rewrite Sp, skipn_app.
              replace (i - length buf) with 0 by lia. cbn [skipn]. rewrite <- app_assoc. reflexivity.
        -- rewrite skipn_length. destruct (Nat.leb_spec 5 (length buf - i)); [lia|].
           destruct (Nat.ltb_spec 12 (length buf - i + (length a - delta))); [lia|]. cbn [bind w_buf].
           rewrite Nat.eqb_refl. cbn [negb andb]. rewrite skipn_all.
           eexists. split; [reflexivity|]. split; [exact E1|]. cbn [w_buf w_below].
           rewrite app_length, !skipn_length. split; [lia|].
           rewrite D1, Ho. exists (out ++ firstn i buf). split; [rewrite <- app_assoc; reflexivity|].
           intro v. rewrite Hv2, <- !app_assoc. reflexivity.
Qed.
