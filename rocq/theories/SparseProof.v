(** * Proofs about the sparse file layer: writing. *)
From Verif Require Import Base NumModel FileModel InfinintModel InfinintProof2 EscapeModel EscapeSpec EscapeProof2 SparseModel.
Open Scope nat_scope.

(** ** Specification of the structure: data bytes stand for themselves, a hole of [n] bytes is the mark and the number [n] *)
Inductive denotes (min : N) : list item -> list N -> Prop :=
| den_nil : denotes min [] []
| den_data : forall b its d, denotes min its d -> denotes min (D b :: its) (b :: d)
| den_hole : forall n its d, (min < n)%N -> denotes min its d -> denotes min (M seqt_file :: map D (dumpN n) ++ its) (repeat 0%N (N.to_nat n) ++ d).

Lemma denotes_app : forall m i1 d1 i2 d2, denotes m i1 d1 -> denotes m i2 d2 -> denotes m (i1 ++ i2) (d1 ++ d2).
Proof.
  intros m i1 d1 i2 d2 H1 H2. induction H1 as [|b its d H1 IH|n its d Hn H1 IH]; cbn [app]; [exact H2|constructor; exact IH|].
  rewrite <- !app_assoc. constructor; assumption.
Qed.
Lemma denotes_bytes : forall m d, denotes m (map D d) d.
Proof. intros m d. induction d; cbn; constructor; assumption. Qed.
Lemma denotes_hole : forall m n, (m < n)%N -> denotes m (items_of (hole_ops n)) (repeat 0%N (N.to_nat n)).
Proof. intros m n H. unfold hole_ops. cbn [items_of]. rewrite <- (app_nil_r (repeat 0%N (N.to_nat n))). constructor; [exact H|constructor]. Qed.
Lemma items_app : forall a b, items_of (a ++ b) = items_of a ++ items_of b.
Proof. induction a as [|[x|t|] a IH]; intro b; cbn [items_of app]; rewrite ?IH, ?app_assoc; reflexivity. Qed.

(** ** look_for_hole *)
Lemma lead_le : forall p l, lead p l <= length l.
Proof. intros p l. induction l as [|x l IH]; cbn; [lia|]. destruct (p x); lia. Qed.
Lemma lead_forall : forall p l, Forall (fun x => p x = true) (firstn (lead p l) l).
Proof. intros p l. induction l as [|x l IH]; cbn; [constructor|]. destruct (p x) eqn:E; cbn; [constructor; assumption|constructor]. Qed.
Lemma lead_stop : forall p l, lead p l < length l -> p (nth (lead p l) l 0%N) = false.
Proof. intros p l. induction l as [|x l IH]; cbn; [lia|]. destruct (p x) eqn:E; cbn; [intro; apply IH; lia|auto]. Qed.
Lemma zeros_repeat : forall l, Forall (fun x => is_zero x = true) l -> l = repeat 0%N (length l).
Proof. intros l H. induction H as [|x l Hx H IH]; cbn; [reflexivity|]. unfold is_zero in Hx. apply N.eqb_eq in Hx. subst. f_equal. exact IH. Qed.
Lemma lead_repeat : forall l, firstn (lead is_zero l) l = repeat 0%N (lead is_zero l).
Proof. intro l. rewrite (zeros_repeat _ (lead_forall is_zero l)) at 1. rewrite firstn_length. pose proof (lead_le is_zero l). f_equal. lia. Qed.
Lemma skipn_nth : forall (l : list N) i d, i < length l -> skipn i l = nth i l d :: skipn (S i) l.
Proof. induction l as [|x l IH]; intros [|i] d H; cbn in *; try lia; [reflexivity|]. apply IH; lia. Qed.
Lemma nth_skipn0 : forall (l : list N) i j, nth j (skipn i l) 0%N = nth (i + j) l 0%N.
Proof. induction l as [|x l IH]; intros [|i] j; cbn; try reflexivity; [destruct j; reflexivity|apply IH]. Qed.

(** a run of [len] zeros at [start] *)
Definition run_at (a : list N) (start len : nat) : Prop := start + len <= length a /\ forall i, start <= i < start + len -> nth i a 0%N = 0%N.
Lemma look_spec : forall fuel a min i, length a + 2 <= fuel + i -> i <= length a + 1 ->
  (* what precedes has already been inspected: no long run ends before [i] or crosses it *)
  match look fuel a min i with
  | Ok (Some (s, l)) => s + l <= length a /\ firstn l (skipn s a) = repeat 0%N l /\ (0 < min)%N /\ (min < N.of_nat l)%N /\ i <= s
  | Ok None => (0 < min)%N -> forall s l, i <= s -> run_at a s l -> (N.of_nat l <= min)%N
  | Err _ => False
  end.
Proof.
  induction fuel as [|k IH]; intros a min i Hf Hi0; cbn [look].
  - lia.
  - destruct (Nat.ltb_spec i (length a)) as [L|L].
    2:{ intros Hm s l Hs [H1 _]. lia. }
    set (start := i + lead is_nonzero (skipn i a)).
    pose proof (lead_le is_nonzero (skipn i a)) as L1. rewrite skipn_length in L1.
    assert (Hnz : forall j, i <= j < start -> nth j a 0%N <> 0%N).
    { intros j Hj E. pose proof (lead_forall is_nonzero (skipn i a)) as F. rewrite Forall_forall in F.
      assert (X : In (nth (j - i) (skipn i a) 0%N) (firstn (lead is_nonzero (skipn i a)) (skipn i a))).
      { rewrite <- (firstn_skipn (lead is_nonzero (skipn i a)) (skipn i a)) at 1. rewrite app_nth1; [apply nth_In|]; rewrite firstn_length, skipn_length; subst start; lia. }
      apply F in X. rewrite nth_skipn0 in X. replace (i + (j - i)) with j in X by lia. rewrite E in X. discriminate. }
    set (insp := if start <? length a then start + 1 + lead is_zero (skipn (start + 1) a) else start).
    pose proof (lead_le is_zero (skipn (start + 1) a)) as L2. rewrite skipn_length in L2.
    assert (Hi : start <= insp <= length a) by (subst insp; destruct (Nat.ltb_spec start (length a)); lia).
    assert (Hz : firstn (insp - start) (skipn start a) = repeat 0%N (insp - start)).
    { subst insp. destruct (Nat.ltb_spec start (length a)) as [Sl|Sl]; [|rewrite Nat.sub_diag; reflexivity].
      replace (start + 1 + lead is_zero (skipn (start + 1) a) - start) with (S (lead is_zero (skipn (start + 1) a))) by lia.
      rewrite (skipn_nth a start 0%N) by exact Sl. cbn [firstn repeat]. f_equal.
      - pose proof (lead_stop is_nonzero (skipn i a)) as P. rewrite skipn_length in P. specialize (P ltac:(subst start; lia)). rewrite nth_skipn0 in P. fold start in P. unfold is_nonzero in P.
        apply negb_false_iff, N.eqb_eq in P. exact P.
      - replace (S start) with (start + 1) by lia. apply lead_repeat. }
    destruct ((0 <? min)%N && (min <? N.of_nat (insp - start))%N) eqn:B.
    + split; [lia|]. split; [exact Hz|]. subst start. lia.
    + assert (Hprog : i < insp + 1) by (subst start; lia).
      specialize (IH a min (insp + 1) ltac:(lia) ltac:(lia)). destruct (look k a min (insp + 1)) as [[[s l]|]|]; [|intros Hm s l Hs HR|destruct IH].
      * destruct IH as (A1 & A2 & A3 & A4 & A5). repeat split; auto. lia.
      * destruct (Nat.le_gt_cases (insp + 1) s) as [C|C]; [eapply IH; eauto|].
        (* the run starts before insp + 1 *)
        destruct HR as [R1 R2]. assert (l <= insp - start \/ l = 0) as [Q|Q]; [|lia|lia].
        destruct l as [|l]; [right; reflexivity|left].
        assert (start <= s) by (destruct (Nat.le_gt_cases start s); [assumption|]; exfalso; apply (Hnz s); [lia|apply R2; lia]).
        destruct (Nat.le_gt_cases (s + S l) insp) as [Z|Z]; [lia|exfalso].
        assert (Hin : insp < length a) by lia. assert (nth insp a 0%N = 0%N) by (apply R2; lia).
        subst insp. destruct (Nat.ltb_spec start (length a)) as [Sl|Sl]; [|lia].
        pose proof (lead_stop is_zero (skipn (start + 1) a)) as P. rewrite skipn_length in P. specialize (P ltac:(lia)). rewrite nth_skipn0, H0 in P. discriminate.
Qed.
Lemma look_for_hole_spec : forall a min,
  match look_for_hole a min with
  | Ok (Some (s, l)) => s + l <= length a /\ firstn l (skipn s a) = repeat 0%N l /\ (0 < min)%N /\ (min < N.of_nat l)%N
  | Ok None => (0 < min)%N -> forall s l, run_at a s l -> (N.of_nat l <= min)%N
  | Err _ => False
  end.
Proof.
  intros a min. pose proof (look_spec (S (S (length a))) a min 0 ltac:(lia) ltac:(lia)) as H. unfold look_for_hole. destruct (look (S (S (length a))) a min 0) as [[[s l]|]|]; try tauto.
  intros Hm s l HR. apply (H Hm s l); [lia|exact HR].
Qed.

(** ** The writer *)
Definition no_sync (l : list wop) : Prop := Forall (fun o => o <> OpSync /\ o <> OpMark seqt_not_a_sequence) l.
(** [w] has been given [d] *)
Definition wrote (w : wsp) (d : list N) : Prop :=
  ws_ui w = (if (ws_min w <=? UI_MAX)%N then ws_min w else 0%N) /\ no_sync (ws_log w) /\ ws_position w = N.of_nat (length d) /\
  (ws_mode w = normal -> ws_zeros w = 0%N) /\
  exists d0, denotes (ws_min w) (items_of (ws_log w)) d0 /\ d = d0 ++ repeat 0%N (N.to_nat (ws_zeros w)).
Lemma no_sync_app : forall a b, no_sync a -> no_sync b -> no_sync (a ++ b).
Proof. intros a b Ha Hb. apply Forall_app. split; assumption. Qed.
Lemma no_sync_write : forall a, no_sync [OpWrite a].
Proof. intro a. repeat constructor; discriminate. Qed.
Lemma no_sync_hole : forall n, no_sync (hole_ops n).
Proof. intro n. repeat constructor; discriminate. Qed.
Lemma repeat_add : forall (x : N) n m, repeat x n ++ repeat x m = repeat x (n + m).
Proof. intros. symmetry. apply repeat_app. Qed.
Lemma dump_spec : forall w d, wrote w d -> ws_mode w = hole ->
  exists w', dump_pending_zeros w = Ok w' /\ wrote w' d /\ ws_mode w' = normal /\ ws_min w' = ws_min w /\ ws_offset w' = N.of_nat (length d).
Proof.
  intros w d (U & Nl & P & _ & d0 & Hd & E) Hm. unfold dump_pending_zeros. rewrite Hm. eexists. split; [reflexivity|]. cbn [ws_mode ws_min ws_offset].
  unfold ws_position in P. split; [|repeat split; auto]. unfold wrote, ws_position. cbn [ws_ui ws_min ws_log ws_zeros ws_offset ws_mode]. split; [exact U|].
  split; [apply no_sync_app; [exact Nl|]; destruct (ws_zeros w <=? ws_min w)%N; [apply no_sync_write|apply no_sync_hole]|]. split; [rewrite N.add_0_r; exact P|]. split; [reflexivity|].
  exists d. split; [|cbn; rewrite app_nil_r; reflexivity]. rewrite E, items_app. apply denotes_app; [exact Hd|].
  destruct (N.leb_spec (ws_zeros w) (ws_min w)) as [L|L].
  - cbn [items_of]. rewrite app_nil_r. apply denotes_bytes.
  - apply denotes_hole; exact L.
Qed.
(** the loop in normal mode: [offset] is that of the beginning of [a], [firstn written a] has been dealt with *)
Lemma loop_normal : forall fuel a written w pre, length a < fuel + written -> written <= length a -> ws_mode w = normal -> ws_zeros w = 0%N ->
  ws_ui w = (if (ws_min w <=? UI_MAX)%N then ws_min w else 0%N) -> no_sync (ws_log w) -> ws_offset w = N.of_nat (length pre) ->
  denotes (ws_min w) (items_of (ws_log w)) (pre ++ firstn written a) -> written < length a ->
  exists w', ws_loop fuel a written w = Ok w' /\ wrote w' (pre ++ a) /\ ws_min w' = ws_min w.
Proof.
  induction fuel as [|k IH]; intros a written w pre Hf Hw Hm Hz Hu Hl Ho Hd Hlt; [lia|]. cbn [ws_loop]. replace (written <? length a) with true by lia. rewrite Hm.
  pose proof (look_for_hole_spec (skipn written a) (ws_ui w)) as H. destruct (look_for_hole (skipn written a) (ws_ui w)) as [[[hs hl]|]|]; [| |destruct H].
  - destruct H as (H1 & H2 & H3 & H4). cbn [bind]. rewrite skipn_length in H1. replace (N.of_nat hl <? ws_ui w)%N with false by lia.
    assert (Humin : ws_ui w = ws_min w) by (rewrite Hu in *; destruct (_ <=? _)%N; lia).
    assert (Hpart : firstn (written + hs) a = firstn written a ++ firstn hs (skipn written a)).
    { rewrite <- (firstn_skipn written (firstn (written + hs) a)), firstn_firstn, skipn_firstn_comm. f_equal; f_equal; lia. }
    assert (Hd1 : denotes (ws_min w) (items_of (ws_log w ++ [OpWrite (firstn hs (skipn written a))])) (pre ++ firstn (written + hs) a)).
    { rewrite items_app, Hpart, app_assoc. apply denotes_app; [exact Hd|]. cbn [items_of]. rewrite app_nil_r. apply denotes_bytes. }
    assert (Hpart2 : firstn (written + hs + hl) a = firstn (written + hs) a ++ repeat 0%N hl).
    { rewrite <- (firstn_skipn (written + hs) (firstn (written + hs + hl) a)), firstn_firstn, skipn_firstn_comm. f_equal; [f_equal; lia|].
      replace (written + hs + hl - (written + hs)) with hl by lia. rewrite <- H2. rewrite skipn_skipn. do 2 f_equal. lia. }
    destruct (Nat.ltb_spec (written + hs + hl) (length a)) as [L|L].
    + destruct (IH a (written + hs + hl) (mk_ws normal (ws_zeros w) (ws_offset w) (ws_min w) (ws_ui w)
        ((ws_log w ++ [OpWrite (firstn hs (skipn written a))]) ++ hole_ops (N.of_nat hl))) pre) as (w' & E & W & M'); auto; try lia.
      * cbn [ws_log]. apply no_sync_app; [apply no_sync_app; [exact Hl|apply no_sync_write]|apply no_sync_hole].
      * cbn [ws_log ws_min]. rewrite items_app, Hpart2, app_assoc. apply denotes_app; [exact Hd1|].
        replace (repeat 0%N hl) with (repeat 0%N (N.to_nat (N.of_nat hl))) by (rewrite Nat2N.id; reflexivity). apply denotes_hole. lia.
      * exists w'. auto.
    + eexists. split; [reflexivity|]. split; [|reflexivity]. unfold wrote, ws_position. cbn [ws_ui ws_min ws_log ws_zeros ws_offset ws_mode]. split; [exact Hu|].
      split; [apply no_sync_app; [exact Hl|apply no_sync_write]|]. assert (written + hs + hl = length a) by lia. split; [rewrite app_length; lia|].
      split; [discriminate|]. eexists. split; [exact Hd1|]. rewrite Nat2N.id, <- app_assoc, <- Hpart2. f_equal. symmetry. apply firstn_all2. lia.
  - cbn [bind]. eexists. split; [reflexivity|]. split; [|reflexivity]. unfold wrote, ws_position. cbn [ws_ui ws_min ws_log ws_zeros ws_offset ws_mode]. split; [exact Hu|].
    split; [apply no_sync_app; [exact Hl|apply no_sync_write]|]. split; [rewrite Hz, app_length; lia|]. split; [auto|]. exists (pre ++ a). rewrite Hz. cbn. rewrite app_nil_r. split; [|reflexivity].
    rewrite items_app. replace (pre ++ a) with ((pre ++ firstn written a) ++ skipn written a) by (rewrite <- app_assoc, firstn_skipn; reflexivity).
    apply denotes_app; [exact Hd|]. cbn [items_of]. rewrite app_nil_r. apply denotes_bytes.
Qed.
Lemma write_spec : forall a w d, wrote w d -> exists w', ws_write a w = Ok w' /\ wrote w' (d ++ a) /\ ws_min w' = ws_min w.
Proof.
  intros a w d H. pose proof H as (U & Nl & P & Z & d0 & Hd & E). unfold ws_write. destruct a as [|x a].
  { exists w. cbn. rewrite app_nil_r. auto. }
  remember (x :: a) as b eqn:Eb. assert (Lb : 0 < length b) by (subst; cbn; lia). destruct (ws_mode w) eqn:Hm.
  - specialize (Z eq_refl). rewrite Z in E. cbn in E. rewrite app_nil_r in E. subst d0. apply loop_normal; auto; try lia.
    + unfold ws_position in P. lia.
    + cbn. rewrite app_nil_r. exact Hd.
  - remember (S (length b)) as k eqn:Ek. cbn [ws_loop]. replace (0 <? length b) with true by lia. rewrite Hm. change (0 <? 0) with false. cbv match. pose proof (lead_le is_zero b) as L. fold (count_initial_zeros b) in L.
    pose proof (lead_repeat b) as R. fold (count_initial_zeros b) in R. unfold ws_position in P.
    destruct (Nat.ltb_spec (count_initial_zeros b) (length b)) as [Q|Q].
    + set (w1 := mk_ws hole (ws_zeros w + N.of_nat (count_initial_zeros b)) (ws_offset w) (ws_min w) (ws_ui w) (ws_log w)).
      assert (W1 : wrote w1 (d ++ firstn (count_initial_zeros b) b)).
      { unfold wrote, ws_position. cbn [w1 ws_ui ws_min ws_log ws_zeros ws_offset ws_mode]. split; [exact U|]. split; [exact Nl|]. split; [rewrite app_length, firstn_length; lia|]. split; [discriminate|].
        exists d0. split; [exact Hd|]. rewrite E, R, <- app_assoc, repeat_add. do 2 f_equal. lia. }
      destruct (dump_spec w1 _ W1 eq_refl) as (w2 & -> & W2 & M2 & Mi2 & O2). cbn [bind].
      unfold nsub. rewrite O2, app_length, firstn_length, Nat.min_l by lia. replace (N.of_nat (length d + count_initial_zeros b) <? N.of_nat (count_initial_zeros b))%N with false by lia. cbn [bind].
      replace (N.of_nat (length d + count_initial_zeros b) - N.of_nat (count_initial_zeros b))%N with (N.of_nat (length d)) by lia.
      destruct W2 as (U2 & N2 & P2 & Z2 & d2 & D2 & E2). specialize (Z2 M2). rewrite Z2 in E2. cbn in E2. rewrite app_nil_r in E2. subst d2.
      match goal with |- context [ws_loop _ _ _ ?w3] => destruct (loop_normal k b (count_initial_zeros b) w3 d) as (w' & E' & W' & Mi') end; cbn [ws_mode ws_zeros ws_ui ws_min ws_log ws_offset]; auto; try lia.
      exists w'. split; [exact E'|]. split; [exact W'|]. rewrite Mi'. cbn. exact Mi2.
    + eexists. split; [reflexivity|]. split; [|reflexivity]. assert (K : count_initial_zeros b = length b) by lia. rewrite K, firstn_all in R.
      unfold wrote, ws_position. cbn [ws_ui ws_min ws_log ws_zeros ws_offset ws_mode]. split; [exact U|]. split; [exact Nl|]. split; [rewrite app_length; lia|]. split; [discriminate|].
      exists d0. split; [exact Hd|]. rewrite R at 1. rewrite E, <- app_assoc, repeat_add. do 2 f_equal. lia.
Qed.

Lemma run_spec : forall chunks w d, wrote w d -> exists w', ws_run chunks w = Ok w' /\ wrote w' (d ++ concat chunks) /\ ws_min w' = ws_min w.
Proof.
  induction chunks as [|a r IH]; intros w d H; cbn [ws_run concat].
  - exists w. rewrite app_nil_r. auto.
  - destruct (write_spec a w d H) as (w1 & -> & W1 & M1). cbn [bind]. destruct (IH w1 _ W1) as (w2 & E & W2 & M2). exists w2. rewrite app_assoc. split; [exact E|]. split; [exact W2|congruence].
Qed.
Lemma wrote_new : forall h, wrote (ws_new h) [].
Proof. intro h. repeat split; [constructor|]. exists []. split; [constructor|reflexivity]. Qed.
Lemma sync_spec : forall w d, wrote w d -> exists w' log, ws_sync w = Ok w' /\ ws_log w' = log ++ [OpSync] /\ no_sync log /\ denotes (ws_min w) (items_of log) d /\ ws_position w' = N.of_nat (length d).
Proof.
  intros w d H. unfold ws_sync. destruct (ws_mode w) eqn:Hm.
  - destruct H as (U & Nl & P & Z & d0 & Hd & E). cbn [bind]. eexists. exists (ws_log w). split; [reflexivity|]. split; [reflexivity|]. split; [exact Nl|].
    rewrite (Z Hm) in E. cbn in E. rewrite app_nil_r in E. subst d. split; [exact Hd|exact P].
  - destruct (dump_spec w d H Hm) as (w' & -> & (U & Nl & P & Z & d0 & Hd & E) & M' & Mi & _). cbn [bind]. eexists. exists (ws_log w'). split; [reflexivity|]. split; [reflexivity|]. split; [exact Nl|].
    rewrite (Z M') in E. cbn in E. rewrite app_nil_r in E. subst d. rewrite <- Mi. split; [exact Hd|exact P].
Qed.
