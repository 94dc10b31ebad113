(** * C39: whatever the scheduling of the threads, parallel encryption and compression write what the sequential ones write, and end. *)
From Verif Require Import Base FileModel ClientSpec PipeModel PipeProof PipeProof2 PipeSpec CryptModel CryptProof PropCrypt BlockModel PropBlock.
From Coq Require Import Bool PeanoNat Wf_nat.
Open Scope nat_scope.

(** ** cutting in blocks *)
Lemma chunks_map : forall B D, 0 < B -> chunks (length D) B D = map (block B D) (seq 0 (nblocks B D)).
Proof.
  intros B D HB. remember (length D) as n eqn:E. revert D E. induction n as [n IH] using lt_wf_ind. intros D ->. destruct D as [|x D'].
  - unfold nblocks. cbn [length]. rewrite Nat.div_small by lia. reflexivity.
  - assert (NE : x :: D' <> []) by discriminate. remember (x :: D') as D eqn:ED. assert (LD : 0 < length D) by (rewrite ED; cbn; lia). clear ED. rewrite chunks_step by auto.
    rewrite (IH (length (skipn B D)) ltac:(rewrite skipn_length; lia) _ eq_refl).
    assert (NB : nblocks B D = S (nblocks B (skipn B D))).
    { unfold nblocks. rewrite skipn_length. destruct (le_lt_dec B (length D)) as [L|L].
      - replace (length D + B - 1) with ((length D - B + B - 1) + 1 * B) by lia. rewrite Nat.div_add by lia. lia.
      - replace (length D - B) with 0 by lia. rewrite (Nat.div_small (0 + B - 1)) by lia. replace (length D + B - 1) with ((length D - 1) + 1 * B) by lia. rewrite Nat.div_add, Nat.div_small by lia. reflexivity. }
    rewrite NB. cbn [seq map]. f_equal. rewrite <- seq_shift, map_map. apply map_ext. intro i. unfold block. rewrite skipn_skipn. f_equal. f_equal. lia.
Qed.
Lemma combine_snoc : forall (k : list N) (l : list (list N)) n c, length k = length l -> combine (k ++ [n]) (l ++ [c]) = combine k l ++ [(n, c)].
Proof. induction k as [|y k IH]; intros [|x l] n c H; cbn [length] in H; try lia; [reflexivity|]. cbn [app combine]. f_equal. apply IH. lia. Qed.
Definition number (l : list (list N)) : list (N * list N) := combine (map N.of_nat (seq 0 (length l))) l.
Lemma number_snoc : forall l c, number (l ++ [c]) = number l ++ [(N.of_nat (length l), c)].
Proof.
  intros l c. unfold number. rewrite app_length. cbn [length]. rewrite Nat.add_1_r, seq_S, map_app. cbn [map plus]. apply combine_snoc. rewrite map_length, seq_length. reflexivity.
Qed.
Lemma number_map : forall (f : nat -> list N) n, number (map f (seq 0 n)) = map (fun i => (N.of_nat i, f i)) (seq 0 n).
Proof.
  intros f n. unfold number. rewrite map_length, seq_length. generalize (seq 0 n). induction l as [|x l IH]; [reflexivity|]. cbn. f_equal. exact IH.
Qed.
Lemma chunks_len : forall B q D, 0 < B -> length D = q * B -> length (chunks (length D) B D) = q.
Proof.
  intros B q D HB E. rewrite chunks_map, map_length, seq_length by exact HB. unfold nblocks. rewrite E. replace (q * B + B - 1) with ((B - 1) + q * B) by lia. rewrite Nat.div_add, Nat.div_small by lia. reflexivity.
Qed.
(** after [D] was given *)
Definition given (B : nat) (D : list N) (s : writing) : Prop :=
  exists F R q, D = F ++ R /\ length F = q * B /\ length R < B /\
    s = (number (chunks (length F) B F), match R with [] => None | _ => Some (N.of_nat q, R) end, match R with [] => N.of_nat q | _ => N.of_nat q + 1 end)%N.
Lemma put_given : forall B, 0 < B -> forall fuel a D s, length a <= fuel -> given B D s -> given B (D ++ a) (put_loop fuel B a s).
Proof.
  intros B HB. induction fuel as [|k IH]; intros a D s Hf I.
  - destruct a; [|cbn in Hf; lia]. rewrite app_nil_r. exact I.
  - cbn [put_loop]. destruct a as [|x a']; [rewrite app_nil_r; exact I|]. remember (x :: a') as a eqn:Ea. assert (La : 0 < length a) by (subst; cbn; lia). clear Ea x a'.
    destruct I as (F & R & q & -> & LF & LR & ->). set (n := if B <? length a + length R then B - length R else length a).
    assert (Hn : 0 < n <= length a /\ length R + n <= B) by (unfold n; destruct (Nat.ltb_spec B (length a + length R)); lia).
    assert (Ln : length (firstn n a) = n) by (rewrite firstn_length; lia).
    assert (E : (let '(i, c, num1) := match match R with [] => None | _ => Some (N.of_nat q, R) end with Some (i, c) => (i, c, match R with [] => N.of_nat q | _ => N.of_nat q + 1 end) | None => (match R with [] => N.of_nat q | _ => N.of_nat q + 1 end, [], match R with [] => N.of_nat q | _ => N.of_nat q + 1 end + 1) end in (i, c, num1))%N = (N.of_nat q, R, N.of_nat q + 1)%N) by (destruct R; reflexivity).
    destruct (match match R with [] => None | _ => Some (N.of_nat q, R) end with Some (i, c) => (i, c, match R with [] => N.of_nat q | _ => (N.of_nat q + 1)%N end) | None => (match R with [] => N.of_nat q | _ => (N.of_nat q + 1)%N end, [], (match R with [] => N.of_nat q | _ => N.of_nat q + 1 end + 1)%N) end) as [[i c] num1]. injection E as -> -> ->. cbv beta iota. fold n.
    replace ((F ++ R) ++ a) with (((F ++ R) ++ firstn n a) ++ skipn n a) by (rewrite <- (app_assoc (F ++ R)), firstn_skipn; reflexivity).
    apply IH; [rewrite skipn_length; lia|]. rewrite app_length, Ln. destruct (Nat.eqb_spec (length R + n) B) as [Q|Q].
    + exists (F ++ (R ++ firstn n a)), [], (S q). rewrite app_nil_r, <- app_assoc. split; [reflexivity|]. split; [rewrite !app_length, Ln; lia|]. split; [cbn; lia|].
      rewrite (chunks_full B q F HB ltac:(lia) (R ++ firstn n a)) by (rewrite app_length, Ln; lia). rewrite number_snoc, (chunks_len B q F HB LF). f_equal. lia.
    + exists F, (R ++ firstn n a), q. rewrite <- app_assoc. split; [reflexivity|]. split; [exact LF|]. split; [rewrite app_length, Ln; lia|].
      destruct (R ++ firstn n a) eqn:Z; [apply (f_equal (@length N)) in Z; rewrite app_length, Ln in Z; cbn in Z; lia|reflexivity].
Qed.
Lemma puts_given : forall B ws, 0 < B -> forall D s, given B D s -> given B (D ++ concat ws) (fold_left (fun s a => put B a s) ws s).
Proof.
  intros B ws HB. induction ws as [|a ws IH]; intros D s I; cbn [fold_left concat]; [rewrite app_nil_r; exact I|]. rewrite app_assoc. apply IH, put_given; auto.
Qed.

(** whatever the sizes of the writes, the workers receive the data cut in blocks of the given size, numbered from zero *)
Theorem C39_blocks : forall B writes, 0 < B -> handed B writes = numbered B (concat writes).
Proof.
  intros B ws HB. unfold handed. destruct (puts_given B ws HB [] ([], None, 0%N)) as (F & R & q & E & LF & LR & ->).
  { exists [], [], 0. repeat split; cbn; lia. }
  cbn [app] in E. unfold numbered. rewrite <- number_map, <- chunks_map by exact HB. rewrite E. destruct R as [|x R'].
  - cbn [put_sync fst]. rewrite app_nil_r. reflexivity.
  - remember (x :: R') as R. cbn [put_sync fst]. assert (LR0 : 0 < length R) by (subst; cbn; lia). rewrite (chunks_full B q F HB ltac:(lia) R) by lia. rewrite number_snoc, (chunks_len B q F HB LF). destruct R; [cbn in LR0; lia|]. reflexivity.
Qed.
Print Assumptions C39_blocks.

(** ** every schedule *)
Section Reach.
Variables (W : nat) (lossy : bool) (tr : N -> list N -> wres -> Prop) (tail : list N).
Hypothesis W_pos : 0 < W.
Lemma reach_inv : forall s t, steps W lossy tr tail s t -> inv W tail s -> inv W tail t.
Proof. intros s t H. induction H as [|s t u H1 H2 IH]; intro I; [exact I|]. apply IH. eapply inv_step; eauto. Qed.
Lemma reach_inv2 : forall s t, no_loss lossy tr -> steps W lossy tr tail s t -> inv2 W s -> inv2 W t.
Proof. intros s t NL H. induction H as [|s t u H1 H2 IH]; intro I; [exact I|]. apply IH. eapply inv2_step; eauto. Qed.
Lemma reach_inv3 : forall all s t, steps W lossy tr tail s t -> inv W tail s -> inv3 lossy tr tail all s -> inv3 lossy tr tail all t.
Proof. intros all s t H. induction H as [|s t u H1 H2 IH]; intros I J; [exact J|]. apply IH; [eapply inv_step; eauto|eapply inv3_step; eauto]. Qed.
(** without failure of a treatment *)
Record inv4 (s : st) : Prop := { q_ws : forall w, In w (ws s) -> w = Fine \/ w = Over false; q_line : existsb bad (line s) = false; q_err : err s = true -> raised s = true }.
Lemma upd_in : forall k s w x, In x (upd k s w) -> x = s \/ In x w.
Proof. induction k as [|k IH]; intros s [|y w] x H; cbn [upd] in H; auto; destruct H as [<-|H]; cbn; auto. apply IH in H as [H|H]; auto. Qed.
Lemma inv4_step : ~ may_fail tr -> forall s t, inv4 s -> step W lossy tr tail s t -> inv4 t.
Proof.
  intros NF s t [Qw Ql Qe] H. assert (N1 : forall i b, ~ tr i b WRange) by (intros i b T; apply NF; exists i, b; auto). assert (N2 : forall i b, ~ tr i b WExn) by (intros i b T; apply NF; exists i, b; auto).
  destruct H; unfold line in *; cbn [todo dies hold heap pipe ws ones err raised left_w ended below] in *; try (constructor; unfold line; cbn [todo dies hold heap pipe ws ones err raised left_w ended below]; auto; fail).
  - constructor; unfold line; cbn [todo dies hold heap pipe ws ones err raised left_w ended below]; auto. rewrite app_assoc, existsb_app, Ql. reflexivity.
  - constructor; unfold line; cbn [todo dies hold heap pipe ws ones err raised left_w ended below]; auto. rewrite app_assoc, existsb_app in *. exact Ql.
  - pose proof (Qw s (nth_error_In _ _ H)) as Qs. constructor; unfold line; cbn [todo dies hold heap pipe ws ones err raised left_w ended below]; auto.
    + intros z K. apply upd_in in K as [->|K]; [|auto]. destruct H0; try (destruct Qs; discriminate); auto; [destruct H2 as [H2|H2]; [destruct (N1 _ _ H2)|destruct (N2 _ _ H2)]|]. destruct Qs as [->| ->]; [right; reflexivity|discriminate H0].
    + rewrite app_assoc, existsb_app in *. cbn [existsb] in *. destruct (existsb bad _); [discriminate Ql|]. cbn [orb] in *. destruct H0; cbn [bad orb] in *; auto; [destruct (N1 _ _ H2)|destruct H2 as [H2|H2]; [destruct (N1 _ _ H2)|destruct (N2 _ _ H2)]|destruct Qs; discriminate].
  - destruct (N2 _ _ H1).
  - constructor; unfold line; cbn [todo dies hold heap pipe ws ones err raised left_w ended below map existsb fst snd] in *; auto. destruct f; cbn [bad orb] in *; auto; contradiction.
  - cbn in Ql. discriminate Ql.
Qed.
Lemma reach_inv4 : ~ may_fail tr -> forall s t, steps W lossy tr tail s t -> inv4 s -> inv4 t.
Proof. intros NF s t H. induction H as [|s t u H1 H2 IH]; intro I; [exact I|]. apply IH. eapply inv4_step; eauto. Qed.
Lemma inv4_start : forall blocks, inv4 (start W blocks).
Proof. intro blocks. constructor; cbn; [|reflexivity|discriminate]. intros w H. apply repeat_spec in H. auto. Qed.
Lemma done_seq : forall s, inv W tail s -> ended s = true -> seq_of s = [].
Proof. intros s I E. pose proof (i_ended _ _ _ I E) as L. destruct (i_seq _ _ _ I) as (bl & E1 & [->|E2]); [rewrite E1, L; reflexivity|lia]. Qed.
End Reach.

(** at any time, in any schedule, what is written below is in order: no block missing, doubled or out of place before the last byte *)
Theorem C39_order : forall W lossy tr tail blocks s, 0 < W -> steps W lossy tr tail (start W blocks) s -> in_order tr tail blocks (below s).
Proof.
  intros W lossy tr tail blocks s HW H. pose proof (reach_inv3 W lossy tr tail HW blocks _ _ H (inv_start W tr tail HW blocks) (inv3_start W lossy tr tail blocks)) as I. destruct (err s) eqn:E.
  - destruct (o_err _ _ _ _ _ I E) as (t & (pre & post & ys & part & A & F & B & C & P) & _). exists pre, post, ys, part, t. repeat split; auto. destruct P as [P|(p & post' & y & P1 & P2 & z & P3)]; [left; exact P|right; exists p, post', y, z; auto].
  - destruct (o_ok _ _ _ _ _ I E) as (_ & _ & pre & ys & A & F & B). do 3 eexists. exists [], (if ended s then tail else []). split; [exact A|]. split; [exact F|]. split; [exact B|]. split; [|left; reflexivity]. destruct (ended s); [exists []; rewrite app_nil_r; reflexivity|exists tail; reflexivity].
Qed.
Print Assumptions C39_order.

(** when all has ended and no exception comes out, all is written; for encryption this requires that no treatment of a block fails (see C39_silent_loss_refuted) *)
Theorem C39_complete : forall W lossy tr tail blocks s, 0 < W -> lossy = false \/ ~ may_fail tr -> steps W lossy tr tail (start W blocks) s -> finished s -> ~ reported s ->
  complete tr tail blocks (below s).
Proof.
  intros W lossy tr tail blocks s HW L H (F1 & F2 & F3 & F4 & F5) NR. pose proof (inv_start W tr tail HW blocks) as I0. pose proof (reach_inv W lossy tr tail HW _ _ H I0) as I.
  pose proof (reach_inv3 W lossy tr tail HW blocks _ _ H I0 (inv3_start W lossy tr tail blocks)) as J.
  assert (E : err s = false).
  { destruct (err s) eqn:E; [|reflexivity]. exfalso. destruct (raised s) eqn:R; [apply NR; left; exact R|]. destruct L as [L|L].
    - destruct (o_who _ _ _ _ _ J L (or_introl (conj E R))) as (k & x & K & [B| ->]); [|apply NR; right; eapply nth_error_In; eauto].
      rewrite Forall_forall in F5. specialize (F5 x (nth_error_In _ _ K)). destruct x; discriminate.
    - pose proof (q_err _ (reach_inv4 W lossy tr tail L _ _ H (inv4_start W blocks)) E). congruence. }
  destruct (o_ok _ _ _ _ _ J E) as (_ & _ & pre & ys & A & F & B). rewrite (done_seq W tr tail HW s I F4) in A. cbn in A. rewrite app_nil_r in A. subst pre. rewrite F4 in B. exists ys. auto.
Qed.
Print Assumptions C39_complete.

(** no false alarm: if no treatment can fail, the only exceptions are those met by the thread that writes *)
Theorem C39_no_false_alarm : forall W lossy tr tail blocks s, ~ may_fail tr -> steps W lossy tr tail (start W blocks) s -> reported s -> raised s = true.
Proof.
  intros W lossy tr tail blocks s NF H [R|R]; [exact R|]. destruct (q_ws _ (reach_inv4 W lossy tr tail NF _ _ H (inv4_start W blocks)) _ R); discriminate.
Qed.
Print Assumptions C39_no_false_alarm.

(** no schedule goes on for ever *)
Theorem C39_ends : forall W lossy tr tail, 0 < W -> well_founded (fun t s => step W lossy tr tail s t).
Proof. intros. apply step_wf. assumption. Qed.
Print Assumptions C39_ends.

(** and none stops before the work is done: no deadlock, whatever the failures met. For encryption: as long as a failing treatment throws Erange only
    (see C39_worker_exception_refuted); for compression: but for a failure to write the final mark (see C39_end_mark_hang_refuted) *)
Theorem C39_no_deadlock : forall W lossy tr tail blocks s, 0 < W -> (forall i b, exists r, tr i b r) -> lossy = false \/ (forall i b, ~ tr i b WExn) ->
  steps W lossy tr tail (start W blocks) s -> stopped W lossy tr tail s -> tail = [] \/ raised s = false -> finished s.
Proof.
  intros W lossy tr tail blocks s HW T NL H St X. pose proof (inv_start W tr tail HW blocks) as I0. pose proof (reach_inv W lossy tr tail HW _ _ H I0) as I.
  pose proof (reach_inv2 W lossy tr tail HW _ _ NL H (inv2_start W tr tail HW blocks)) as J. destruct (progress W lossy tr tail HW s NL T I J) as [F|[(L & E & R & Tl)|[t Q]]]; [exact F| |destruct (St t Q)].
  destruct X; congruence.
Qed.
Print Assumptions C39_no_deadlock.

(** the main thread always finds a free segment; and at the end they are all back (parallel_tronconneuse.cpp:649 throws SRC_BUG otherwise) *)
Theorem C39_pool : forall W lossy tr tail blocks s, 0 < W -> lossy = false \/ (forall i b, ~ tr i b WExn) -> steps W lossy tr tail (start W blocks) s ->
  (hold s = None -> 0 < heap s) /\ (finished s -> heap s = heap (start W blocks)).
Proof.
  intros W lossy tr tail blocks s HW NL H. pose proof (inv_start W tr tail HW blocks) as I0. pose proof (reach_inv W lossy tr tail HW _ _ H I0) as I.
  pose proof (reach_inv2 W lossy tr tail HW _ _ NL H (inv2_start W tr tail HW blocks)) as J. split; [apply (heap_not_empty W tr tail HW s I J)|].
  intros (F1 & F2 & F3 & F4 & F5). pose proof (done_seq W tr tail HW s I F4) as S. unfold seq_of in S. apply app_eq_nil in S as [S1 S]. apply app_eq_nil in S as [S2 _]. apply map_eq_nil in S1, S2.
  pose proof (j_heap _ _ J) as Q. rewrite F3, S1, S2 in Q. cbn in Q. cbn [start heap]. lia.
Qed.
Print Assumptions C39_pool.

(** ** the two uses *)
Lemma outs_map : forall (tr : N -> list N -> wres -> Prop) (f : N * list N -> list N) blocks outs, (forall p y, tr (fst p) (snd p) (WOk y) -> y = f p) -> Forall2 (fun p y => tr (fst p) (snd p) (WOk y)) blocks outs -> outs = map f blocks.
Proof. intros tr f blocks outs H F. induction F as [|p y ps ys T F IH]; [reflexivity|]. cbn [map]. rewrite <- (H p y T), IH. reflexivity. Qed.

Lemma enc_out : forall C p y, encrypts C (fst p) (snd p) (WOk y) -> y = c_enc C (N.to_nat (fst p)) (snd p).
Proof. intros C p y E. injection E as E. exact E. Qed.
Lemma comp_out : forall Z p y, compresses Z (fst p) (snd p) (WOk y) -> y = piece Z (snd p).
Proof. intros Z p y E. injection E as E. exact E. Qed.
(** parallel encryption: whatever the number of workers, the writes, the schedule: it stops, finished; and without exception the file holds what the sequential encryption writes (C29), so that it
    reads back (C29_reads_any_position) *)
Theorem C39_encryption : forall W C B writes s, 0 < W -> good_cipher C B ->
  steps W true (encrypts C) [] (start W (handed B writes)) s -> stopped W true (encrypts C) [] s ->
  finished s /\ (~ reported s -> below s = layout C B (concat writes) /\
    forall pre, tw_session C B true (map WWrite writes) (mk_file pre (length pre)) = Ok (mk_file (pre ++ below s) (length (pre ++ below s)))).
Proof.
  intros W C B writes s HW G H St. assert (NF : ~ may_fail (encrypts C)) by (intros (i & b & [E|E]); discriminate E).
  assert (F : finished s) by (apply (C39_no_deadlock W true (encrypts C) [] (handed B writes) s HW); [intros; eexists; reflexivity|right; intros i b E; discriminate E|exact H|exact St|left; reflexivity]).
  split; [exact F|]. intro NR.
  assert (E : below s = layout C B (concat writes)).
  { destruct (C39_complete _ _ _ _ _ _ HW (or_intror NF) H F NR) as (outs & Fo & ->). rewrite app_nil_r. rewrite (outs_map _ (fun p => c_enc C (N.to_nat (fst p)) (snd p)) _ _ (enc_out C) Fo).
    rewrite C39_blocks by apply G. unfold numbered, layout. rewrite map_map, flat_map_concat_map. f_equal. apply map_ext. intro i. cbn [fst snd]. rewrite Nnat.Nat2N.id. reflexivity. }
  split; [exact E|]. intro pre. rewrite E. apply C29_encrypted_image, G.
Qed.
Print Assumptions C39_encryption.

(** parallel compression of a non empty stream: same thing, with the end mark *)
Theorem C39_compression : forall W Z B writes s, 0 < W -> good_zip Z B -> concat writes <> [] ->
  steps W false (compresses Z) (bh_dump H_EOF 0) (start W (handed B writes)) s -> stopped W false (compresses Z) (bh_dump H_EOF 0) s -> raised s = false ->
  finished s /\ ~ reported s /\ below s = stream Z B (concat writes).
Proof.
  intros W Z B writes s HW G NE H St R. assert (NF : ~ may_fail (compresses Z)) by (intros (i & b & [E|E]); discriminate E).
  assert (F : finished s) by (apply (C39_no_deadlock W false (compresses Z) (bh_dump H_EOF 0) (handed B writes) s HW); [intros; eexists; reflexivity|left; reflexivity|exact H|exact St|right; exact R]).
  assert (NR : ~ reported s) by (intro K; apply (C39_no_false_alarm _ _ _ _ _ _ NF H) in K; congruence).
  split; [exact F|]. split; [exact NR|]. pose proof (gz_B _ _ G) as HB.
  destruct (C39_complete _ _ _ _ _ _ HW (or_introl eq_refl) H F NR) as (outs & Fo & ->). rewrite (outs_map _ (fun p => piece Z (snd p)) _ _ (comp_out Z) Fo).
  rewrite C39_blocks by lia. unfold numbered, stream. destruct (concat writes) as [|x D] eqn:E; [congruence|]. rewrite <- E. f_equal. rewrite chunks_map by lia. rewrite map_map, flat_map_concat_map, map_map. reflexivity.
Qed.
Print Assumptions C39_compression.

(** ** an instance: two workers, two blocks; the second worker ends first; the blocks are written in order *)
Ltac go R := eapply steps_next; [eapply R|]; cbn [app upd].
Ltac no_busy := let K := fresh in intros ? K; cbn [app In] in K; repeat (destruct K as [K|K]; [try discriminate K|]); try contradiction.
Ltac take := go s_take.
Ltac take_die := go s_take_die.
Ltac send := eapply steps_next; [eapply s_scatter; vm_compute; lia|]; cbn [app].
Ltac get a k := eapply steps_next; [eapply (s_get _ _ _ _ _ _ _ _ a _ _ _ k); [reflexivity|reflexivity|no_busy|repeat constructor]|]; cbn [app].
Ltac room := split; [vm_compute; lia|try (left; reflexivity); try (right; reflexivity); try (intro; exfalso; vm_compute in *; lia); try (intros _; first [left; reflexivity|right; reflexivity])].
Ltac push a k := eapply steps_next; [eapply (s_push _ _ _ _ _ _ _ _ a _ _ _ _ k); [reflexivity|constructor; auto; try reflexivity|room]|]; cbn [app upd].
Ltac gather l := eapply steps_next; [eapply (s_gather _ _ _ _ _ _ _ _ l); discriminate|]; cbn [app].
Definition double (i : N) (b : list N) (r : wres) : Prop := r = WOk (i :: b).
Theorem C39_instance : exists s, steps 2 true double [] (start 2 (handed 2 [[7]; [8; 9]]%N)) s /\ finished s /\ ~ reported s /\ below s = [0; 7; 8; 1; 9]%N.
Proof.
  eexists. change (handed 2 [[7]; [8; 9]]%N) with [(0, [7; 8]); (1, [9])]%N. split.
  - take. send. take. send. get (@nil cell) 0. get [Busy 0 (Blk 0 [7; 8])]%N 1. push [Busy 0 (Blk 0 [7; 8])]%N 1. push (@nil cell) 0.
    gather [(Blk 0 [7; 8], FOk [0; 7; 8]); (Blk 1 [9], FOk [1; 9])]%N. go s_write. go s_write. take_die. send. take_die. send. get (@nil cell) 1. get [Busy 1 Die] 0. push (@nil cell) 1. push [Done Die FDie] 0.
    gather [(Die, FDie); (Die, FDie)]. go s_die. go s_end. apply steps_refl.
  - split; [repeat split; repeat constructor|]. split; [|reflexivity]. intros [K|K]; [discriminate K|]. cbn in K. intuition discriminate.
Qed.
Print Assumptions C39_instance.

(** ** refuted *)
(** with parallel encryption, a worker that meets an exception other than Erange gives up its segment: no schedule can end, the program hangs instead of reporting the error
    (parallel_tronconneuse.cpp:1740-1764: ptr is dropped by the second call to work(), the thread that writes waits for this block for ever) *)
Theorem C39_worker_exception_refuted : exists tr blocks s, (forall i b, exists r, tr i b r) /\ steps 2 true tr [] (start 2 blocks) s /\ stopped 2 true tr [] s /\ ~ finished s.
Proof.
  exists (fun i b r => r = WExn), [(0, [5])]%N. eexists. split; [intros; eexists; reflexivity|]. split; [|split].
  - take. send. get (@nil cell) 0. eapply steps_next; [eapply (s_lose _ _ _ _ _ _ _ _ (@nil cell)); reflexivity|]. cbn [app upd]. take_die. send. take_die. send.
    get [Lost (Blk 0 [5])]%N 0. get [Lost (Blk 0 [5]); Busy 0 Die]%N 1. push [Lost (Blk 0 [5])]%N 0. push [Lost (Blk 0 [5]); Done Die FDie]%N 1. apply steps_refl.
  - intros t H. inversion H; subst; clear H;
    try (match goal with E : ?a ++ _ :: _ = _ |- _ => destruct a as [|? [|? [|? [|? ?]]]]; cbn [app] in E; discriminate E end).
    match goal with E : map _ ?y ++ _ = _ |- _ => destruct y; cbn [map app] in E; [congruence|discriminate E] end.
  - intros (_ & _ & _ & K & _). discriminate K.
Qed.
Print Assumptions C39_worker_exception_refuted.

(** with parallel encryption, a treatment that fails with Erange for one of the last blocks is not reported: the session ends without exception while the block is missing
    (the error flag of the thread that writes is only looked at by the next write, parallel_tronconneuse.cpp:562) *)
Theorem C39_silent_loss_refuted : exists tr blocks s, (forall i b, exists r, tr i b r) /\ steps 2 true tr [] (start 2 blocks) s /\ finished s /\ ~ reported s /\ ~ complete tr [] blocks (below s).
Proof.
  exists (fun i b r => r = WRange), [(0, [5])]%N. eexists. split; [intros; eexists; reflexivity|]. split; [|split; [|split]].
  - take. send. get (@nil cell) 0. eapply steps_next; [eapply (s_push _ _ _ _ _ _ _ _ (@nil cell) _ _ _ _ 0); [reflexivity|apply t_range; reflexivity|room]|]. cbn [app upd]. gather [(Blk 0 [5], FErr)]%N. go s_error. take_die. send. take_die. send.
    get (@nil cell) 0. push (@nil cell) 0. get [Done Die FDie] 1. push [Done Die FDie] 1. gather [(Die, FDie); (Die, FDie)]. go s_die. go s_end. apply steps_refl.
  - repeat split; repeat constructor.
  - intros [K|K]; [discriminate K|]. cbn in K. intuition discriminate.
  - intros (outs & F & _). inversion F; subst. discriminate.
Qed.
Print Assumptions C39_silent_loss_refuted.

(** with parallel compression, if the final mark cannot be written (no space left on device) the thread that writes waits for ever: the program hangs instead of reporting
    the error (parallel_block_compressor.cpp:646-667: work() is called again with nothing left to come) *)
Theorem C39_end_mark_hang_refuted : exists tr blocks s, ~ may_fail tr /\ steps 2 false tr (bh_dump H_EOF 0) (start 2 blocks) s /\ stopped 2 false tr (bh_dump H_EOF 0) s /\ ~ finished s.
Proof.
  exists double, [(0, [5])]%N. eexists. split; [intros (i & b & [K|K]); discriminate K|]. split; [|split].
  - take. send. get (@nil cell) 0. push (@nil cell) 0. gather [(Blk 0 [5], FOk [0; 5])]%N. go s_write. take_die. send. take_die. send.
    get (@nil cell) 0. push (@nil cell) 0. get [Done Die FDie] 1. push [Done Die FDie] 1. gather [(Die, FDie); (Die, FDie)]. go s_die.
    eapply steps_next; [eapply (s_end_fails _ _ _ _ _ _ _ _ _ _ _ _ _ [2]%N); [vm_compute; reflexivity|discriminate]|]. cbn [app]. apply steps_refl.
  - intros t H. inversion H; subst; clear H;
    try (match goal with E : ?a ++ _ :: _ = _ |- _ => destruct a; discriminate E end).
    1: congruence. match goal with E : map _ ?y ++ _ = _ |- _ => destruct y; cbn [map app] in E; [congruence|discriminate E] end.
  - intros (_ & _ & _ & K & _). discriminate K.
Qed.
Print Assumptions C39_end_mark_hang_refuted.
