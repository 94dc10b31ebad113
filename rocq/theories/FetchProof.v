(** * Proofs about the reading side of the parallel deciphering (FetchModel.v): the stream of blocks between the two threads. *)
From Coq Require Import List PeanoNat Bool.
From Verif Require Import Base FetchModel FetchSpec.
Open Scope nat_scope.

(** ** programs of the main thread *)
Definition safe {A} (x : res A * st) (Q : A -> st -> Prop) : Prop :=
  match fst x with Ok a => Q a (snd x) | Err e => e = Fuel end.
Lemma safe_bind : forall A B (m : M A) (f : A -> M B) s Q R,
  safe (m s) Q -> (forall a s', Q a s' -> safe (f a s') R) -> safe (bindM m f s) R.
Proof. intros A B m f s Q R H1 H2. unfold bindM, safe in *. destruct (m s) as [[a|e] s']; cbn in *; auto. apply H2; auto. Qed.
Lemma safe_weak : forall A (x : res A * st) (Q R : A -> st -> Prop), safe x Q -> (forall a s, Q a s -> R a s) -> safe x R.
Proof. intros A x Q R H1 H2. unfold safe in *. destruct x as [[a|e] s']; cbn in *; auto. Qed.
Lemma safe_ok : forall A (a : A) s (Q : A -> st -> Prop), Q a s -> safe (Ok a, s) Q.
Proof. intros; exact H. Qed.
Lemma bind_get : forall A B (g : st -> A) (f : A -> M B) s, bindM (get g) f s = f (g s) s.
Proof. reflexivity. Qed.
Lemma bind_ret : forall A B (a : A) (f : A -> M B) s, bindM (ret a) f s = f a s.
Proof. reflexivity. Qed.
Lemma bind_assoc : forall A B C (m : M A) (f : A -> M B) (g : B -> M C) s, bindM (bindM m f) g s = bindM m (fun a => bindM (f a) g) s.
Proof. intros. unfold bindM. destruct (m s) as [[a|e] s']; reflexivity. Qed.

Section P.
Variable W : nat.
Variable bs : nat.
Variable F : list N.
Variable bad : nat -> bool.
Variable skipok : nat -> bool.
Hypothesis HW : 0 < W.
Hypothesis Hbs : 0 < bs.
Hypothesis Hbad : forall k, bad k = false.
Notation L := (length F).
Notation blk := (blk bs F).
Hypothesis Hskip : forall k, skipok k = false -> blk k = [].
Notation rstep := (rstep W bs F bad skipok).
Notation rrun := (rrun W bs F bad skipok).

(** ** the blocks *)
Lemma blk_len : forall k, length (blk k) = Nat.min bs (L - k * bs).
Proof. intro k. unfold FetchModel.blk. rewrite firstn_length, skipn_length. reflexivity. Qed.
Lemma blk_nil : forall k, blk k = [] <-> L <= k * bs.
Proof.
  intro k. pose proof (blk_len k) as H. split; intro E.
  - rewrite E in H. cbn in H. lia.
  - apply length_zero_iff_nil. lia.
Qed.
Lemma blk_nn : forall k, blk k <> [] <-> k * bs < L.
Proof. intro k. rewrite blk_nil. lia. Qed.
Lemma blk_len_le : forall k, length (blk k) <= bs.
Proof. intro k. rewrite blk_len. lia. Qed.
Lemma blk_short : forall k, length (blk k) <> bs -> blk (S k) = [].
Proof. intros k H. rewrite blk_len in H. apply blk_nil. lia. Qed.
Lemma blk_end : forall k, blk k <> [] -> k * bs + length (blk k) = Nat.min (S k * bs) L.
Proof. intros k H. apply blk_nn in H. rewrite blk_len. lia. Qed.
Lemma blk_down : forall i k, i <= k -> blk k <> [] -> blk i <> [].
Proof. intros i k H1 H2. apply blk_nn. apply blk_nn in H2. nia. Qed.

Definition D (k : nat) : item := IData (blk k) 0.
Definition Str (m k : nat) (f : flag) (a : nat) : list item := map D (seq m (k - m)) ++ repeat (IOrd f) a.
Lemma Str_nil : forall m f a, Str m m f a = repeat (IOrd f) a.
Proof. intros. unfold Str. rewrite Nat.sub_diag. reflexivity. Qed.
Lemma Str_cons : forall m k f a, m < k -> Str m k f a = D m :: Str (S m) k f a.
Proof. intros m k f a H. unfold Str. replace (k - m) with (S (k - S m)) by lia. reflexivity. Qed.
Lemma Str_push : forall m k f f', m <= k -> Str m (S k) f' 0 = Str m k f 0 ++ [D k].
Proof.
  intros m k f f' H. unfold Str. cbn [repeat]. rewrite !app_nil_r. replace (S k - m) with (k - m + 1) by lia.
  rewrite seq_app, map_app. cbn. do 3 f_equal. lia.
Qed.
Lemma Str_f : forall m k f f', Str m k f 0 = Str m k f' 0.
Proof. reflexivity. Qed.
Lemma Str_ack : forall m k f a, Str m k f (S a) = Str m k f a ++ [IOrd f].
Proof. intros. unfold Str. rewrite <- app_assoc. f_equal. change (repeat (IOrd f) (S a)) with (IOrd f :: repeat (IOrd f) a). apply repeat_cons. Qed.

(** ** the reading thread against what was sent *)
Definition goodpos (p : nat) : Prop := p <= L \/ blk (p / bs) = [].
Definition prep (s : st) (k : nat) : Prop :=
  idx s = k /\ epos s = k /\ pif s = skipto s mod bs /\ skipto s / bs <= k /\ (reof s = true -> blk k = []).
Definition fin (ce : Prop) (s : st) (req : flag) (k : nat) (f : flag) : Prop :=
  skipto s / bs <= k /\ (skipto s / bs < k -> pif s = skipto s mod bs)
  /\ ((f = Feof /\ blk k = [] /\ ce) \/ (f = req /\ req <> Fnormal /\ reof s = false)).
Definition RR (ce : Prop) (s : st) (req : flag) (k : nat) (f : flag) (a c : nat) : Prop :=
  (req <> Feof /\ goodpos (skipto s)) /\
  match pc s with
  | RInit | RThrow => False
  | RStart => a = 0 /\ c = 0 /\ k = skipto s / bs /\ flg s = req /\ ce
  | REof1 | REof2 => a = 0 /\ c = 0 /\ k = skipto s / bs /\ flg s = req /\ (req = Fnormal -> ce)
  | RStop1 => a = 0 /\ c = 0 /\ k = skipto s / bs /\ flg s = req /\ (req = Fnormal -> ce) /\ reof s = false
  | RTop => a = 0 /\ c = 0 /\
      ((ce /\ prep s k /\ (flg s = req \/ (flg s = Feof /\ reof s = true)))
       \/ (k = skipto s / bs /\ req <> Fnormal /\ flg s = req /\ reof s = false))
  | RRead => a = 0 /\ c = 0 /\ ce /\ prep s k /\ reof s = false /\ flg s = req
  | RSetEof => a = 0 /\ c = 0 /\ ce /\ prep s k /\ reof s = true /\ flg s = req
  | RSend g n => g = f /\ n + a + c = W /\ fin ce s req k f
  | RWait g => g = f /\ f <> Fdie /\ a + c = W /\ fin ce s req k f
  | REnd => f = Fdie /\ a + c = W /\ fin ce s req k f
  end.

(** the part of the block at hand already partly read *)
Definition pre_ok (pre : list item) (m : nat) : Prop :=
  pre = [] \/ exists j o, pre = [IData (blk j) o] /\ m = S j /\ o <= length (blk j) /\ blk j <> [].
Definition Lst (l q pre : list item) (m k : nat) (f : flag) (a : nat) : Prop :=
  l ++ q = pre ++ Str m k f a /\ m <= k /\ (m < k -> blk (k - 1) <> []) /\ pre_ok pre m /\ (l = [] -> pre = []).
Definition chkok (s : st) (pre : list item) (m k : nat) : Prop :=
  chk s = true -> pre = [] /\ m = skipto s / bs /\ goodpos (skipto s) /\ (lus s <> [] -> m = k).
Definition Flow (ce : Prop) (s : st) (req : flag) (pre : list item) (m k : nat) (f : flag) (a c : nat) : Prop :=
  RR ce s req k f a c /\ Lst (lus s) (fifo s) pre m k f a /\ chkok s pre m k.
(** the position of the first byte of the stream *)
Definition At (c : bool) (sk p : nat) (pre : list item) (m : nat) : Prop :=
  match pre with
  | IData b o :: _ => p = (m - 1) * bs + o
  | _ => if c then p = sk else p = Nat.min (m * bs) L
  end.

Definition same_main (s s' : st) : Prop :=
  tst s' = tst s /\ cur s' = cur s /\ lus s' = lus s /\ ign s' = ign s /\ chk s' = chk s /\ leof s' = leof s /\ skipto s' = skipto s /\ sched s' = sched s.
Lemma same_main_refl : forall s, same_main s s.
Proof. intro; repeat split. Qed.
Lemma same_main_trans : forall a b c, same_main a b -> same_main b c -> same_main a c.
Proof. unfold same_main; intros a b c H1 H2. destruct H1 as (?&?&?&?&?&?&?&?), H2 as (?&?&?&?&?&?&?&?). repeat split; congruence. Qed.

Lemma Lst_push : forall l q pre m k f f', Lst l q pre m k f 0 -> blk k <> [] -> Lst l (q ++ [D k]) pre m (S k) f' 0.
Proof.
  intros l q pre m k f f' (H1 & H2 & H3 & H4 & H5) Hk. repeat split; auto.
  - rewrite app_assoc, H1, (Str_push m k f f') by lia. rewrite app_assoc. reflexivity.
  - intros _. replace (S k - 1) with k by lia. exact Hk.
Qed.
Lemma Lst_ack : forall l q pre m k f a, Lst l q pre m k f a -> Lst l (q ++ [IOrd f]) pre m k f (S a).
Proof.
  intros l q pre m k f a (H1 & H2 & H3 & H4 & H5). repeat split; auto.
  rewrite app_assoc, H1, Str_ack, app_assoc. reflexivity.
Qed.

Ltac sp := cbn [flg skipto fifo pc idx reof pif epos tst cur lus ign chk leof sched goto with_flag with_reof push get_ready with_sched with_main] in *.

Lemma rstep_same : forall s, same_main s (rstep s).
Proof.
  intro s. unfold FetchModel.rstep, read_block. destruct (pc s) as [| | | | |g n|g| | | | |]; try apply same_main_refl; try (repeat split; fail).
  - destruct (flg s), (reof s); repeat split.
  - destruct (is_nil _); repeat split.
  - destruct n; destruct g; repeat split.
  - destruct (flg s); repeat split.
  - destruct (flg s); repeat split.
  - destruct (flg s); repeat split.
Qed.
Lemma rrun_same : forall n s, same_main s (rrun n s).
Proof. induction n as [|n IH]; intro s; cbn. - apply same_main_refl. - eapply same_main_trans; [apply rstep_same|apply IH]. Qed.

Definition RL (ce : Prop) (s : st) (req : flag) (pre : list item) (m k : nat) (f : flag) (a c : nat) : Prop :=
  RR ce s req k f a c /\ Lst (lus s) (fifo s) pre m k f a /\ True.
Lemma rstep_rl : forall ce s req pre m k f a c, RL ce s req pre m k f a c ->
  exists k' f' a', RL ce (rstep s) req pre m k' f' a' c /\ (0 < a \/ 0 < c -> f' = f /\ k' = k).
Proof.
  intros ce s req pre m k f a c ((Hq & HR) & HL & HC). pose proof (proj1 Hq) as Hq1.
  unfold RL, RR in *. unfold FetchModel.rstep. destruct (pc s) as [| | | | |g n|g| | | | |] eqn:Epc; try contradiction.
  - (* RStart *) destruct HR as (-> & -> & -> & Hf & Hce). exists (skipto s / bs), f, 0. sp. split; [|lia]. split; [split; [exact Hq|]|auto].
    split; [reflexivity|]. split; [reflexivity|]. left. split; [exact Hce|]. split; [|left; exact Hf].
    unfold prep; sp. repeat split; auto. intro E. apply Hskip. destruct (skipok (skipto s / bs)); [discriminate|reflexivity].
  - (* RTop *) destruct HR as (-> & -> & HR).
    destruct HR as [(Hce & Hp & Hf)|(Hk & Hn & Hf & Hr)].
    + destruct Hf as [Hf|(Hf & Hr)].
      * rewrite Hf. destruct req; [| |congruence|].
        -- destruct (reof s) eqn:Er; exists k, f, 0; sp; rewrite ?Epc; (split; [|lia]); (split; [split; [exact Hq|]|auto]); unfold prep in *; sp; repeat split; tauto.
        -- destruct (reof s) eqn:Er.
           ++ exists k, f, 0; sp; (split; [|lia]); (split; [split; [exact Hq|]|auto]); unfold prep in *; sp; repeat split; tauto.
           ++ exists k, Fstop, 0; sp; (split; [|lia]); split; [split; [exact Hq|]|split; auto].
              destruct Hp as (P1 & P2 & P3 & P4 & P5). split; [reflexivity|]. split; [lia|]. unfold fin; sp. repeat split; auto. right. repeat split; auto; discriminate.
        -- destruct (reof s) eqn:Er.
           ++ exists k, f, 0; sp; (split; [|lia]); (split; [split; [exact Hq|]|auto]); unfold prep in *; sp; repeat split; tauto.
           ++ exists k, Fdie, 0; sp; (split; [|lia]); split; [split; [exact Hq|]|split; auto].
              destruct Hp as (P1 & P2 & P3 & P4 & P5). split; [reflexivity|]. split; [lia|]. unfold fin; sp. repeat split; auto. right. repeat split; auto; discriminate.
      * rewrite Hf. exists k, Feof, 0; sp; (split; [|lia]); split; [split; [exact Hq|]|split; auto].
        destruct Hp as (P1 & P2 & P3 & P4 & P5). split; [reflexivity|]. split; [lia|]. unfold fin; sp. repeat split; auto.
    + rewrite Hf. subst k. destruct req; try congruence; rewrite Hr; exists (skipto s / bs); [exists Fstop|exists Fdie]; exists 0; sp; (split; [|lia]);
        (split; [split; [exact Hq|]|split; auto]);
        (split; [reflexivity|split; [lia|]]); unfold fin; sp; repeat split; try lia; right; repeat split; auto.
  - (* RRead *) destruct HR as (-> & -> & Hce & Hp & Hr & Hf). unfold read_block.
    destruct Hp as (P1 & P2 & P3 & P4 & P5). rewrite P1, P2, Nat.eqb_refl, Hbad. cbn [andb negb].
    destruct (is_nil (blk k)) eqn:En.
    + exists k, f, 0. sp. split; [|lia]. split; [split; [exact Hq|]|auto]. split; [reflexivity|]. split; [reflexivity|]. left.
      split; [exact Hce|]. split; [|left; exact Hf]. unfold prep; sp. repeat split; auto. intros _. destruct (blk k); [reflexivity|discriminate].
    + assert (Hn : blk k <> []) by (intro E; rewrite E in En; discriminate).
      exists (S k), f, 0. sp. split; [|lia]. split; [split; [exact Hq|]|split].
      * split; [reflexivity|]. split; [reflexivity|]. left. split; [exact Hce|]. split; [|left; exact Hf].
        unfold prep; sp. repeat split; auto; try lia. intro E. apply blk_short. unfold is_full in E. intro E'. rewrite E', Nat.eqb_refl in E. discriminate.
      * apply (Lst_push _ _ _ _ _ f f); auto.
      * exact I.
  - (* RSetEof *) destruct HR as (-> & -> & Hce & Hp & Hr & Hf). exists k, f, 0. sp. split; [|lia]. split; [split; [exact Hq|]|auto].
    split; [reflexivity|]. split; [reflexivity|]. left. split; [exact Hce|]. split; [|right; auto]. unfold prep in *; sp; auto.
  - (* RSend *) destruct HR as (-> & Hn & Hfin). destruct n as [|n].
    + exists k, f, a. destruct f; sp; (split; [|auto]); (split; [split; [exact Hq|]|auto]); unfold fin in *; sp; try (repeat split; try tauto; try lia; congruence).
    + exists k, f, (S a).
      split; [|auto]. sp. split; [split; [exact Hq|]|split].
      * unfold fin in *; sp. destruct Hfin as (N1 & N2 & N3). split; [reflexivity|]. split; [lia|]. auto.
      * apply Lst_ack; exact HL.
      * exact I.
  - (* RWait *) exists k, f, a. rewrite Epc. split; auto.
  - (* REof1 *) destruct HR as (-> & -> & Hk & Hf & Hce). exists k, f, 0. rewrite Hf. split; [|lia].
    destruct req; [| |congruence|]; sp; (split; [split; [exact Hq|]|auto]); repeat split; auto.
  - (* REof2 *) destruct HR as (-> & -> & Hk & Hf & Hce). exists k, f, 0. rewrite Hf. split; [|lia].
    destruct req; [| |congruence|]; sp; (split; [split; [exact Hq|]|auto]); (split; [reflexivity|]); (split; [reflexivity|]).
    + left. split; [auto|]. split; [|left; exact Hf]. unfold prep; sp. subst k. repeat split; auto; intro; discriminate.
    + right. repeat split; auto; discriminate.
    + right. repeat split; auto; discriminate.
  - (* RStop1 *) destruct HR as (-> & -> & Hk & Hf & Hce & Hr). exists k, f, 0. rewrite Hf. split; [|lia].
    destruct req; [| |congruence|]; sp; (split; [split; [exact Hq|]|auto]); (split; [reflexivity|]); (split; [reflexivity|]).
    + left. split; [auto|]. split; [|left; exact Hf]. unfold prep; sp. subst k. repeat split; auto.
      intro E. apply Hskip. destruct (skipok (skipto s / bs)); [discriminate|reflexivity].
    + right. repeat split; auto; discriminate.
    + right. repeat split; auto; discriminate.
  - (* REnd *) exists k, f, a. rewrite Epc. split; auto.
Qed.
Lemma rstep_fifo : forall s, exists x, fifo (rstep s) = fifo s ++ x.
Proof.
  intro s. unfold FetchModel.rstep, read_block. destruct (pc s) as [| | | | |g n0|g| | | | |]; try (exists []; rewrite app_nil_r; reflexivity).
  - exists []; rewrite app_nil_r; destruct (flg s), (reof s); reflexivity.
  - destruct (is_nil _); [exists []; rewrite app_nil_r; reflexivity|eexists; reflexivity].
  - destruct n0; [exists []; rewrite app_nil_r; destruct g; reflexivity|eexists; destruct g; reflexivity].
  - exists []; rewrite app_nil_r; destruct (flg s); reflexivity.
  - exists []; rewrite app_nil_r; destruct (flg s); reflexivity.
  - exists []; rewrite app_nil_r; destruct (flg s); reflexivity.
Qed.
Lemma rrun_fifo : forall n s, exists x, fifo (rrun n s) = fifo s ++ x.
Proof.
  induction n as [|n IH]; intro s; cbn. { exists []. rewrite app_nil_r. reflexivity. }
  destruct (IH (rstep s)) as (y & ->). destruct (rstep_fifo s) as (x & ->). exists (x ++ y). rewrite app_assoc. reflexivity.
Qed.
Lemma rrun_rl : forall n ce s req pre m k f a c, RL ce s req pre m k f a c ->
  exists k' f' a', RL ce (rrun n s) req pre m k' f' a' c /\ (0 < a \/ 0 < c -> f' = f /\ k' = k /\ a <= a').
Proof.
  induction n as [|n IH]; intros ce s req pre m k f a c H; cbn.
  - exists k, f, a; auto.
  - destruct (rstep_rl _ _ _ _ _ _ _ _ _ H) as (k1 & f1 & a1 & H1 & E1).
    destruct (IH _ _ _ _ _ _ _ _ _ H1) as (k2 & f2 & a2 & H2 & E2). exists k2, f2, a2. split; auto.
    intros Ha. destruct (E1 Ha) as (-> & ->).
    assert (Hle : a <= a1).
    { (* the number of orders under way never decreases *)
      destruct H as (_ & (HL & _) & _), H1 as (_ & (HL1 & _) & _).
      pose proof (rstep_same s) as Hs. destruct Hs as (_ & _ & Hl & _). rewrite Hl in HL1.
      pose proof (rstep_fifo s) as G.
      destruct G as (x & G). rewrite G, app_assoc, HL in HL1.
      apply (f_equal (@length _)) in HL1. unfold Str in HL1. rewrite !app_length, !map_length, !seq_length, !repeat_length in HL1. lia. }
    destruct E2 as (-> & -> & Hle2); [lia|]. repeat split; lia.
Qed.

Lemma rrun_flow : forall n ce s req pre m k f a c, Flow ce s req pre m k f a c ->
  exists k' f' a', Flow ce (rrun n s) req pre m k' f' a' c /\ (0 < a \/ 0 < c -> f' = f /\ k' = k /\ a <= a').
Proof.
  intros n ce s req pre m k f a c (H1 & H2 & H3).
  destruct (rrun_rl n ce s req pre m k f a c (conj H1 (conj H2 I))) as (k' & f' & a' & (G1 & G2 & _) & Hk). exists k', f', a'. split; [|exact Hk].
  split; [exact G1|]. split; [exact G2|]. destruct (rrun_same n s) as (E1&E2&E3&E4&E5&E6&E7&E8). intro E. rewrite E5 in E. rewrite E3, E7.
  destruct (H3 E) as (C1 & C2 & C3 & C4). repeat split; auto. intro Hl. assert (Emk : m = k) by auto. 
  destruct H2 as (L1 & _). rewrite C1, Emk, Str_nil in L1. cbn in L1. destruct a as [|a]; [destruct (lus s); [contradiction|discriminate]|].
  destruct Hk as (_ & -> & _); [lia|exact Emk].
Qed.

(** ** the reading thread at rest *)
Definition Quiet (s : st) : Prop :=
  fifo s = [] /\ goodpos (skipto s) /\
  match pc s with
  | RInit => True
  | RWait Fstop | RSend Fstop O => reof s = false
  | RWait Feof | RSend Feof O => True
  | _ => False
  end.
Lemma rstep_quiet : forall s, Quiet s -> Quiet (rstep s).
Proof.
  intros s (H2 & H1 & H3). unfold Quiet, FetchModel.rstep. destruct (pc s) as [| | | | |g n|g| | | | |] eqn:E; try contradiction.
  - rewrite E; auto.
  - destruct g; try contradiction; destruct n; try contradiction; sp; auto.
  - rewrite E; auto.
Qed.
Lemma rrun_quiet : forall n s, Quiet s -> Quiet (rrun n s).
Proof. induction n as [|n IH]; intros s H; cbn; auto. apply IH, rstep_quiet, H. Qed.
Lemma flow_quiet : forall ce s req k f, RR ce s req k f 0 W -> fifo s = [] -> f <> Fdie -> Quiet s.
Proof.
  intros ce s req k f (Hq & HR) H2 Hf. unfold Quiet. split; [auto|]. split; [apply Hq|].
  destruct (pc s) as [| | | | |g n|g| | | | |]; try contradiction; try lia.
  - destruct HR as (-> & Hn & (_ & _ & HF)). assert (n = 0) by lia. subst n.
    destruct f; auto; try congruence; destruct HF as [(E & _)|(E & E2 & E3)]; try discriminate; subst; try congruence; auto.
  - destruct HR as (-> & _ & Hn & (_ & _ & HF)).
    destruct f; auto; try congruence; destruct HF as [(E & _)|(E & E2 & E3)]; try discriminate; subst; try congruence; auto.
  - destruct HR as (-> & _). congruence.
Qed.
Lemma flow_dead : forall ce s req k f, RR ce s req k f 0 W -> f = Fdie -> pc s = REnd \/ pc s = RSend Fdie 0.
Proof.
  intros ce s req k f (Hq & HR) ->.
  destruct (pc s) as [| | | | |g n|g| | | | |]; try contradiction; try lia; auto.
  - destruct HR as (-> & Hn & _). assert (n = 0) by lia. subst n; auto.
  - destruct HR as (-> & Hn & _). congruence.
Qed.

(** what the main thread sees after some steps of the other thread *)
Definition upto (s s' : st) : Prop :=
  tst s' = tst s /\ cur s' = cur s /\ ign s' = ign s /\ leof s' = leof s.

Notation tick := (tick W bs F bad skipok).
Notation wait := (wait W bs F bad skipok).
Notation gather := (gather W bs F bad skipok).
Notation set_flag := (set_flag W bs F bad skipok).
Notation set_pos := (set_pos W bs F bad skipok).
Notation go_read := (go_read W bs F bad skipok).
Notation read_refill := (read_refill W bs F bad skipok).

Lemma tick_safe : forall s, safe (tick s) (fun _ s' => exists n l, s' = rrun n (with_sched l s)).
Proof. intro s. unfold FetchModel.tick, safe. destruct (sched s) as [|(n, k) r]; cbn; auto. exists n, r; reflexivity. Qed.
Lemma sched_flow : forall l ce s req pre m k f a c, Flow ce s req pre m k f a c -> Flow ce (with_sched l s) req pre m k f a c.
Proof. intros l ce s req pre m k f a c H. exact H. Qed.
Lemma sched_quiet : forall l s, Quiet s -> Quiet (with_sched l s).
Proof. intros l s H. exact H. Qed.
Lemma rrun_sched_same : forall n l s, let s' := rrun n (with_sched l s) in
  tst s' = tst s /\ cur s' = cur s /\ lus s' = lus s /\ ign s' = ign s /\ chk s' = chk s /\ leof s' = leof s /\ skipto s' = skipto s.
Proof. intros n l s s'. destruct (rrun_same n (with_sched l s)) as (?&?&?&?&?&?&?&?). repeat split; assumption. Qed.

(** waking the reading thread up: it is at rest, and ready to produce the stream that begins at its [skip_to] *)
Lemma wait_safe : forall l s req, Quiet s -> flg s = req -> req <> Feof -> goodpos (skipto s) ->
  safe (wait_from W bs F bad skipok l s) (fun _ s' =>
    upto s s' /\ skipto s' = skipto s /\ lus s' = lus s /\ chk s' = chk s /\
    exists f, RR (req = Fnormal \/ pc s = RInit) s' req (skipto s / bs) f 0 0 /\ fifo s' = []).
Proof.
  induction l as [|(n, x) r IH]; intros s req HQ Hf Hr Hg; cbn; [reflexivity|].
  pose proof (rrun_quiet n s HQ) as HQ'. destruct (rrun_same n s) as (E1&E2&E3&E4&E5&E6&E7&E8).
  assert (Ef : flg (rrun n s) = req).
  { clear - HQ Hf. revert s HQ Hf. induction n as [|n IH]; intros s HQ Hf; cbn; auto. apply IH; [apply rstep_quiet; exact HQ|].
    destruct HQ as (_ & _ & HQ). unfold FetchModel.rstep. destruct (pc s) as [| | | | |g k|g| | | | |]; try contradiction; auto.
    destruct g; try contradiction; destruct k; try contradiction; auto. }
  assert (Ei : pc (rrun n s) = RInit -> pc s = RInit).
  { clear - HQ. revert s HQ. induction n as [|n IH]; intros s HQ; cbn; auto. intro E. apply IH in E; [|apply rstep_quiet; exact HQ].
    destruct HQ as (_ & _ & HQ). unfold FetchModel.rstep in E. destruct (pc s) as [| | | | |g k|g| | | | |] eqn:Ep; try contradiction; sp; try congruence.
    destruct g; try contradiction; destruct k; try contradiction; discriminate. }
  destruct (released (pc (rrun n s))) as [p|] eqn:Er.
  - apply safe_ok. sp. destruct HQ' as (Q2 & Qg & Q3). rewrite E7. split; [repeat split; sp; congruence|]. split; [congruence|]. split; [exact E3|].
    split; [exact E5|]. exists Fstop. split; [|exact Q2].
    split; [split; [exact Hr|sp; exact Qg]|]. sp.
    destruct (pc (rrun n s)) as [| | | | |g k|g| | | | |] eqn:Ep; try discriminate Er; cbn in Er.
    + injection Er as <-. rewrite E7. repeat split; auto.
    + destruct g; try discriminate Er; injection Er as <-; rewrite E7; repeat split; auto.
  - assert (Eb : blocked (pc (rrun n s)) = false).
    { destruct HQ' as (_ & _ & Q3). destruct (pc (rrun n s)) as [| | | | |g k|g| | | | |]; try contradiction; try discriminate Er; auto; destruct g; try contradiction; discriminate Er. }
    rewrite Eb. apply (safe_weak _ _ _ _ (IH (rrun n s) req HQ' Ef Hr (eq_ind_r goodpos Hg E7))).
    intros _ s' (U & S1 & S2 & S3 & f & HR & HF). split.
    { destruct U as (U1&U2&U3&U4). repeat split; congruence. }
    split; [congruence|]. split; [congruence|]. split; [congruence|]. exists f. rewrite E7 in HR. split; [|exact HF].
    assert (HR' : RR (req = Fnormal \/ pc (rrun n s) = RInit) s' req (skipto s / bs) f 0 0 -> RR (req = Fnormal \/ pc s = RInit) s' req (skipto s / bs) f 0 0).
    { clear - Ei. intros (H1 & H2). split; auto. assert (G : (req = Fnormal \/ pc (rrun n s) = RInit) -> (req = Fnormal \/ pc s = RInit)) by tauto.
      destruct (pc s') as [| | | | |g k|g| | | | |]; unfold fin in *; tauto. }
    auto.
Qed.

Lemma Lst_start : forall m f, Lst [] [] [] m m f 0.
Proof. intros m f. repeat split; auto; try lia. - rewrite Str_nil. reflexivity. - left; reflexivity. Qed.

Lemma mkflow : forall ce s req m f, RR ce s req m f 0 0 -> lus s = [] -> fifo s = [] -> skipto s / bs = m -> goodpos (skipto s) -> Flow ce s req [] m m f 0 0.
Proof.
  intros ce s req m f HR H1 H2 H3 H4. split; [exact HR|]. rewrite H1, H2. split; [apply Lst_start|]. intros _. auto.
Qed.
Lemma go_read_quiet : forall s, Quiet s -> tst s = Suspended -> goodpos (cur s) ->
  safe (go_read s) (fun _ s' => tst s' = Running /\ cur s' = cur s /\ ign s' = ign s /\ leof s' = leof s /\ chk s' = true /\ lus s' = lus s /\ skipto s' = cur s /\
    fifo s' = [] /\ exists f, RR True s' Fnormal (cur s / bs) f 0 0).
Proof.
  intros s HQ Ht Hg. unfold FetchModel.go_read. rewrite bind_get, Ht, bind_get.
  eapply safe_bind with (Q := fun _ s' => Quiet s' /\ cur s' = cur s /\ ign s' = ign s /\ leof s' = leof s /\ skipto s' = cur s /\ lus s' = lus s).
  { unfold FetchModel.set_pos. eapply safe_bind; [apply tick_safe|]. cbv beta. intros _ s' (n & l & ->). apply safe_ok. sp.
    destruct (rrun_sched_same n l s) as (E1&E2&E3&E4&E5&E6&E7).
    pose proof (rrun_quiet n _ (sched_quiet l s HQ)) as HQ'. repeat split; auto; apply HQ'. }
  intros _ s1 (Q1 & C1 & I1 & L1 & K1 & S1).
  eapply safe_bind with (Q := fun _ s' => Quiet s' /\ cur s' = cur s /\ ign s' = ign s /\ leof s' = leof s /\ skipto s' = cur s /\ flg s' = Fnormal /\ lus s' = lus s).
  { unfold FetchModel.set_flag. eapply safe_bind; [apply tick_safe|]. cbv beta. intros _ s' (n & l & ->). apply safe_ok. sp.
    destruct (rrun_sched_same n l s1) as (E1&E2&E3&E4&E5&E6&E7).
    pose proof (rrun_quiet n _ (sched_quiet l s1 Q1)) as HQ'. repeat split; try congruence; apply HQ'. }
  intros _ s2 (Q2 & C2 & I2 & L2 & K2 & F2 & S2).
  eapply safe_bind. { unfold FetchModel.wait. apply (wait_safe (sched s2) s2 Fnormal Q2 F2); [discriminate|rewrite K2; exact Hg]. }
  intros _ s3 (U & Z1 & Z2 & Z3 & f & HR & HF). unfold bindM, set_tst, set_chk, ret. apply safe_ok. sp.
  destruct U as (U1&U2&U3&U4). repeat split; try congruence. exists f.
  rewrite <- K2. destruct HR as (H1 & H2). split; [exact H1|]. sp. destruct (pc s3); unfold prep, fin in *; sp; tauto.
Qed.

(** ** gathering *)
Lemma gather_safe : forall l ce s req m k f a c, Flow ce s req [] m k f a c -> lus s = [] -> c < W ->
  safe (gather_from W bs F bad skipok l s) (fun _ s' => upto s s' /\ chk s' = chk s /\ skipto s' = skipto s /\ lus s' <> [] /\
    exists k' f' a', RR ce s' req k' f' a' c /\ Lst (lus s') (fifo s') [] m k' f' a' /\ (0 < a \/ 0 < c -> f' = f /\ k' = k /\ a <= a')
                     /\ (chk s' = true -> m = skipto s' / bs /\ goodpos (skipto s'))).
Proof.
  induction l as [|(n, x) r IH]; intros ce s req m k f a c HF Hl Hw; cbn; [reflexivity|].
  destruct (rrun_flow n _ _ _ _ _ _ _ _ _ HF) as (k' & f' & a' & HF' & Hk).
  destruct (rrun_same n s) as (E1&E2&E3&E4&E5&E6&E7&E8).
  destruct (fifo (rrun n s)) as [|i q] eqn:Eq.
  - assert (Hl' : lus (rrun n s) = []) by congruence.
    assert (Eb : blocked (pc (rrun n s)) = false).
    { destruct HF' as ((_ & HR') & (HL' & _) & _). rewrite Hl', Eq in HL'. cbn in HL'. symmetry in HL'. apply app_eq_nil in HL'. destruct HL' as (_ & HL').
      assert (a' = 0) by (destruct a'; [reflexivity|discriminate]). subst a'.
      destruct (pc (rrun n s)); try contradiction; auto; exfalso; [destruct HR' as (_ & _ & X & _)|destruct HR' as (_ & X & _)]; lia. }
    rewrite Eb.
    apply (safe_weak _ _ _ _ (IH _ _ _ _ _ _ _ _ HF' Hl' Hw)).
    intros _ s' ((U1&U2&U3&U4) & S1 & S2 & S3 & k2 & f2 & a2 & HR & HL & Hk2 & HC). split; [repeat split; congruence|].
    split; [congruence|]. split; [congruence|]. split; auto. exists k2, f2, a2. split; [exact HR|]. split; [exact HL|]. split; [|exact HC].
    intro Ha. destruct (Hk Ha) as (-> & -> & Hle). destruct Ha as [Ha|Ha]; [|destruct Hk2 as (-> & -> & Hle2); [auto|repeat split; lia]]. exfalso.
    destruct (rrun_fifo n s) as (y & G). rewrite Eq in G. symmetry in G. apply app_eq_nil in G. destruct G as (G & _).
    destruct HF as (_ & (HL0 & _) & _). rewrite Hl, G in HL0. cbn in HL0. symmetry in HL0. apply app_eq_nil in HL0. destruct HL0 as (_ & HL0).
    destruct a; [lia|discriminate].
  - apply safe_ok. sp. destruct HF' as (HR & HL & HC). split; [repeat split; sp; congruence|]. split; [congruence|]. split; [congruence|].
    split; [cbn; discriminate|]. exists k', f', a'. split; [|split; [|split; [exact Hk|]]].
    + destruct HR as (H1 & H2). split; [exact H1|]. sp. destruct (pc (rrun n s)); unfold prep, fin in *; sp; tauto.
    + destruct HL as (H1 & H2 & H3 & H4 & H5). repeat split; auto. cbn [app]. rewrite firstn_skipn. rewrite <- Eq. rewrite E3, Hl in H1. exact H1.
    + intro E. destruct (HC E) as (C1 & C2 & C3 & _). auto.
Qed.

(** the first element at hand *)
Lemma head_data : forall b o r q pre m k f a, Lst (IData b o :: r) q pre m k f a ->
  exists j, b = blk j /\ o <= length (blk j) /\ blk j <> [] /\ j < k /\ Lst r q [] (S j) k f a /\
    ((pre = [] /\ m = j /\ o = 0) \/ (pre = [IData b o] /\ m = S j)) /\ (forall sk p, At false sk p pre m -> p = j * bs + o).
Proof.
  intros b o r q pre m k f a (H1 & H2 & H3 & H4 & H5). destruct H4 as [->|(j & o' & -> & -> & Ho & Hj)].
  - cbn in H1. destruct (Nat.eq_dec m k) as [->|Hn].
    + rewrite Str_nil in H1. destruct a; discriminate.
    + rewrite Str_cons in H1 by lia. injection H1 as E1 E2 E3. subst b o. exists m.
      assert (Hb : blk m <> []) by (apply (blk_down m (k - 1)); [lia|apply H3; lia]).
      split; [reflexivity|]. split; [lia|]. split; [exact Hb|]. split; [lia|]. split; [|split].
      * repeat split; auto; try lia. { intro. apply H3. lia. } left; reflexivity.
      * left; auto.
      * intros sk p E. cbn in E. apply blk_nn in Hb. lia.
  - cbn in H1. injection H1 as E1 E2 E3. subst b o. exists j. split; [reflexivity|]. split; [exact Ho|]. split; [exact Hj|]. split; [lia|]. split; [|split].
    + repeat split; auto. left; reflexivity.
    + right; auto.
    + intros sk p E. cbn in E. lia.
Qed.
Lemma cons_data : forall j o r q k f a, Lst r q [] (S j) k f a -> o <= length (blk j) -> blk j <> [] ->
  Lst (IData (blk j) o :: r) q [IData (blk j) o] (S j) k f a.
Proof.
  intros j o r q k f a (H1 & H2 & H3 & H4 & H5) Ho Hj. repeat split; auto.
  - cbn. rewrite H1. reflexivity.
  - right. exists j, o. auto.
  - discriminate.
Qed.
Lemma head_ord : forall g r q pre m k f a, Lst (IOrd g :: r) q pre m k f a ->
  g = f /\ pre = [] /\ m = k /\ exists a', a = S a' /\ Lst r q [] k k f a'.
Proof.
  intros g r q pre m k f a (H1 & H2 & H3 & H4 & H5). destruct H4 as [->|(j & o' & -> & -> & Ho & Hj)]; [|discriminate].
  cbn in H1. destruct (Nat.eq_dec m k) as [->|Hn].
  - rewrite Str_nil in H1. destruct a as [|a]; [discriminate|]. injection H1 as E1 E2. split; [auto|]. split; [reflexivity|]. split; [reflexivity|].
    exists a. split; [reflexivity|]. repeat split; auto; try lia. { rewrite Str_nil. exact E2. } left; reflexivity.
  - rewrite Str_cons in H1 by lia. discriminate.
Qed.
Lemma head_bad : forall r q pre m k f a, ~ Lst (IBad :: r) q pre m k f a.
Proof.
  intros r q pre m k f a (H1 & H2 & H3 & H4 & H5). destruct H4 as [->|(j & o' & -> & -> & Ho & Hj)]; [|discriminate].
  cbn in H1. destruct (Nat.eq_dec m k) as [->|Hn]; [rewrite Str_nil in H1; destruct a; discriminate|]. rewrite Str_cons in H1 by lia. discriminate.
Qed.
(** when the first block of a stream is at hand, the reading thread has its pos_in_flow right *)
Lemma RR_pif : forall ce s req k f a c, RR ce s req k f a c -> skipto s / bs < k -> pif s = skipto s mod bs.
Proof.
  intros ce s req k f a c (Hq & HR) Hk. destruct (pc s) as [| | | | |g n|g| | | | |]; unfold prep, fin in *; try tauto; try lia.
Qed.
Lemma set_lus_RR : forall ce s req k f a c t cu l i ck e, RR ce s req k f a c -> RR ce (with_main t cu l i ck e s) req k f a c.
Proof. intros ce s req k f a c t cu l i ck e (H1 & H2). split; [exact H1|]. sp. destruct (pc s); unfold prep, fin in *; sp; tauto. Qed.

Lemma refill_tail : forall ce s s1 req m k1 f1 a1 c, RR ce s1 req k1 f1 a1 c -> Lst (lus s1) (fifo s1) [] m k1 f1 a1 -> lus s1 <> [] ->
  upto s s1 -> chk s1 = chk s -> skipto s1 = skipto s -> (chk s1 = true -> m = skipto s1 / bs /\ goodpos (skipto s1)) ->
  safe ((match lus s1, chk s1 with
    | IData b o :: r, true =>
      bindM tick (fun _ => bindM (get pif) (fun p => bindM (set_chk false) (fun _ =>
        if p =? 0 then ret tt else if p <=? length b then set_lus (IData b p :: r) else fail Ebug)))
    | [], _ => fail Ebug
    | _, _ => ret tt
    end) s1) (fun _ s' => upto s s' /\ lus s' <> [] /\ skipto s' = skipto s /\
    exists pre' m' k' f' a', Flow ce s' req pre' m' k' f' a' c /\ (0 < a1 \/ 0 < c -> f' = f1 /\ k' = k1 /\ a1 <= a')
      /\ (forall p, At (chk s) (skipto s) p [] m -> At (chk s') (skipto s') p pre' m')
      /\ (chk s = false -> pre' = [] /\ chk s' = false)
      /\ ((pre' = [] /\ m' = m) \/ (m' = S m /\ m < k'))).
Proof.
  intros ce s s1 req m k1 f1 a1 c HR HL N1 U C1 K1 HC.
  destruct (lus s1) as [|i r] eqn:El1; [contradiction|].
  destruct i as [b o| |g]; [|exfalso; eapply head_bad; exact HL|].
  2:{ unfold ret; apply safe_ok; split; [exact U|]; split; [congruence|]; split; [exact K1|]; exists [], m, k1, f1, a1.
      split. { split; [exact HR|]; rewrite El1; split; [exact HL|]; intro E. destruct (HC E) as (M1 & M2).
               split; [reflexivity|]; split; [exact M1|]; split; [exact M2|]; intros _; apply head_ord in HL; tauto. }
      split; [auto|]. split; [intros p; rewrite C1, K1; auto|]. split; [intros Ec; split; [reflexivity|congruence]|]. left; auto. }
  destruct (head_data _ _ _ _ _ _ _ _ _ HL) as (j & -> & Ho & Hj & Hjk & HL2 & Hsh & Hat).
  destruct Hsh as [(_ & <- & ->)|(X & _)]; [|discriminate X].
  destruct (chk s1) eqn:Ec1.
  - eapply safe_bind; [apply tick_safe|]; cbv beta; intros _ s2 (n & l & ->); rewrite bind_get.
    destruct (HC eq_refl) as (M1 & M2).
    destruct (rrun_sched_same n l s1) as (E1&E2&E3&E4&E5&E6&E7).
    assert (HL' : Lst (lus s1) (fifo s1) [] m k1 f1 a1) by (rewrite El1; exact HL).
    destruct (rrun_rl n ce (with_sched l s1) req [] m k1 f1 a1 c (conj HR (conj HL' I))) as (k2 & f2 & a2 & (G1 & G2 & _) & Hk).
    rewrite E3, El1 in G2.
    destruct (head_data _ _ _ _ _ _ _ _ _ G2) as (j2 & Ej & _ & _ & Hjk2 & G3 & Hsh2 & _).
    destruct Hsh2 as [(_ & <- & _)|(X & _)]; [|discriminate X]. clear Ej.
    rewrite (RR_pif _ _ _ _ _ _ _ G1) by (rewrite E7; lia). rewrite E7.
    unfold bindM, set_chk. destruct U as (U1&U2&U3&U4).
    destruct (Nat.eqb_spec (skipto s1 mod bs) 0) as [Ez|Ez].
    + unfold ret. apply safe_ok. sp. split; [repeat split; sp; congruence|]. split; [congruence|]. split; [congruence|].
      exists [], m, k2, f2, a2. split; [split; [apply set_lus_RR; exact G1|]; sp; split; [rewrite E3, El1; exact G2|intro; discriminate]|].
      split; [exact Hk|]. split; [|split; [intro; congruence|left; auto]].
      intros p. cbn. rewrite <- C1, <- K1. intros ->. apply blk_nn in Hj. pose proof (Nat.div_mod (skipto s1) bs ltac:(lia)). nia.
    + destruct M2 as [M2|M2]; [|rewrite <- M1 in M2; contradiction].
      pose proof (Nat.div_mod (skipto s1) bs ltac:(lia)) as DM. pose proof (Nat.mod_upper_bound (skipto s1) bs ltac:(lia)) as MB. rewrite <- M1 in DM.
      assert (Hle : skipto s1 mod bs <= length (blk m)) by (rewrite blk_len; nia).
      destruct (Nat.leb_spec (skipto s1 mod bs) (length (blk m))) as [_|X]; [|lia].
      unfold set_lus. apply safe_ok. sp. split; [repeat split; sp; congruence|]. split; [discriminate|]. split; [congruence|].
      exists [IData (blk m) (skipto s1 mod bs)], (S m), k2, f2, a2.
      split; [split; [do 2 apply set_lus_RR; exact G1|]; sp; split; [apply cons_data; auto|intro; discriminate]|].
      split; [exact Hk|]. split; [|split; [intro; congruence|right; auto]].
      intros p. cbn. rewrite <- C1, <- K1. intros ->. nia.
  - unfold ret. apply safe_ok. split; [exact U|]. split; [congruence|]. split; [exact K1|]. exists [], m, k1, f1, a1.
    split; [split; [exact HR|]; rewrite El1; split; [exact HL|]; intro; congruence|].
    split; [auto|]. split; [intros p; rewrite K1, Ec1, C1; auto|]. split; [intros _; split; [reflexivity|exact Ec1]|]. left; auto.
Qed.
Lemma read_refill_safe : forall ce s req pre m k f a c, Flow ce s req pre m k f a c -> tst s <> Dead -> c < W ->
  safe (read_refill s) (fun _ s' => upto s s' /\ lus s' <> [] /\ skipto s' = skipto s /\
    exists pre' m' k' f' a', Flow ce s' req pre' m' k' f' a' c /\ (0 < a \/ 0 < c -> f' = f /\ k' = k /\ a <= a')
      /\ (forall p, At (chk s) (skipto s) p pre m -> At (chk s') (skipto s') p pre' m')
      /\ (chk s = false -> pre = [] -> pre' = [] /\ chk s' = false)
      /\ (pre = [] -> (pre' = [] /\ m' = m) \/ (m' = S m /\ m < k'))
      /\ (lus s <> [] -> s' = s)).
Proof.
  intros ce s req pre m k f a c HF Ht Hw. unfold FetchModel.read_refill. rewrite !bind_get.
  destruct (lus s) as [|i r] eqn:El.
  2:{ unfold ret. apply safe_ok. split; [repeat split|]. split; [congruence|]. split; [reflexivity|]. exists pre, m, k, f, a.
      split; [exact HF|]. split; [auto|]. split; [auto|]. split; [auto|]. split; [auto|]. auto. }
  assert (Hp : pre = []) by (destruct HF as (_ & (_ & _ & _ & _ & HF) & _); exact (HF El)). subst pre.
  assert (G : safe (bindM gather (fun _ => bindM (get lus) (fun l => bindM (get chk) (fun c0 => match l, c0 with
    | IData b o :: r, true =>
      bindM tick (fun _ => bindM (get pif) (fun p => bindM (set_chk false) (fun _ =>
        if p =? 0 then ret tt else if p <=? length b then set_lus (IData b p :: r) else fail Ebug)))
    | [], _ => fail Ebug
    | _, _ => ret tt
    end))) s) (fun _ s' => upto s s' /\ lus s' <> [] /\ skipto s' = skipto s /\
    exists pre' m' k' f' a', Flow ce s' req pre' m' k' f' a' c /\ (0 < a \/ 0 < c -> f' = f /\ k' = k /\ a <= a')
      /\ (forall p, At (chk s) (skipto s) p [] m -> At (chk s') (skipto s') p pre' m')
      /\ (chk s = false -> pre' = [] /\ chk s' = false)
      /\ ((pre' = [] /\ m' = m) \/ (m' = S m /\ m < k')))).
  { eapply safe_bind; [unfold FetchModel.gather; apply (gather_safe (sched s) _ _ _ _ _ _ _ _ HF El Hw)|].
    intros _ s1 (U & C1 & K1 & N1 & k1 & f1 & a1 & HR & HL & Hk & HC). rewrite !bind_get.
    apply (safe_weak _ _ _ _ (refill_tail ce s s1 req m k1 f1 a1 c HR HL N1 U C1 K1 HC)).
    intros _ s' (V1 & V2 & V3 & pre' & m' & k' & f' & a' & W1 & W2 & W3 & W4 & W5). split; [exact V1|]. split; [exact V2|]. split; [exact V3|].
    exists pre', m', k', f', a'. split; [exact W1|]. split; [|auto].
    intro Ha. destruct (Hk Ha) as (-> & -> & Hle). destruct W2 as (-> & -> & Hle2); [lia|]. repeat split; lia. }
  destruct (tst s) eqn:Et; [| |congruence]; (apply (safe_weak _ _ _ _ G); intros _ s' (V1 & V2 & V3 & pre' & m' & k' & f' & a' & W1 & W2 & W3 & W4 & W5);
    split; [exact V1|]; split; [exact V2|]; split; [exact V3|]; exists pre', m', k', f', a'; split; [exact W1|]; split; [exact W2|]; split; [exact W3|]; split; [intros X _; exact (W4 X)|]; split; [intros _; exact W5|]; intro X; exfalso; apply X; reflexivity).
Qed.

(** ** looking for an offset in the blocks at hand *)
Definition nodata (l : list item) : Prop := match l with IData _ _ :: _ => False | _ => True end.
Lemma find_spec : forall pos l q p pre m k f a sk fd p' l', Lst l q pre m k f a -> At false sk p pre m -> find_loop pos l p = (fd, p', l') ->
  exists pre' m', Lst l' q pre' m' k f a /\ At false sk p' pre' m' /\ (fd = true -> p' = pos) /\
    (fd = false -> (l' = l /\ p' = p /\ pos < p /\ pre' = pre /\ m' = m) \/ nodata l').
Proof.
  intros pos l. induction l as [|i r IH]; intros q p pre m k f a sk fd p' l' HL HA E.
  - cbn in E. injection E as <- <- <-. exists pre, m. repeat split; auto; try discriminate; try apply HL. right. exact I.
  - destruct i as [b o| |g]; [|exfalso; eapply head_bad; exact HL|].
    + destruct (head_data _ _ _ _ _ _ _ _ _ HL) as (j & -> & Ho & Hj & Hjk & HL2 & Hsh & Hat).
      pose proof (Hat sk p HA) as Ep. cbn [find_loop] in E.
      destruct (Nat.ltb_spec pos p) as [H1|H1].
      * destruct (Nat.leb_spec p (pos + o)) as [H2|H2].
        -- injection E as <- <- <-. exists [IData (blk j) (o - (p - pos))], (S j). split; [apply cons_data; auto; lia|]. split; [cbn; lia|].
           split; [auto|discriminate].
        -- injection E as <- <- <-. exists pre, m. split; [exact HL|]. split; [exact HA|]. split; [discriminate|]. left; auto.
      * destruct (Nat.ltb_spec pos (p + (length (blk j) - o))) as [H2|H2].
        -- injection E as <- <- <-. exists [IData (blk j) (o + pos - p)], (S j). split; [apply cons_data; auto; lia|]. split; [cbn; lia|].
           split; [auto|discriminate].
        -- assert (HA2 : At false sk (p + (length (blk j) - o)) [] (S j)).
           { cbn [At]. rewrite <- (blk_end j Hj). lia. }
           destruct ((p + (length (blk j) - o) =? pos) && negb (is_nil r)) eqn:Eb.
           ++ injection E as <- <- <-. apply andb_true_iff in Eb. destruct Eb as (Eb & _). apply Nat.eqb_eq in Eb.
              exists [], (S j). split; [exact HL2|]. split; [exact HA2|]. split; [auto|discriminate].
           ++ destruct (IH q _ [] (S j) k f a sk fd p' l' HL2 HA2 E) as (pre' & m' & G1 & G2 & G3 & G4).
              exists pre', m'. split; [exact G1|]. split; [exact G2|]. split; [exact G3|]. intro Ef. right.
              destruct (G4 Ef) as [(-> & -> & X & _)|G5]; [lia|exact G5].
    + cbn in E. injection E as <- <- <-. exists pre, m. split; [exact HL|]. split; [exact HA|]. split; [discriminate|]. right; exact I.
Qed.
Lemma find_safe : forall pos s ce req pre m k f a c, Flow ce s req pre m k f a c -> At (chk s) (skipto s) (cur s) pre m ->
  safe (find_offset pos s) (fun fd s' => tst s' = tst s /\ ign s' = ign s /\ leof s' = leof s /\ chk s' = chk s /\ skipto s' = skipto s /\
    exists pre' m', Flow ce s' req pre' m' k f a c /\ At (chk s') (skipto s') (cur s') pre' m' /\ (fd = true -> cur s' = pos) /\
    (fd = false -> (s' = s /\ pos < cur s /\ (lus s <> [] -> chk s = false)) \/ nodata (lus s'))).
Proof.
  intros pos s ce req pre m k f a c (HR & HL & HC) HA. unfold find_offset.
  destruct (chk s) eqn:Ec.
  - destruct (HC Ec) as (-> & C2 & C3 & C4).
    assert (Hn : nodata (lus s)).
    { destruct (lus s) as [|[b o| |g] r] eqn:El; cbn; auto. destruct (head_data _ _ _ _ _ _ _ _ _ HL) as (j & _ & _ & _ & Hjk & _ & [(_ & X & _)|(X & _)] & _); [|discriminate].
      assert (m = k) by (apply C4; discriminate). lia. }
    assert (E : find_loop pos (lus s) (cur s) = (false, cur s, lus s)).
    { destruct (lus s) as [|[b o| |g] r]; cbn in *; auto. contradiction. }
    rewrite E. apply safe_ok. sp. repeat split; auto. exists [], m. split; [|split; [|split; [discriminate|right; exact Hn]]].
    + split; [apply set_lus_RR; exact HR|]. sp. split; [exact HL|]. intro. sp. auto.
    + sp. exact HA.
  - destruct (find_loop pos (lus s) (cur s)) as ((fd, p'), l') eqn:E.
    destruct (find_spec pos (lus s) (fifo s) (cur s) pre m k f a (skipto s) fd p' l' HL HA E) as (pre' & m' & G1 & G2 & G3 & G4).
    apply safe_ok. sp. repeat split; auto. exists pre', m'. split; [|split; [|split; [exact G3|]]].
    + split; [apply set_lus_RR; exact HR|]. sp. split; [exact G1|]. intro. sp. congruence.
    + sp. exact G2.
    + intro Ef. destruct (G4 Ef) as [(-> & -> & X & _)|G5]; [left|right; exact G5]. split; [destruct s; sp; subst; reflexivity|auto].
Qed.

(** ** acknowledgements *)
Lemma RR_pop : forall ce s req k f a c, RR ce s req k f (S a) c -> RR ce s req k f a (S c).
Proof.
  intros ce s req k f a c (H1 & H2). split; [exact H1|]. destruct (pc s); try (exfalso; lia).
  - destruct H2 as (X1 & X2 & X3). split; [exact X1|]. split; [lia|exact X3].
  - destruct H2 as (X1 & X4 & X2 & X3). split; [exact X1|]. split; [exact X4|]. split; [lia|exact X3].
  - destruct H2 as (X1 & X2 & X3). split; [exact X1|]. split; [lia|exact X3].
Qed.
Lemma RR_ack : forall ce s req k f a c, RR ce s req k f a c -> 0 < a \/ 0 < c -> (f = Feof /\ blk k = [] /\ ce) \/ (f = req /\ req <> Fnormal /\ req <> Feof).
Proof.
  intros ce s req k f a c (H1 & H2) Ha. destruct (pc s); try (exfalso; lia); try tauto; unfold fin in *; tauto.
Qed.
Lemma RR_total : forall ce s req k f a, RR ce s req k f a W -> a = 0.
Proof. intros ce s req k f a (H1 & H2). destruct (pc s); try lia; tauto. Qed.
Lemma flag_eqb_refl : forall f, flag_eqb f f = true.
Proof. destruct f; reflexivity. Qed.
Lemma flag_eqb_eq : forall f g, flag_eqb f g = true <-> f = g.
Proof. intros f g; split; intro H; [destruct f, g; auto; discriminate|subst; apply flag_eqb_refl]. Qed.
(** only orders are left *)
Lemma head_acks : forall ce s req m k f a c, Flow ce s req [] m k f a c -> m = k -> forall i r, lus s = i :: r ->
  i = IOrd f /\ exists a', a = S a' /\ Lst r (fifo s) [] k k f a'.
Proof.
  intros ce s req m k f a c (HR & HL & HC) Hm i r El. rewrite El in HL. destruct i as [b o| |g].
  - destruct (head_data _ _ _ _ _ _ _ _ _ HL) as (j & _ & _ & _ & Hjk & _ & [(_ & X & _)|(X & _)] & _); [lia|discriminate].
  - exfalso; eapply head_bad; exact HL.
  - destruct (head_ord _ _ _ _ _ _ _ _ HL) as (-> & _ & _ & a' & E & G). split; [reflexivity|]. exists a'; auto.
Qed.
Lemma pop_flow : forall ce s req m k f a c q t i, Flow ce s req [] m k f (S a) c -> m = k -> Lst q (fifo s) [] k k f a ->
  Flow ce (with_main t (cur s) q i (chk s) (leof s) s) req [] k k f a (S c).
Proof.
  intros ce s req m k f a c q t i (HR & HL & HC) -> HL'. split; [apply set_lus_RR, RR_pop, HR|]. sp. split; [exact HL'|].
  intro E. sp. destruct (HC E) as (C1 & C2 & C3 & C4). auto.
Qed.

Notation purge_loop := (purge_loop W bs F bad skipok).
(** what is true once the acknowledgements of the order [f] have all been read *)
Definition Over0 (s s' : st) (f : flag) : Prop :=
  ign s' = 0 /\ cur s' = cur s /\ leof s' = leof s /\ lus s' = [] /\ fifo s' = [] /\
  (f <> Fdie -> (Quiet s' /\ pc s' <> RInit) /\ tst s' = Suspended) /\ (f = Fdie -> tst s' = Dead /\ (pc s' = REnd \/ pc s' = RSend Fdie 0)).
Lemma Over0_eq : forall s s1 s' f, Over0 s1 s' f -> cur s1 = cur s -> leof s1 = leof s -> Over0 s s' f.
Proof. unfold Over0. intros s s1 s' f (H1&H2&H3&H4) E1 E2. rewrite <- E1, <- E2. auto. Qed.

Lemma acks0 : forall fuel top s ce req m k f a c num r pos, Flow ce s req [] m k f a c -> m = k -> c + num = W -> 0 < num -> tst s = Running -> ign s = 0 ->
  (0 < c /\ r = f) \/ (c = 0 /\ r = Fnormal /\ top = false /\ lus s <> []) ->
  safe (purge_loop fuel top num r pos s) (fun r' s' => r' = f /\ Over0 s s' f).
Proof.
  induction fuel as [|fuel IH]; intros top s ce req m k f a c num r pos HF Hm Hn H0 Ht Hi Hr; [reflexivity|]. cbn [FetchModel.purge_loop].
  destruct top.
  - destruct Hr as [(Hc & ->)|(_ & _ & X & _)]; [|discriminate].
    eapply safe_bind; [apply (read_refill_safe _ _ _ _ _ _ _ _ _ HF); [congruence|lia]|].
    intros _ s1 ((U1&U2&U3&U4) & N1 & K1 & pre' & m' & k' & f' & a' & HF' & Hk & _ & _ & Hp & _).
    destruct (Hk (or_intror Hc)) as (-> & -> & _).
    assert (Hsh : pre' = [] /\ m' = k). { destruct (Hp eq_refl) as [(-> & ->)|(_ & X)]; [auto|lia]. }
    destruct Hsh as (-> & ->).
    assert (Hf : flag_eqb f Fnormal = false).
    { destruct HF as (HR & _). destruct (RR_ack _ _ _ _ _ _ _ HR (or_intror Hc)) as [(-> & _)|(-> & X & _)]; [reflexivity|]. destruct req; auto; congruence. }
    rewrite Hf, andb_false_r.
    apply (safe_weak _ _ _ _ (IH false s1 ce req k k f a' c num f pos HF' eq_refl Hn H0 (eq_trans U1 Ht) (eq_trans U3 Hi) (or_introl (conj Hc eq_refl)))).
    intros r' s' (-> & HO). split; [reflexivity|]. apply (Over0_eq s s1); auto.
  - rewrite bind_get. destruct (lus s) as [|i q] eqn:El.
    + destruct num as [|num]; [lia|]. destruct Hr as [(Hc & ->)|(_ & _ & _ & X)]; [|congruence].
      apply (IH true s ce req m k f a c (S num) f pos HF Hm Hn H0 Ht Hi). left; auto.
    + destruct (head_acks _ _ _ _ _ _ _ _ HF Hm i q El) as (-> & a' & -> & HL').
      destruct num as [|n]; [lia|].
      rewrite bind_get, Hi.
      assert (Er : (if flag_eqb r Fnormal then f else r) = f). { destruct Hr as [(_ & ->)|(_ & -> & _)]; [destruct (flag_eqb f Fnormal); reflexivity|reflexivity]. }
      rewrite Er, flag_eqb_refl. cbn [negb].
      assert (Ei : (if flag_eqb r Fnormal && negb (flag_eqb f Fstop) && negb (flag_eqb f Feof) then 0 else 0) = 0) by (destruct (_ && _ && _); reflexivity).
      rewrite Ei. unfold bindM at 1, set_ign at 1. cbv iota beta.
      destruct n as [|n].
      * unfold bindM, set_tst, set_lus. sp. destruct fuel as [|fuel]; [reflexivity|]. cbn [FetchModel.purge_loop]. rewrite bind_get. sp.
        assert (HF' := pop_flow _ _ _ _ _ _ _ _ q (if flag_eqb f Fdie then Dead else Suspended) 0 HF Hm HL').
        assert (Ec : S c = W) by lia. rewrite Ec in HF'. destruct HF' as (HR' & (HE & _) & _).
        assert (Ea : a' = 0) by (eapply RR_total; exact HR'). subst a'. sp. rewrite Str_nil in HE. cbn in HE. apply app_eq_nil in HE. destruct HE as (Eq & Ef).
        destruct q; [|discriminate]. unfold ret. apply safe_ok. split; [reflexivity|]. unfold Over0; sp. split; [auto|]. split; [auto|]. split; [auto|]. split; [auto|]. split; [auto|]. split.
        -- intro Hd. split; [split|].
           ++ apply (flow_quiet ce _ req k f); auto.
           ++ destruct HR' as (_ & HR2). sp. intro X. rewrite X in HR2. lia.
           ++ destruct f; auto; congruence.
        -- intro Hd. split; [subst f; reflexivity|]. apply (flow_dead ce _ req k f); auto.
      * unfold bindM, set_lus. sp.
        assert (HF' := pop_flow _ _ _ _ _ _ _ _ q Running 0 HF Hm HL'). rewrite Ht.
        apply (safe_weak _ _ _ _ (IH false _ ce req k k f a' (S c) (S n) f pos HF' eq_refl ltac:(lia) ltac:(lia) eq_refl eq_refl (or_introl (conj (Nat.lt_0_succ c) eq_refl)))).
        intros r' s' (-> & HO). split; [reflexivity|]. exact HO.
Qed.

(** data, then the acknowledgements, none of them to be ignored *)
Definition LK (top : bool) (pos : nat) (s : st) (pre : list item) (m : nat) : Prop :=
  pos = 0 \/
  (if top then At (chk s) (skipto s) (cur s) pre m \/ (pos < cur s /\ chk s = false /\ pre = [])
   else (pos < cur s /\ chk s = false) \/ (At (chk s) (skipto s) (cur s) pre m /\ nodata (lus s))).
Definition Found (ce : Prop) (req : flag) (pos : nat) (s s' : st) : Prop :=
  pos <> 0 /\ cur s' = pos /\ ign s' = W /\ tst s' = Running /\ leof s' = leof s /\
  exists pre m k f a, Flow ce s' req pre m k f a 0 /\ At (chk s') (skipto s') (cur s') pre m.
Definition Over1 (s s' : st) (f : flag) : Prop :=
  ign s' = 0 /\ leof s' = leof s /\ lus s' = [] /\ fifo s' = [] /\
  (f <> Fdie -> (Quiet s' /\ pc s' <> RInit) /\ tst s' = Suspended) /\ (f = Fdie -> tst s' = Dead /\ (pc s' = REnd \/ pc s' = RSend Fdie 0)).
Lemma Over1_eq : forall s s1 s' f, Over1 s1 s' f -> leof s1 = leof s -> Over1 s s' f.
Proof. unfold Over1. intros s s1 s' f (H1&H2&H3) E2. rewrite <- E2. auto. Qed.
Lemma Over01 : forall s s' f, Over0 s s' f -> Over1 s s' f.
Proof. unfold Over0, Over1. intros s s' f (H1&H2&H3&H4). auto. Qed.
Lemma data0 : forall fuel top s ce req pre m k f a pos, Flow ce s req pre m k f a 0 -> tst s = Running -> ign s = 0 ->
  LK top pos s pre m ->
  safe (purge_loop fuel top W Fnormal pos s) (fun r s' =>
    (r = Fnormal /\ Found ce req pos s s') \/
    (((r = Feof /\ ce) \/ (r = req /\ req <> Fnormal)) /\ Over1 s s' r /\ (pos = 0 -> cur s' = cur s))).
Proof.
  induction fuel as [|fuel IH]; intros top s ce req pre m k f a pos HF Ht Hi HK; [reflexivity|].
  destruct top.
  - cbn [FetchModel.purge_loop]. eapply safe_bind; [apply (read_refill_safe _ _ _ _ _ _ _ _ _ HF); [congruence|lia]|].
    intros _ s1 ((U1&U2&U3&U4) & N1 & K1 & pre' & m' & k' & f' & a' & HF' & _ & HA & HP & _ & _).
    rewrite flag_eqb_refl, andb_true_r.
    destruct (Nat.eqb_spec pos 0) as [Hz|Hz]; cbn [negb].
    + apply (safe_weak _ _ _ _ (IH false s1 ce req pre' m' k' f' a' pos HF' (eq_trans U1 Ht) (eq_trans U3 Hi) (or_introl Hz))).
      intros r s' [(-> & X & _)|(G1 & G2 & G3)]; [congruence|]. right. split; [exact G1|]. split; [|intro; rewrite G3; auto].
      apply (Over1_eq s s1); auto.
    + destruct HK as [X|[HK|(HK1 & HK2 & ->)]]; [congruence| |].
      * assert (HA1 : At (chk s1) (skipto s1) (cur s1) pre' m') by (rewrite U2; apply HA; exact HK).
        eapply safe_bind; [apply (find_safe pos _ _ _ _ _ _ _ _ _ HF' HA1)|].
        intros fd s2 (V1 & V2 & V3 & V4 & V5 & pre2 & m2 & HF2 & HA2 & Hfd & Hnf). destruct fd.
        -- unfold bindM, set_ign. destruct fuel as [|fuel]; [reflexivity|]. cbn [FetchModel.purge_loop]. rewrite bind_get. sp.
           assert (G : safe (Ok Fnormal, with_main (tst s2) (cur s2) (lus s2) W (chk s2) (leof s2) s2) (fun r s' =>
              (r = Fnormal /\ Found ce req pos s s') \/
              (((r = Feof /\ ce) \/ (r = req /\ req <> Fnormal)) /\ Over1 s s' r /\ (pos = 0 -> cur s' = cur s)))).
           { apply safe_ok. left. split; [reflexivity|]. unfold Found; sp. repeat split; auto; try congruence.
             exists pre2, m2, k', f', a'. split; [split; [apply set_lus_RR, HF2|]|exact HA2]. sp. split; [apply HF2|]. intro E. sp. apply HF2; exact E. }
           destruct (lus s2) as [|[? ?| |?] ?]; exact G.
        -- assert (HK2 : LK false pos s2 pre2 m2).
           { right. destruct (Hnf eq_refl) as [(-> & X3 & X4)|X]; [left|right; auto]. split; [exact X3|auto]. }
           apply (safe_weak _ _ _ _ (IH false s2 ce req pre2 m2 k' f' a' pos HF2 (eq_trans V1 (eq_trans U1 Ht)) (eq_trans V2 (eq_trans U3 Hi)) HK2)).
           intros r s' [(-> & X1 & X2 & X3 & X4 & X5 & X6)|(G1 & G2 & G3)].
           ++ left. split; [reflexivity|]. unfold Found. repeat split; auto; congruence.
           ++ right. split; [exact G1|]. split; [|intro; congruence]. apply (Over1_eq s s2); auto; congruence.
      * (* the position is lost: nothing may be found *)
        destruct (HP HK2 eq_refl) as (-> & HC1).
        assert (E : find_loop pos (lus s1) (cur s1) = (false, cur s1, lus s1)).
        { destruct (lus s1) as [|[b o| |g] r0] eqn:El; auto. destruct HF' as (_ & HL & _). rewrite El in HL.
          destruct (head_data _ _ _ _ _ _ _ _ _ HL) as (j & _ & _ & _ & _ & _ & [(_ & _ & ->)|(X & _)] & _); [|discriminate]. cbn [find_loop].
          destruct (Nat.ltb_spec pos (cur s1)) as [_|X]; [|lia]. destruct (Nat.leb_spec (cur s1) (pos + 0)) as [X|_]; [lia|]. reflexivity. }
        unfold bindM, find_offset. rewrite E.
        assert (Es : with_main (tst s1) (cur s1) (lus s1) (ign s1) (chk s1) (leof s1) s1 = s1) by (destruct s1; reflexivity). rewrite Es.
        assert (HK3 : LK false pos s1 [] m') by (right; left; split; [congruence|exact HC1]).
        apply (safe_weak _ _ _ _ (IH false s1 ce req [] m' k' f' a' pos HF' (eq_trans U1 Ht) (eq_trans U3 Hi) HK3)).
        intros r s' [(-> & X1 & X2 & X3 & X4 & X5 & X6)|(G1 & G2 & G3)].
        -- left. split; [reflexivity|]. unfold Found. repeat split; auto; congruence.
        -- right. split; [exact G1|]. split; [|intro; congruence]. apply (Over1_eq s s1); auto; congruence.
  - destruct (lus s) as [|i q] eqn:El.
    + cbn [FetchModel.purge_loop]. rewrite bind_get, El. destruct W as [|w] eqn:EW; [lia|]. rewrite <- EW in *.
      assert (HK' : LK true pos s pre m).
      { destruct HK as [X|[(X1 & X2)|(X1 & X2)]]; [left; auto|right; right|right; left; auto].
        split; [exact X1|]. split; [exact X2|]. destruct HF as (_ & (_&_&_&_&HE) & _). auto. }
      exact (IH true s ce req pre m k f a pos HF Ht Hi HK').
    + destruct HF as (HR & HL & HC). rewrite El in HL. destruct i as [b o| |g].
      * destruct (head_data _ _ _ _ _ _ _ _ _ HL) as (j & -> & Ho & Hj & Hjk & HL2 & Hsh & Hat).
        assert (Ec : chk s = false).
        { destruct (chk s) eqn:Ec; auto. destruct (HC Ec) as (-> & C2 & C3 & C4). assert (m = k) by (apply C4; congruence). destruct Hsh as [(_ & X & _)|(X & _)]; [lia|discriminate]. }
        cbn [FetchModel.purge_loop]. rewrite bind_get, El. destruct W as [|w] eqn:EW; [lia|]. rewrite <- EW in *. unfold bindM, set_lus.
        assert (HF2 : Flow ce (with_main (tst s) (cur s) q (ign s) (chk s) (leof s) s) req [] (S j) k f a 0).
        { split; [apply set_lus_RR; exact HR|]. sp. split; [exact HL2|]. intro; sp; congruence. }
        assert (HK2 : LK false pos (with_main (tst s) (cur s) q (ign s) (chk s) (leof s) s) [] (S j)).
        { destruct HK as [X|[(X1 & X2)|(X1 & X2)]]; [left; auto|right; left; auto|]. rewrite El in X2. contradiction. }
        apply (safe_weak _ _ _ _ (IH false _ ce req [] (S j) k f a pos HF2 Ht Hi HK2)).
        intros r s' H. exact H.
      * exfalso; eapply head_bad; exact HL.
      * destruct (head_ord _ _ _ _ _ _ _ _ HL) as (-> & -> & -> & a' & -> & HL').
        assert (HF' : Flow ce s req [] k k f (S a') 0) by (split; [exact HR|]; rewrite El; split; [exact HL|exact HC]).
        assert (Hf := RR_ack _ _ _ _ _ _ _ HR (or_introl (Nat.lt_0_succ a'))).
        assert (Hne : lus s <> []) by congruence.
        assert (G := acks0 (S fuel) false s ce req k k f (S a') 0 W Fnormal pos HF' eq_refl eq_refl HW Ht Hi (or_intror (conj eq_refl (conj eq_refl (conj eq_refl Hne))))).
        apply (safe_weak _ _ _ _ G). intros r s' (-> & HO). right.
        split; [tauto|]. split; [apply Over01; exact HO|]. intros _. apply HO.
Qed.

(** acknowledgements of an order sent before, to be ignored: after a stop the reading thread is started again, and its stream read up to the end *)
Lemma acksI : forall fuel top s ce req m k f a c r, Flow ce s req [] m k f a c -> m = k -> 0 < ign s -> c + ign s = W -> tst s = Running -> req = Fstop ->
  goodpos (cur s) ->
  (0 < c /\ r = f) \/ (c = 0 /\ r = Fnormal /\ top = false /\ lus s <> []) ->
  safe (purge_loop fuel top W r 0 s) (fun r' s' => r' = Feof /\ Over0 s s' Feof).
Proof.
  induction fuel as [|fuel IH]; intros top s ce req m k f a c r HF Hm H0 Hn Ht Hq Hg Hr; [reflexivity|]. cbn [FetchModel.purge_loop].
  destruct top.
  - destruct Hr as [(Hc & ->)|(_ & _ & X & _)]; [|discriminate].
    eapply safe_bind; [apply (read_refill_safe _ _ _ _ _ _ _ _ _ HF); [congruence|lia]|].
    intros _ s1 ((U1&U2&U3&U4) & N1 & K1 & pre' & m' & k' & f' & a' & HF' & Hk & _ & _ & Hp & _).
    destruct (Hk (or_intror Hc)) as (-> & -> & _).
    assert (Hsh : pre' = [] /\ m' = k). { destruct (Hp eq_refl) as [(-> & ->)|(_ & X)]; [auto|lia]. }
    destruct Hsh as (-> & ->). cbn [Nat.eqb negb andb].
    apply (safe_weak _ _ _ _ (IH false s1 ce req k k f a' c f HF' eq_refl ltac:(lia) ltac:(lia) (eq_trans U1 Ht) Hq (eq_ind_r goodpos Hg U2) (or_introl (conj Hc eq_refl)))).
    intros r' s' (-> & HO). split; [reflexivity|]. apply (Over0_eq s s1); auto.
  - rewrite bind_get. destruct (lus s) as [|i q] eqn:El.
    + destruct W as [|w] eqn:EW; [lia|]. rewrite <- EW in *. destruct Hr as [(Hc & ->)|(_ & _ & _ & X)]; [|congruence].
      apply (IH true s ce req m k f a c f HF Hm H0 Hn Ht Hq Hg). left; auto.
    + destruct (head_acks _ _ _ _ _ _ _ _ HF Hm i q El) as (-> & a' & -> & HL').
      destruct W as [|w] eqn:EW; [lia|]. rewrite <- EW in *.
      rewrite bind_get.
      assert (Er : (if flag_eqb r Fnormal then f else r) = f). { destruct Hr as [(_ & ->)|(_ & -> & _)]; [destruct (flag_eqb f Fnormal); reflexivity|reflexivity]. }
      rewrite Er, flag_eqb_refl. cbn [negb].
      assert (Hf : f = Feof \/ f = Fstop).
      { destruct HF as (HR & _). destruct (RR_ack _ _ _ _ _ _ _ HR (or_introl (Nat.lt_0_succ a'))) as [(-> & _)|(-> & _)]; auto. }
      assert (Ei : (if flag_eqb r Fnormal && negb (flag_eqb f Fstop) && negb (flag_eqb f Feof) then 0 else ign s) = ign s)
        by (destruct Hf as [-> | ->]; cbn [flag_eqb negb]; rewrite ?andb_false_r; reflexivity).
      rewrite Ei. unfold bindM at 1, set_ign at 1. cbv iota beta.
      destruct (ign s) as [|i] eqn:Eg; [lia|].
      unfold bindM at 1, set_ign at 1. cbv iota beta. sp.
      destruct i as [|i].
      * (* last one *)
        assert (HF' := pop_flow _ _ _ _ _ _ _ _ q Suspended 0 HF Hm HL').
        assert (Ec : S c = W) by lia. rewrite Ec in HF'. destruct HF' as (HR' & (HE & _) & _).
        assert (Ea : a' = 0) by (eapply RR_total; exact HR'). subst a'. sp. rewrite Str_nil in HE. cbn in HE. apply app_eq_nil in HE. destruct HE as (Eq & Ef).
        subst q. unfold bindM at 1, set_tst at 1. cbv iota beta. sp.
        assert (HQ : Quiet (with_main Suspended (cur s) (lus s) 0 (chk s) (leof s) s)).
        { apply (flow_quiet ce _ req k f). - apply set_lus_RR. apply (set_lus_RR _ _ _ _ _ _ _ (tst s) (cur s) (lus s) (ign s) (chk s) (leof s)) in HR'. destruct s; exact HR'. - exact Ef. - destruct Hf as [-> | ->]; discriminate. }
        destruct Hf as [-> | ->]; cbn [flag_eqb negb].
        -- unfold bindM, set_lus. sp. destruct fuel as [|fuel]; [reflexivity|]. cbn [FetchModel.purge_loop]. rewrite bind_get. sp.
           unfold ret. apply safe_ok. split; [reflexivity|]. unfold Over0; sp. split; [auto|]. split; [auto|]. split; [auto|]. split; [auto|]. split; [auto|]. split; [|discriminate].
           intros _. split; [split; [exact HQ|]|reflexivity]. sp. destruct HR' as (_ & HR2). sp. intro X. rewrite X in HR2. lia.
        -- eapply safe_bind; [apply (go_read_quiet _ HQ); [reflexivity|exact Hg]|]. sp.
           intros _ s1 (G1 & G2 & G3 & G4 & G5 & G6 & G7 & G8 & f1 & G9).
           unfold bindM, set_lus.
           assert (HF1 : Flow True (with_main (tst s1) (cur s1) [] (ign s1) (chk s1) (leof s1) s1) Fnormal [] (cur s / bs) (cur s / bs) f1 0 0).
           { apply mkflow; sp; [apply set_lus_RR; exact G9|reflexivity|exact G8|rewrite G7; reflexivity|rewrite G7; exact Hg]. }
           apply (safe_weak _ _ _ _ (data0 fuel false _ True Fnormal [] _ _ f1 0 0 HF1 G1 G3 (or_introl eq_refl))).
           sp. intros r' s' [(_ & X & _)|([(-> & _)|(_ & X)] & O1 & O2)]; try congruence. split; [reflexivity|].
           destruct O1 as (P1&P2&P3). specialize (O2 eq_refl). sp. unfold Over0. destruct P3 as (P3 & P4 & P5 & P6). split; [exact P1|]. split; [congruence|]. split; [congruence|]. auto.
      * unfold bindM, set_lus. sp.
        assert (HF' := pop_flow _ _ _ _ _ _ _ _ q Running (S i) HF Hm HL'). rewrite Ht.
        apply (safe_weak _ _ _ _ (IH false _ ce req k k f a' (S c) f HF' eq_refl (Nat.lt_0_succ i) ltac:(sp; lia) eq_refl Hq Hg (or_introl (conj (Nat.lt_0_succ c) eq_refl)))).
        intros r' s' (-> & HO). split; [reflexivity|]. exact HO.
Qed.
Lemma dataI : forall fuel top s ce req pre m k f a, Flow ce s req pre m k f a 0 -> tst s = Running -> ign s = W -> req = Fstop -> goodpos (cur s) ->
  safe (purge_loop fuel top W Fnormal 0 s) (fun r' s' => r' = Feof /\ Over0 s s' Feof).
Proof.
  induction fuel as [|fuel IH]; intros top s ce req pre m k f a HF Ht Hi Hq Hg; [reflexivity|].
  destruct top.
  - cbn [FetchModel.purge_loop]. eapply safe_bind; [apply (read_refill_safe _ _ _ _ _ _ _ _ _ HF); [congruence|lia]|].
    intros _ s1 ((U1&U2&U3&U4) & N1 & K1 & pre' & m' & k' & f' & a' & HF' & _). cbn [Nat.eqb negb andb].
    apply (safe_weak _ _ _ _ (IH false s1 ce req pre' m' k' f' a' HF' (eq_trans U1 Ht) (eq_trans U3 Hi) Hq (eq_ind_r goodpos Hg U2))).
    intros r' s' (-> & HO). split; [reflexivity|]. apply (Over0_eq s s1); auto.
  - destruct (lus s) as [|i q] eqn:El.
    + cbn [FetchModel.purge_loop]. rewrite bind_get, El. destruct W as [|w] eqn:EW; [lia|]. rewrite <- EW in *.
      exact (IH true s ce req pre m k f a HF Ht Hi Hq Hg).
    + destruct HF as (HR & HL & HC). rewrite El in HL. destruct i as [b o| |g].
      * destruct (head_data _ _ _ _ _ _ _ _ _ HL) as (j & -> & Ho & Hj & Hjk & HL2 & Hsh & Hat).
        assert (Ec : chk s = false).
        { destruct (chk s) eqn:Ec; auto. destruct (HC Ec) as (-> & C2 & C3 & C4). assert (m = k) by (apply C4; congruence). destruct Hsh as [(_ & X & _)|(X & _)]; [lia|discriminate]. }
        cbn [FetchModel.purge_loop]. rewrite bind_get, El. destruct W as [|w] eqn:EW; [lia|]. rewrite <- EW in *. unfold bindM, set_lus.
        assert (HF2 : Flow ce (with_main (tst s) (cur s) q (ign s) (chk s) (leof s) s) req [] (S j) k f a 0).
        { split; [apply set_lus_RR; exact HR|]. sp. split; [exact HL2|]. intro; sp; congruence. }
        apply (safe_weak _ _ _ _ (IH false _ ce req [] (S j) k f a HF2 Ht Hi Hq Hg)).
        intros r s' H. exact H.
      * exfalso; eapply head_bad; exact HL.
      * destruct (head_ord _ _ _ _ _ _ _ _ HL) as (-> & -> & -> & a' & -> & HL').
        assert (HF' : Flow ce s req [] k k f (S a') 0) by (split; [exact HR|]; rewrite El; split; [exact HL|exact HC]).
        assert (Hne : lus s <> []) by congruence.
        exact (acksI (S fuel) false s ce req k k f (S a') 0 Fnormal HF' eq_refl ltac:(lia) ltac:(lia) Ht Hq Hg (or_intror (conj eq_refl (conj eq_refl (conj eq_refl Hne))))).
Qed.

(** ** the invariant between two calls *)
Notation purge := (purge W bs F bad skipok).
Notation send_stop := (send_stop W bs F bad skipok).
Definition Rest (s : st) : Prop := Quiet s /\ lus s = [] /\ tst s = Suspended /\ ign s = 0.
Definition Live (s : st) : Prop :=
  tst s = Running /\ leof s = false /\ exists req pre m k f a, Flow True s req pre m k f a 0 /\ At (chk s) (skipto s) (cur s) pre m /\
    ((ign s = 0 /\ req = Fnormal) \/ (ign s = W /\ req = Fstop)).
Definition Inv (s : st) : Prop :=
  goodpos (cur s) /\ (leof s = true -> L <= cur s) /\ (Rest s \/ Live s).

Lemma set_flag_stop : forall s pre m k f a, Flow True s Fnormal pre m k f a 0 ->
  safe (set_flag Fstop s) (fun _ s' => upto s s' /\ lus s' = lus s /\ chk s' = chk s /\ skipto s' = skipto s /\ exists k' f' a', Flow True s' Fstop pre m k' f' a' 0).
Proof.
  intros s pre m k f a HF. unfold FetchModel.set_flag. eapply safe_bind; [apply tick_safe|]. cbv beta. intros _ s' (n & l & ->). apply safe_ok. sp.
  destruct (rrun_sched_same n l s) as (E1&E2&E3&E4&E5&E6&E7).
  destruct (rrun_flow n _ _ _ _ _ _ _ _ _ (sched_flow l _ _ _ _ _ _ _ _ _ HF)) as (k' & f' & a' & ((Hq & HR) & HL & HC) & _).
  split; [repeat split; assumption|]. split; [exact E3|]. split; [exact E5|]. split; [exact E7|].
  assert (G : exists f2, RR True (with_flag Fstop (rrun n (with_sched l s))) Fstop k' f2 a' 0 /\ (0 < a' -> f2 = f')).
  { unfold RR. sp. destruct (pc (rrun n (with_sched l s))) eqn:Ep; try contradiction.
    - exists f'. split; [split; [split; [discriminate|apply Hq]|]|auto]. repeat split; tauto.
    - exists f'. split; [split; [split; [discriminate|apply Hq]|]|auto]. destruct HR as (R1 & R2 & [(R3 & R4 & R5)|(_ & R4 & _)]); [|congruence].
      split; [exact R1|]. split; [exact R2|]. left. split; [exact I|]. split; [exact R4|left; reflexivity].
    - exists f'. split; [split; [split; [discriminate|apply Hq]|]|auto]. unfold prep in *; sp. repeat split; tauto.
    - exists f'. split; [split; [split; [discriminate|apply Hq]|]|auto]. unfold prep in *; sp. repeat split; tauto.
    - exists f'. split; [split; [split; [discriminate|apply Hq]|]|auto]. unfold fin in *; sp. destruct HR as (R1 & R2 & R3 & R4 & [R5|(R5 & R6 & R7)]); [|congruence]. repeat split; auto.
    - exists f'. split; [split; [split; [discriminate|apply Hq]|]|auto]. unfold fin in *; sp. destruct HR as (R1 & R0 & R2 & R3 & R4 & [R5|(R5 & R6 & R7)]); [|congruence]. repeat split; auto.
    - exists f'. split; [split; [split; [discriminate|apply Hq]|]|auto]. repeat split; tauto.
    - exists f'. split; [split; [split; [discriminate|apply Hq]|]|auto]. repeat split; tauto.
    - exists f'. split; [split; [split; [discriminate|apply Hq]|]|auto]. repeat split; tauto.
    - exfalso. unfold fin in HR. destruct HR as (-> & _ & _ & _ & [(X & _)|(X & _)]); discriminate. }
  destruct G as (f2 & G1 & G2). exists k', f2, a'. split; [exact G1|]. sp. split; [|exact HC].
  destruct a' as [|a']; [exact HL|]. rewrite (G2 ltac:(lia)). exact HL.
Qed.
(** the result of asking the reading thread to stop *)
Lemma Over1_rest : forall s s' f, Over1 s s' f -> f <> Fdie -> Rest s'.
Proof. intros s s' f (H1 & H2 & H3 & H4 & H5 & _) Hf. destruct (H5 Hf) as ((X & _) & Y). split; [exact X|]. auto. Qed.
Lemma send_stop_safe : forall pos s, Inv s -> (ign s = 0 \/ pos = 0) ->
  safe (send_stop pos s) (fun b s' => leof s' = leof s /\
    ((b = true /\ Rest s' /\ (pos = 0 -> cur s' = cur s)) \/ (b = false /\ pos <> 0 /\ cur s' = pos /\ Live s'))).
Proof.
  intros pos s (Hg & He & HI) Hp. unfold FetchModel.send_stop. rewrite bind_get. destruct HI as [HI|(Ht & Hl & req & pre & m & k & f & a & HF & HA & HM)].
  - destruct HI as (H1 & H2 & H3 & H4). rewrite H3. unfold ret. apply safe_ok. split; [reflexivity|]. left. repeat split; auto; apply H1.
  - rewrite Ht.
    assert (G : safe (set_flag Fstop s) (fun _ s' => upto s s' /\ lus s' = lus s /\ chk s' = chk s /\ skipto s' = skipto s /\ exists k' f' a', Flow True s' Fstop pre m k' f' a' 0)).
    { destruct HM as [(M1 & ->)|(M1 & ->)]; [apply (set_flag_stop _ _ _ _ _ _ HF)|].
      unfold FetchModel.set_flag. eapply safe_bind; [apply tick_safe|]. cbv beta. intros _ s' (n & l & ->). apply safe_ok. sp.
      destruct (rrun_sched_same n l s) as (E1&E2&E3&E4&E5&E6&E7).
      destruct (rrun_flow n _ _ _ _ _ _ _ _ _ (sched_flow l _ _ _ _ _ _ _ _ _ HF)) as (k' & f' & a' & ((Hq & HR) & HL & HC) & _).
      split; [repeat split; assumption|]. split; [exact E3|]. split; [exact E5|]. split; [exact E7|]. exists k', f', a'. split; [|split; [exact HL|exact HC]].
      unfold RR, prep, fin in *. sp. split; [split; [discriminate|apply Hq]|]. destruct (pc (rrun n (with_sched l s))); tauto. }
    eapply safe_bind; [exact G|]. clear G. intros _ s1 ((U1&U2&U3&U4) & S1 & S2 & S3 & k1 & f1 & a1 & HF1).
    eapply safe_bind with (Q := fun v s' => leof s' = leof s /\ ((v = Fnormal /\ pos <> 0 /\ cur s' = pos /\ Live s') \/ ((v = Fstop \/ v = Feof) /\ Rest s' /\ (pos = 0 -> cur s' = cur s)))).
    + unfold FetchModel.purge. rewrite !bind_get. rewrite U1, Ht. rewrite Ht in U1.
      destruct HM as [(M1 & _)|(M1 & _)].
      * assert (HK : LK true pos s1 pre m) by (right; left; rewrite S2, S3, U2; exact HA).
        apply (safe_weak _ _ _ _ (data0 _ true s1 True Fstop pre m k1 f1 a1 pos HF1 U1 (eq_trans U3 M1) HK)).
        intros r s' [(-> & X1 & X2 & X3 & X4 & X5 & pre2 & m2 & k2 & f2 & a2 & X6 & X7)|(Hr & HO & Hc)].
        -- split; [congruence|]. left. repeat split; auto. { congruence. } exists Fstop, pre2, m2, k2, f2, a2. auto.
        -- split; [destruct HO as (_ & HO & _); congruence|]. right. split; [destruct Hr as [(-> & _)|(-> & _)]; auto|].
           split; [apply (Over1_rest _ _ _ HO); destruct Hr as [(-> & _)|(-> & _)]; discriminate|]. intro. rewrite (Hc H). exact U2.
      * assert (Hz : pos = 0) by (destruct Hp as [Hp|Hp]; [lia|exact Hp]). rewrite Hz.
        apply (safe_weak _ _ _ _ (dataI _ true s1 True Fstop pre m k1 f1 a1 HF1 U1 (eq_trans U3 M1) eq_refl (eq_ind_r goodpos Hg U2))).
        intros r s' (-> & HO). split; [destruct HO as (_ & _ & HO & _); congruence|]. right. split; [auto|].
        split; [apply (Over1_rest s1 s' Feof); [apply Over01; exact HO|discriminate]|]. intros _. destruct HO as (_ & HO & _). congruence.
    + intros v s2 (E & [(-> & X1 & X2 & X3)|([-> | ->] & X2 & X3)]).
      * destruct (Nat.eqb_spec pos 0) as [X|_]; [contradiction|]. apply safe_ok. split; [exact E|]. right; auto.
      * apply safe_ok. split; [exact E|]. left; auto.
      * apply safe_ok. split; [exact E|]. left; auto.
Qed.

Lemma At_good : forall ce s req pre m k f a c p, Flow ce s req pre m k f a c -> At (chk s) (skipto s) p pre m -> goodpos p.
Proof.
  intros ce s req pre m k f a c p (HR & (_ & _ & _ & HP & _) & HC) HA. destruct HP as [->|(j & o & -> & -> & Ho & Hj)].
  - cbn in HA. destruct (chk s) eqn:Ec; [subst p; apply (HC Ec)|left; lia].
  - cbn in HA. left. pose proof (blk_end j Hj). lia.
Qed.
Lemma flow_main : forall ce s req pre m k f a c t cu i e, Flow ce s req pre m k f a c -> Flow ce (with_main t cu (lus s) i (chk s) e s) req pre m k f a c.
Proof. intros ce s req pre m k f a c t cu i e (HR & HL & HC). split; [apply set_lus_RR; exact HR|]. sp. split; [exact HL|]. exact HC. Qed.
Lemma Live_good : forall s, Live s -> goodpos (cur s).
Proof. intros s (_ & _ & req & pre & m & k & f & a & HF & HA & _). exact (At_good _ _ _ _ _ _ _ _ _ _ HF HA). Qed.
Lemma Live_inv : forall s, Live s -> Inv s.
Proof. intros s H. split; [apply Live_good; exact H|]. split; [|right; exact H]. destruct H as (_ & H & _). intro; congruence. Qed.

(** ** reading past the acknowledgements of a stop *)
Notation unack_loop := (unack_loop W bs F bad skipok).
Notation purge_unack := (purge_unack W bs F bad skipok).
Lemma unack_safe : forall fuel lookup pos s pre m k f a c, Flow True s Fstop pre m k f a c -> tst s = Running -> c + ign s = W -> 0 < ign s -> leof s = false ->
  (0 < c -> pre = [] /\ m = k) -> (lookup = true -> pos <> 0 -> At (chk s) (skipto s) (cur s) pre m) ->
  safe (unack_loop fuel lookup pos s) (fun b s' => leof s' = leof s /\
    ((b = true /\ Quiet s' /\ lus s' = [] /\ ign s' = 0 /\ (pos = 0 -> cur s' = cur s)) \/ (b = false /\ pos <> 0 /\ cur s' = pos /\ Live s'))).
Proof.
  induction fuel as [|fuel IH]; intros lookup pos s pre m k f a c HF Ht Hn H0 He Hc HA; [reflexivity|]. cbn [FetchModel.unack_loop].
  eapply safe_bind; [apply (read_refill_safe _ _ _ _ _ _ _ _ _ HF); [congruence|lia]|].
  intros _ s1 ((U1&U2&U3&U4) & N1 & K1 & pre1 & m1 & k1 & f1 & a1 & HF1 & Hk & HA1 & _ & Hp & _).
  assert (Hc1 : 0 < c -> pre1 = [] /\ m1 = k1).
  { intro X. destruct (Hc X) as (-> & ->). destruct (Hk (or_intror X)) as (_ & -> & _). destruct (Hp eq_refl) as [(-> & ->)|(_ & Y)]; [auto|lia]. }
  assert (HA2 : lookup = true -> pos <> 0 -> At (chk s1) (skipto s1) (cur s1) pre1 m1) by (intros X Y; rewrite U2; apply HA1, HA; auto).
  rewrite bind_get. destruct (lus s1) as [|i q] eqn:El; [contradiction|].
  destruct HF1 as (HR & HL & HC). rewrite El in HL. destruct i as [b o| |g].
  - destruct (head_data _ _ _ _ _ _ _ _ _ HL) as (j & -> & Ho & Hj & Hjk & HL2 & Hsh & Hat).
    assert (Hz : c = 0). { destruct c; auto. destruct Hc1 as (-> & ->); [lia|]. destruct Hsh as [(_ & X & _)|(X & _)]; [lia|discriminate]. } subst c.
    assert (Ec : chk s1 = false).
    { destruct (chk s1) eqn:Ec; auto. destruct (HC Ec) as (-> & C2 & C3 & C4). assert (m1 = k1) by (apply C4; congruence). destruct Hsh as [(_ & X & _)|(X & _)]; [lia|discriminate]. }
    assert (HF1 : Flow True s1 Fstop pre1 m1 k1 f1 a1 0) by (split; [exact HR|]; rewrite El; split; [exact HL|exact HC]).
    assert (Drop : forall cu lk, (lk = true -> pos <> 0 -> False) -> (pos = 0 -> cu = cur s) -> safe (unack_loop fuel lk pos (with_main (tst s1) cu q (ign s1) (chk s1) (leof s1) s1)) (fun b s' => leof s' = leof s /\
        ((b = true /\ Quiet s' /\ lus s' = [] /\ ign s' = 0 /\ (pos = 0 -> cur s' = cur s)) \/ (b = false /\ pos <> 0 /\ cur s' = pos /\ Live s')))).
    { intros cu lk Hlk Hcu.
      assert (HF2 : Flow True (with_main (tst s1) cu q (ign s1) (chk s1) (leof s1) s1) Fstop [] (S j) k1 f1 a1 0).
      { split; [apply set_lus_RR; exact HR|]. sp. split; [exact HL2|]. intro; sp; congruence. }
      apply (safe_weak _ _ _ _ (IH lk pos _ [] (S j) k1 f1 a1 0 HF2 (eq_trans U1 Ht) ltac:(sp; lia) ltac:(sp; lia) (eq_trans U4 He) ltac:(lia) ltac:(intros; exfalso; auto))).
      sp. intros b s' (G1 & [(G2 & G3 & G4 & G5 & G6)|G2]); (split; [congruence|]); [left|right; exact G2]. repeat split; auto; try apply G3. intro X. rewrite (G6 X). auto. }
    destruct (lookup && negb (pos =? 0)) eqn:Elk.
    + apply andb_true_iff in Elk. destruct Elk as (El1 & El2). assert (Hpz : pos <> 0) by (destruct (Nat.eqb_spec pos 0); [discriminate|assumption]).
      eapply safe_bind; [apply (find_safe pos _ _ _ _ _ _ _ _ _ HF1 (HA2 El1 Hpz))|].
      intros fd s2 (V1 & V2 & V3 & V4 & V5 & pre2 & m2 & HF2 & HA3 & Hfd & Hnf). destruct fd.
      * apply safe_ok. split; [congruence|]. right. split; [reflexivity|]. split; [exact Hpz|]. split; [auto|].
        split; [congruence|]. split; [congruence|]. exists Fstop, pre2, m2, k1, f1, a1. split; [exact HF2|]. split; [exact HA3|]. right. split; [lia|reflexivity].
      * rewrite bind_get. destruct (Hnf eq_refl) as [(-> & X3 & _)|X].
        -- rewrite El. unfold bindM, set_lus. apply Drop; [intros; discriminate|intro; congruence].
        -- assert (G : safe (unack_loop fuel lookup pos s2) (fun b s' => leof s' = leof s /\
            ((b = true /\ Quiet s' /\ lus s' = [] /\ ign s' = 0 /\ (pos = 0 -> cur s' = cur s)) \/ (b = false /\ pos <> 0 /\ cur s' = pos /\ Live s')))).
           { apply (safe_weak _ _ _ _ (IH lookup pos _ pre2 m2 k1 f1 a1 0 HF2 (eq_trans V1 (eq_trans U1 Ht)) ltac:(lia) ltac:(lia) (eq_trans V3 (eq_trans U4 He)) ltac:(lia) (fun _ _ => HA3))).
             intros b s' (G1 & [(G2 & G3 & G4 & G5 & G6)|G2]); (split; [congruence|]); [left|right; exact G2]. repeat split; auto; try apply G3. intro; congruence. }
           destruct (lus s2) as [|[? ?| |?] ?] eqn:Elx; [exact G|contradiction| |exact G].
           exfalso. destruct HF2 as (_ & HLx & _). rewrite Elx in HLx. eapply head_bad; exact HLx.
    + rewrite bind_ret, bind_get, El. unfold bindM, set_lus. apply Drop; [intros; discriminate|auto].
  - exfalso; eapply head_bad; exact HL.
  - destruct (head_ord _ _ _ _ _ _ _ _ HL) as (-> & -> & -> & a' & -> & HL').
    assert (HF1 : Flow True s1 Fstop [] k1 k1 f1 (S a') c) by (split; [exact HR|]; rewrite El; split; [exact HL|exact HC]).
    assert (G : safe (bindM (get ign) (fun i => match i with O => fail Ebug | S O => bindM (set_ign 0) (fun _ => bindM (set_lus q) (fun _ => ret true))
                     | S i => bindM (set_ign i) (fun _ => bindM (set_lus q) (fun _ => unack_loop fuel lookup pos)) end) s1) (fun b s' => leof s' = leof s /\
            ((b = true /\ Quiet s' /\ lus s' = [] /\ ign s' = 0 /\ (pos = 0 -> cur s' = cur s)) \/ (b = false /\ pos <> 0 /\ cur s' = pos /\ Live s')))).
    { rewrite bind_get. destruct (ign s1) as [|[|i]] eqn:Ei; [lia| |].
      - unfold bindM, set_ign, set_lus, ret. apply safe_ok. sp. split; [exact U4|]. left. split; [reflexivity|].
        assert (HF2 := pop_flow _ _ _ _ _ _ _ _ q (tst s1) 0 HF1 eq_refl HL').
        assert (Ec : S c = W) by lia. rewrite Ec in HF2. destruct HF2 as (HR' & (HE & _) & _).
        assert (Ea : a' = 0) by (eapply RR_total; exact HR'). subst a'. sp. rewrite Str_nil in HE. cbn in HE. apply app_eq_nil in HE. destruct HE as (Eq & Ef). subst q.
        split; [|auto]. apply (flow_quiet True _ Fstop k1 f1); sp; auto.
        destruct (RR_ack _ _ _ _ _ _ _ HR (or_introl (Nat.lt_0_succ 0))) as [(-> & _)|(-> & _)]; discriminate.
      - unfold bindM, set_ign, set_lus. sp.
        assert (HF2 := pop_flow _ _ _ _ _ _ _ _ q (tst s1) (S i) HF1 eq_refl HL').
        apply (safe_weak _ _ _ _ (IH lookup pos _ [] k1 k1 f1 a' (S c) HF2 (eq_trans U1 Ht) ltac:(sp; lia) (Nat.lt_0_succ i) (eq_trans U4 He) ltac:(auto) ltac:(intros X Y; sp; exact (HA2 X Y)))).
        sp. intros b s' (G1 & [(G2 & G3 & G4 & G5 & G6)|G2]); (split; [congruence|]); [left|right; exact G2]. repeat split; auto; try apply G3. intro X. rewrite (G6 X). exact U2. }
    destruct (RR_ack _ _ _ _ _ _ _ HR (or_introl (Nat.lt_0_succ a'))) as [(-> & _)|(-> & _)]; exact G.
Qed.
Lemma purge_unack_safe : forall pos s, Live s -> ign s = W ->
  safe (purge_unack pos s) (fun b s' => leof s' = leof s /\
    ((b = true /\ Rest s' /\ (pos = 0 -> cur s' = cur s)) \/ (b = false /\ pos <> 0 /\ cur s' = pos /\ Live s'))).
Proof.
  intros pos s (Ht & Hl & req & pre & m & k & f & a & HF & HA & HM) Hi. unfold FetchModel.purge_unack.
  assert (Eq : req = Fstop) by (destruct HM as [(X & _)|(_ & X)]; [lia|exact X]). subst req.
  eapply safe_bind with (Q := fun fd s' => leof s' = leof s /\ ign s' = W /\ tst s' = Running /\ (fd = true -> pos <> 0 /\ cur s' = pos) /\ (pos = 0 -> cur s' = cur s) /\
    exists pre' m', Flow True s' Fstop pre' m' k f a 0 /\ At (chk s') (skipto s') (cur s') pre' m').
  { destruct (Nat.eqb_spec pos 0) as [Hz|Hz].
    - apply safe_ok. repeat split; auto; try discriminate. exists pre, m; auto.
    - apply (safe_weak _ _ _ _ (find_safe pos _ _ _ _ _ _ _ _ _ HF HA)). intros fd s' (V1 & V2 & V3 & V4 & V5 & pre' & m' & HF' & HA' & Hfd & _).
      repeat split; auto; try congruence. exists pre', m'; auto. }
  intros fd s1 (E1 & E2 & E3 & E4 & E5 & pre1 & m1 & HF1 & HA1). rewrite !bind_get, E3, E2.
  assert (Hlt : (0 <? W) = true) by (apply Nat.ltb_lt; exact HW). rewrite Hlt. cbn [andb].
  destruct fd; cbn [negb].
  - rewrite bind_ret. apply safe_ok. split; [exact E1|]. right. destruct (E4 eq_refl) as (X1 & X2). split; [reflexivity|]. split; [exact X1|]. split; [exact X2|].
    split; [exact E3|]. split; [congruence|]. exists Fstop, pre1, m1, k, f, a. auto.
  - eapply safe_bind; [apply (unack_safe _ true pos s1 pre1 m1 k f a 0 HF1 E3); [lia|lia|congruence|lia|auto]|].
    intros b s2 (G1 & [(-> & G3 & G4 & G5 & G6)|(-> & G2)]).
    + unfold bindM, set_tst, ret. apply safe_ok. sp. split; [congruence|]. left. split; [reflexivity|]. split; [|intro X; rewrite (G6 X); auto].
      repeat split; sp; auto; apply G3.
    + apply safe_ok. split; [congruence|]. right; auto.
Qed.

(** ** skip *)
Notation skip := (skip W bs F bad skipok).
Lemma skip_safe : forall pos s, Inv s -> goodpos pos ->
  safe (skip pos s) (fun b s' => b = true /\ Inv s' /\ cur s' = pos /\ leof s' = (if pos =? cur s then leof s else false)).
Proof.
  intros pos s HI Hg. unfold FetchModel.skip. rewrite bind_get. destruct (Nat.eqb_spec pos (cur s)) as [Hz|Hz].
  { apply safe_ok. auto. }
  destruct HI as (Hc & He & HI).
  eapply safe_bind with (Q := fun fd s' => (fd = true -> Inv s' /\ cur s' = pos /\ leof s' = false) /\ (fd = false -> (Rest s' \/ Live s') /\ goodpos (cur s') /\ (leof s' = true -> Rest s'))).
  { destruct HI as [HR|HLv].
    - unfold find_offset. destruct HR as (H1 & H2 & H3 & H4). rewrite H2. cbn [find_loop]. apply safe_ok. split; [discriminate|]. intros _. sp.
      assert (R : Rest (with_main (tst s) (cur s) [] (ign s) (chk s) (leof s) s)) by (repeat split; sp; auto; apply H1). split; [auto|]. split; [exact Hc|auto].
    - destruct HLv as (Ht & Hl & req & pre & m & k & f & a & HF & HA & HM).
      apply (safe_weak _ _ _ _ (find_safe pos _ _ _ _ _ _ _ _ _ HF HA)). intros fd s' (V1 & V2 & V3 & V4 & V5 & pre' & m' & HF' & HA' & Hfd & _).
      assert (HL' : Live s') by (split; [congruence|]; split; [congruence|]; exists req, pre', m', k, f, a; rewrite V2; auto).
      split; intro X.
      + split; [apply Live_inv; exact HL'|]. split; [auto|congruence].
      + split; [auto|]. split; [apply Live_good; exact HL'|]. intro; congruence. }
  intros fd s1 (H1 & H2). destruct fd.
  - apply safe_ok. destruct (H1 eq_refl) as (X1 & X2 & X3). auto.
  - destruct (H2 eq_refl) as (X1 & X2 & X3). clear H1 H2. rewrite bind_get.
    eapply safe_bind with (Q := fun b s' => leof s' = leof s1 /\ ((b = true /\ Rest s') \/ (b = false /\ cur s' = pos /\ Live s'))).
    + destruct X1 as [HR|HLv].
      * destruct HR as (R1 & R2 & R3 & R4). rewrite R4. unfold FetchModel.send_stop. rewrite bind_get, R3. apply safe_ok. split; [reflexivity|]. left. repeat split; auto; apply R1.
      * destruct (ign s1) as [|i] eqn:Ei.
        -- apply (safe_weak _ _ _ _ (send_stop_safe pos s1 (Live_inv _ HLv) (or_introl Ei))). intros b s' (G1 & [(G2 & G3 & _)|(G2 & _ & G3 & G4)]); auto.
        -- assert (EW : ign s1 = W). { destruct HLv as (_ & _ & req & pre & m & k & f & a & _ & _ & [(X & _)|(X & _)]); congruence. }
           apply (safe_weak _ _ _ _ (purge_unack_safe pos s1 HLv EW)). intros b s' (G1 & [(G2 & G3 & _)|(G2 & _ & G3 & G4)]); auto.
    + intros b s2 (E & [(-> & R1 & R2 & R3 & R4)|(-> & G1 & G2)]).
      * unfold bindM, set_cur, set_leof, ret. apply safe_ok. sp. split; [reflexivity|]. split; [|auto]. split; [exact Hg|]. split; [intro; discriminate|].
        left. repeat split; sp; auto; apply R1.
      * rewrite bind_ret. apply safe_ok. split; [reflexivity|]. split; [apply Live_inv; exact G2|]. split; [exact G1|]. apply G2.
Qed.

(** ** read *)
Lemma skipn_skipn : forall A x y (l : list A), skipn x (skipn y l) = skipn (x + y) l.
Proof.
  intros A x y. revert x. induction y as [|y IH]; intros x l; cbn [skipn]; [rewrite Nat.add_0_r; reflexivity|].
  destruct l as [|h t]; [rewrite !skipn_nil; reflexivity|]. rewrite IH. rewrite Nat.add_succ_r. reflexivity.
Qed.
Notation read_loop := (read_loop W bs F bad skipok).
Notation read := (read W bs F bad skipok).
Lemma bytes_split : forall j o n, blk j <> [] -> o <= length (blk j) ->
  let got := firstn n (skipn o (blk j)) in
  firstn n (skipn (j * bs + o) F) = got ++ firstn (n - length got) (skipn (j * bs + o + length got) F)
  /\ length got <= n /\ o + length got <= length (blk j).
Proof.
  intros j o n Hj Ho got.
  assert (E1 : skipn o (blk j) = firstn (bs - o) (skipn (j * bs + o) F)).
  { unfold FetchModel.blk. rewrite skipn_firstn_comm, skipn_skipn. do 2 f_equal; lia. }
  assert (Hlen : length got = Nat.min n (length (blk j) - o)) by (unfold got; rewrite firstn_length, skipn_length; lia).
  assert (Hg : got = firstn (length got) (skipn (j * bs + o) F)).
  { unfold got at 1. rewrite E1, firstn_firstn. rewrite Hlen. pose proof (blk_len j) as BL.
    destruct (le_lt_dec n (length (blk j) - o)) as [X|X].
    - f_equal. lia.
    - rewrite (Nat.min_r n (length (blk j) - o)) by lia.
      destruct (Nat.eq_dec (length (blk j)) bs) as [Y|Y]; [f_equal; lia|].
      rewrite !firstn_all2; auto; rewrite skipn_length; lia. }
  split; [|lia].
  rewrite <- (firstn_skipn (length got) (skipn (j * bs + o) F)) at 1. rewrite <- Hg, skipn_skipn.
  rewrite firstn_app. rewrite firstn_all2 by lia. rewrite (Nat.add_comm (length got)). reflexivity.
Qed.
Lemma read_loop_safe : forall fuel n added acc s p req pre m k f a c,
  Flow True s req pre m k f a c -> At (chk s) (skipto s) p pre m -> tst s = Running -> leof s = false ->
  cur s + (length acc - added) = p -> added <= length acc ->
  ((ign s = 0 /\ req = Fnormal /\ c = 0) \/ (c + ign s = W /\ 0 < ign s /\ req = Fstop)) -> (0 < c -> f = Fstop /\ pre = [] /\ m = k) ->
  (n = 0 -> c = 0) -> goodpos (cur s) ->
  safe (read_loop fuel n added acc s) (fun x s' => let got := firstn n (skipn p F) in
    snd x = acc ++ got /\ fst x <= length (snd x) /\ cur s' + (length (snd x) - fst x) = p + length got /\
    leof s' = (length got <? n) /\
    ((leof s' = false /\ tst s' = Running /\ exists req pre m k f a, Flow True s' req pre m k f a 0 /\ At (chk s') (skipto s') (p + length got) pre m /\
        ((ign s' = 0 /\ req = Fnormal) \/ (ign s' = W /\ req = Fstop)))
     \/ (leof s' = true /\ Rest s' /\ L <= p + length got))).
Proof.
  induction fuel as [|fuel IH]; intros n added acc s p req pre m k f a c HF HA Ht He Hcur Hadd HM Hc Hn Hgc; [reflexivity|]. cbn [FetchModel.read_loop].
  rewrite bind_get, He, orb_false_r. destruct (Nat.eqb_spec n 0) as [->|Hn0].
  { apply safe_ok. cbn. rewrite app_nil_r, Nat.add_0_r. repeat split; auto. left. repeat split; auto. exists req, pre, m, k, f, a.
    rewrite (Hn eq_refl) in *. split; [exact HF|]. split; [exact HA|]. destruct HM as [(M1 & M2 & _)|(M1 & _ & M2)]; [left; auto|right; split; [lia|auto]]. }
  clear Hn. eapply safe_bind; [apply (read_refill_safe _ _ _ _ _ _ _ _ _ HF); [congruence|lia]|].
  intros _ s1 ((U1&U2&U3&U4) & N1 & K1 & pre1 & m1 & k1 & f1 & a1 & HF1 & Hk & HA1 & _ & Hp & _).
  specialize (HA1 p HA).
  assert (Hc1 : 0 < c -> f1 = Fstop /\ pre1 = [] /\ m1 = k1).
  { intro X. destruct (Hc X) as (-> & -> & ->). destruct (Hk (or_intror X)) as (-> & -> & _). destruct (Hp eq_refl) as [(-> & ->)|(_ & Y)]; [auto|lia]. }
  assert (HM1 : (ign s1 = 0 /\ req = Fnormal /\ c = 0) \/ (c + ign s1 = W /\ 0 < ign s1 /\ req = Fstop)) by (rewrite U3; exact HM).
  rewrite bind_get. destruct (lus s1) as [|i q] eqn:El; [contradiction|].
  destruct HF1 as (HR & HL & HC). rewrite El in HL. destruct i as [b o| |g].
  - destruct (head_data _ _ _ _ _ _ _ _ _ HL) as (j & -> & Ho & Hj & Hjk & HL2 & Hsh & Hat).
    assert (Hz : c = 0). { destruct c; auto. destruct Hc1 as (_ & -> & ->); [lia|]. destruct Hsh as [(_ & X & _)|(X & _)]; [lia|discriminate]. } subst c.
    assert (Ec : chk s1 = false).
    { destruct (chk s1) eqn:Ec; auto. destruct (HC Ec) as (-> & C2 & C3 & C4). assert (m1 = k1) by (apply C4; congruence). destruct Hsh as [(_ & X & _)|(X & _)]; [lia|discriminate]. }
    rewrite Ec in HA1. pose proof (Hat _ _ HA1) as Ep.
    destruct (bytes_split j o n Hj Ho) as (B1 & B2 & B3). rewrite <- Ep in B1. set (got := firstn n (skipn o (blk j))) in *.
    assert (Next : forall l pre2 m2, Lst l (fifo s1) pre2 m2 k1 f1 a1 -> At false (skipto s1) (p + length got) pre2 m2 ->
      safe (read_loop fuel (n - length got) added (acc ++ got) (with_main (tst s1) (cur s1) l (ign s1) (chk s1) (leof s1) s1)) (fun x s' => let got := firstn n (skipn p F) in
        snd x = acc ++ got /\ fst x <= length (snd x) /\ cur s' + (length (snd x) - fst x) = p + length got /\
        leof s' = (length got <? n) /\
        ((leof s' = false /\ tst s' = Running /\ exists req pre m k f a, Flow True s' req pre m k f a 0 /\ At (chk s') (skipto s') (p + length got) pre m /\
            ((ign s' = 0 /\ req = Fnormal) \/ (ign s' = W /\ req = Fstop)))
         \/ (leof s' = true /\ Rest s' /\ L <= p + length got)))).
    { intros l pre2 m2 HLn HAn.
      assert (HF2 : Flow True (with_main (tst s1) (cur s1) l (ign s1) (chk s1) (leof s1) s1) req pre2 m2 k1 f1 a1 0).
      { split; [apply set_lus_RR; exact HR|]. sp. split; [exact HLn|]. intro; sp; congruence. }
      assert (HA2 : At (chk s1) (skipto s1) (p + length got) pre2 m2) by (rewrite Ec; exact HAn).
      apply (safe_weak _ _ _ _ (IH (n - length got) added (acc ++ got) _ (p + length got) req pre2 m2 k1 f1 a1 0 HF2 HA2 (eq_trans U1 Ht) (eq_trans U4 He)
        ltac:(sp; rewrite app_length; lia) ltac:(rewrite app_length; lia) HM1 ltac:(lia) ltac:(auto) (eq_ind_r goodpos Hgc U2))).
      intros x s'. cbv zeta. rewrite B1. intros (G1 & G2 & G3 & G4 & G5). rewrite app_length in *. rewrite !Nat.add_assoc in *.
      split; [rewrite G1, app_assoc; reflexivity|]. split; [exact G2|]. split; [exact G3|]. split; [|exact G5].
      rewrite G4. destruct (Nat.ltb_spec (length (firstn (n - length got) (skipn (p + length got) F))) (n - length got)),
        (Nat.ltb_spec (length got + length (firstn (n - length got) (skipn (p + length got) F))) n); auto; lia. }
    destruct (Nat.leb_spec (length (blk j)) (o + length got)) as [Eq|Eq].
    + unfold bindM, set_lus. apply (Next q [] (S j)); [exact HL2|]. cbn [At]. rewrite <- (blk_end j Hj). lia.
    + unfold bindM, set_lus. apply (Next _ [IData (blk j) (o + length got)] (S j)); [apply cons_data; auto|]. cbn. lia.
  - exfalso; eapply head_bad; exact HL.
  - destruct (head_ord _ _ _ _ _ _ _ _ HL) as (-> & -> & -> & a' & -> & HL').
    assert (HF1 : Flow True s1 req [] k1 k1 f1 (S a') c) by (split; [exact HR|]; rewrite El; split; [exact HL|exact HC]).
    destruct (RR_ack _ _ _ _ _ _ _ HR (or_introl (Nat.lt_0_succ a'))) as [(-> & Hb & _)|(-> & Hq & _)].
    + (* the end of the data *)
      assert (Hz : c = 0) by (destruct c; auto; destruct Hc1 as (X & _); [lia|discriminate]). subst c.
      assert (HLp : L <= p).
      { cbn in HA1. destruct (chk s1) eqn:Ec.
        - destruct (HC Ec) as (_ & C2 & _). subst p. rewrite C2 in Hb. apply blk_nil in Hb. pose proof (Nat.div_mod (skipto s1) bs ltac:(lia)). nia.
        - apply blk_nil in Hb. lia. }
      assert (Enil : firstn n (skipn p F) = []) by (rewrite skipn_all2 by lia; apply firstn_nil).
      rewrite Enil. cbn [length]. rewrite app_nil_r, !Nat.add_0_r.
      unfold bindM at 1, set_leof at 1. cbv iota beta.
      eapply safe_bind with (Q := fun v s' => v = Feof /\ Rest s' /\ cur s' = cur s /\ leof s' = true).
      { assert (HFe := flow_main _ _ _ _ _ _ _ _ _ (tst s1) (cur s1) (ign s1) true HF1).
        unfold FetchModel.purge. rewrite !bind_get. sp. rewrite U1, Ht.
        assert (Hrun : tst (with_main (tst s1) (cur s1) (lus s1) (ign s1) (chk s1) true s1) = Running) by (sp; congruence).
        destruct HM1 as [(M1 & M2 & _)|(M1 & _ & M2)].
        - subst req. 
          replace (with_main Running (cur s1) (lus s1) (ign s1) (chk s1) true s1) with (with_main (tst s1) (cur s1) (lus s1) (ign s1) (chk s1) true s1) by (rewrite U1, Ht; reflexivity).
          apply (safe_weak _ _ _ _ (data0 _ true _ True Fnormal [] k1 k1 Feof (S a') 0 HFe Hrun M1 (or_introl eq_refl))).
          intros v s' [(_ & X & _)|([(-> & _)|(_ & X)] & HO & HO2)]; try congruence. split; [reflexivity|]. split; [apply (Over1_rest _ _ _ HO); discriminate|].
          specialize (HO2 eq_refl). destruct HO as (_ & HO & _). sp. split; congruence.
        - subst req.
          assert (Hgood : goodpos (cur (with_main (tst s1) (cur s1) (lus s1) (ign s1) (chk s1) true s1))).
          { sp. rewrite U2. exact Hgc. }
          replace (with_main Running (cur s1) (lus s1) (ign s1) (chk s1) true s1) with (with_main (tst s1) (cur s1) (lus s1) (ign s1) (chk s1) true s1) by (rewrite U1, Ht; reflexivity).
          apply (safe_weak _ _ _ _ (dataI _ true _ True Fstop [] k1 k1 Feof (S a') HFe Hrun ltac:(sp; lia) eq_refl Hgood)).
          intros v s' (-> & HO). split; [reflexivity|]. split; [apply (Over1_rest (with_main (tst s1) (cur s1) (lus s1) (ign s1) (chk s1) true s1) s' Feof); [apply Over01; exact HO|discriminate]|].
          destruct HO as (_ & HO1 & HO2 & _). sp. split; congruence. }
      intros v s2 (-> & R & E1 & E2). destruct fuel as [|fuel]; [reflexivity|]. cbn [FetchModel.read_loop]. rewrite bind_get, E2, orb_true_r.
      apply safe_ok. cbn [fst snd]. split; [reflexivity|]. split; [exact Hadd|]. split; [congruence|].
      split; [rewrite E2; symmetry; apply Nat.ltb_lt; lia|]. right. repeat split; auto; apply R.
    + (* the acknowledgement of a stop *)
      destruct HM1 as [(_ & X & _)|(M1 & M2 & M3)]; [congruence|]. subst req.
      rewrite bind_get. destruct (ign s1) as [|[|i]] eqn:Ei; [lia| |].
      * unfold bindM at 1, set_ign at 1. cbv iota beta. unfold bindM at 1, set_lus at 1. cbv iota beta. unfold bindM at 1, set_tst at 1. cbv iota beta. rewrite bind_get.
        unfold bindM at 1, set_cur at 1. cbv iota beta. sp.
        assert (HF2 := pop_flow _ _ _ _ _ _ _ _ q (tst s1) 0 HF1 eq_refl HL').
        assert (Ec : S c = W) by lia. rewrite Ec in HF2. destruct HF2 as (HR' & (HE & _) & _).
        assert (Ea : a' = 0) by (eapply RR_total; exact HR'). subst a'. sp. rewrite Str_nil in HE. cbn in HE. apply app_eq_nil in HE. destruct HE as (Eq & Ef). subst q.
        assert (HQ : Quiet (with_main Suspended (cur s1 + (length acc - added)) [] 0 (chk s1) (leof s1) s1)).
        { apply (flow_quiet True _ Fstop k1 Fstop); [|exact Ef|discriminate]. apply (set_lus_RR _ _ _ _ _ _ _ Suspended (cur s1 + (length acc - added)) [] 0 (chk s1) (leof s1)) in HR'. exact HR'. }
        assert (Hp2 : cur s1 + (length acc - added) = p) by congruence.
        assert (HG : goodpos p) by (apply (At_good _ _ _ _ _ _ _ _ _ _ HF HA)).
        eapply safe_bind; [apply (go_read_quiet _ HQ); sp; [reflexivity|rewrite Hp2; exact HG]|]. sp. rewrite Hp2.
        intros _ s2 (G1 & G2 & G3 & G4 & G5 & G6 & G7 & G8 & f2 & G9).
        assert (HF3 : Flow True s2 Fnormal [] (p / bs) (p / bs) f2 0 0).
        { apply mkflow; [exact G9|exact G6|exact G8|rewrite G7; reflexivity|rewrite G7; exact HG]. }
        assert (HA3 : At (chk s2) (skipto s2) p [] (p / bs)) by (cbn; rewrite G5; auto).
        apply (IH n (length acc) acc s2 p Fnormal [] (p / bs) (p / bs) f2 0 0 HF3 HA3 G1); [congruence|lia|lia|left; auto|lia|lia|rewrite G2; exact HG].
      * unfold bindM, set_ign, set_lus. sp.
        assert (HF2 := pop_flow _ _ _ _ _ _ _ _ q (tst s1) (S i) HF1 eq_refl HL').
        apply (IH n added acc _ p Fstop [] k1 k1 Fstop a' (S c) HF2); sp; auto; try congruence; try lia. right. repeat split; lia.
Qed.

Lemma goodpos_read : forall p n, goodpos p -> goodpos (p + length (firstn n (skipn p F))).
Proof.
  intros p n H. rewrite firstn_length, skipn_length. destruct (le_lt_dec p L) as [X|X].
  - left; lia.
  - replace (p + Nat.min n (L - p)) with p by lia. exact H.
Qed.
(** reading threads at work *)
Lemma go_read_safe : forall s, Inv s -> leof s = false -> safe (go_read s) (fun _ s' => Live s' /\ cur s' = cur s).
Proof.
  intros s (Hg & He & [(H1 & H2 & H3 & H4)|HL]) Hl.
  - apply (safe_weak _ _ _ _ (go_read_quiet _ H1 H3 Hg)).
    intros _ s' (G1 & G2 & G3 & G4 & G5 & G6 & G7 & G8 & f & G9). split; [|exact G2]. split; [exact G1|]. split; [congruence|].
    exists Fnormal, [], (cur s / bs), (cur s / bs), f, 0. split; [apply mkflow; [exact G9|congruence|exact G8|rewrite G7; reflexivity|rewrite G7; exact Hg]|].
    split; [cbn; rewrite G5; congruence|]. left; split; [congruence|reflexivity].
  - unfold FetchModel.go_read. rewrite bind_get. pose proof HL as (Ht & _). rewrite Ht. apply safe_ok. auto.
Qed.
Lemma read_safe : forall n s, Inv s ->
  safe (read n s) (fun x s' => x = firstn n (skipn (cur s) F) /\ Inv s' /\ cur s' = cur s + length x /\ leof s' = leof s || (length x <? n)).
Proof.
  intros n s HI. unfold FetchModel.read. rewrite bind_get. destruct (leof s) eqn:El.
  - unfold ret. apply safe_ok. destruct HI as (H1 & H2 & H3). split; [|cbn; rewrite Nat.add_0_r; split; [split; auto|auto]].
    rewrite skipn_all2 by auto. rewrite firstn_nil. reflexivity.
  - eapply safe_bind; [apply (go_read_safe s HI El)|]. intros _ s1 (HL & Hc). rewrite bind_get.
    pose proof (Live_good _ HL) as Hgood. destruct HL as (Ht & Hl & req & pre & m & k & f & a & HF & HA & HM).
    assert (HM' : (ign s1 = 0 /\ req = Fnormal /\ 0 = 0) \/ (0 + ign s1 = W /\ 0 < ign s1 /\ req = Fstop)) by (destruct HM as [(-> & ->)|(-> & ->)]; [left|right]; auto).
    eapply safe_bind; [apply (read_loop_safe _ n 0 [] s1 (cur s1) req pre m k f a 0 HF HA Ht Hl (Nat.add_0_r _) (Nat.le_refl _) HM')|].
    + intro X; lia.
    + auto.
    + exact Hgood.
    + cbv zeta. cbn [app]. intros (added, acc) s2. cbn [fst snd]. rewrite Hc. intros (G1 & G2 & G3 & G4 & G5). rewrite bind_get. unfold bindM, set_cur, ret. apply safe_ok. sp.
      split; [exact G1|]. rewrite G3, <- G1 in *. rewrite orb_false_l. split; [|auto].
      destruct G5 as [(E1 & E2 & req2 & pre2 & m2 & k2 & f2 & a2 & HF2 & HA2 & HM2)|(E1 & R & E2)].
      * apply Live_inv. split; [exact E2|]. split; [exact E1|]. exists req2, pre2, m2, k2, f2, a2. split; [apply flow_main; exact HF2|]. split; [exact HA2|exact HM2].
      * split; [sp; rewrite G1; apply goodpos_read; rewrite <- Hc; exact Hgood|]. split; [auto|]. left. destruct R as (R1 & R2 & R3 & R4). split; [exact R1|auto].
Qed.
Notation sync := (sync W bs F bad skipok).
Notation read_ahead := (read_ahead W bs F bad skipok).
Notation skip_relative := (skip_relative W bs F bad skipok).
Lemma sync_safe : forall s, Inv s -> safe (sync s) (fun _ s' => Inv s' /\ cur s' = cur s /\ leof s' = leof s).
Proof.
  intros s HI. unfold FetchModel.sync. eapply safe_bind; [apply (send_stop_safe 0 s HI (or_intror eq_refl))|].
  intros b s' (E & [(_ & R & Hc)|(_ & X & _)]); [|congruence]. apply safe_ok. specialize (Hc eq_refl). destruct HI as (H1 & H2 & _).
  split; [|auto]. split; [rewrite Hc; exact H1|]. split; [rewrite Hc, E; exact H2|auto].
Qed.
Lemma ahead_safe : forall s, Inv s -> leof s = false -> safe (read_ahead s) (fun _ s' => Inv s' /\ cur s' = cur s /\ leof s' = leof s).
Proof.
  intros s HI Hl. unfold FetchModel.read_ahead. apply (safe_weak _ _ _ _ (go_read_safe s HI Hl)). intros _ s' (G1 & G2).
  split; [apply Live_inv; exact G1|]. split; [exact G2|]. destruct G1 as (_ & G1 & _). congruence.
Qed.
Lemma rel_safe : forall x s, Inv s -> (let q := if (0 <=? Z.of_nat (cur s) + x)%Z then Z.to_nat (Z.of_nat (cur s) + x) else 0 in goodpos q) ->
  safe (skip_relative x s) (fun b s' => b = (0 <=? Z.of_nat (cur s) + x)%Z /\ Inv s' /\
    cur s' = (if (0 <=? Z.of_nat (cur s) + x)%Z then Z.to_nat (Z.of_nat (cur s) + x) else 0) /\ leof s' = (if cur s' =? cur s then leof s else false)).
Proof.
  intros x s HI Hg. unfold FetchModel.skip_relative. rewrite bind_get. cbv zeta in Hg.
  destruct (Z.leb_spec 0 (Z.of_nat (cur s) + x)) as [X|X].
  - assert (G : safe (skip (Z.to_nat (Z.of_nat (cur s) + x)) s) (fun b s' => b = true /\ Inv s' /\ cur s' = Z.to_nat (Z.of_nat (cur s) + x) /\ leof s' = (if cur s' =? cur s then leof s else false))).
    { apply (safe_weak _ _ _ _ (skip_safe _ s HI Hg)). intros b s' (G1 & G2 & G3 & G4). rewrite G3. auto. }
    destruct (Z.leb_spec 0 x) as [Y|Y].
    + replace (cur s + Z.to_nat x) with (Z.to_nat (Z.of_nat (cur s) + x)) by lia. exact G.
    + destruct (Nat.leb_spec (Z.to_nat (- x)) (cur s)) as [Z0|Z0]; [|lia].
      replace (cur s - Z.to_nat (- x)) with (Z.to_nat (Z.of_nat (cur s) + x)) by lia. exact G.
  - destruct (Z.leb_spec 0 x) as [Y|Y]; [lia|]. destruct (Nat.leb_spec (Z.to_nat (- x)) (cur s)) as [Z0|Z0]; [lia|].
    eapply safe_bind; [apply (skip_safe 0 s HI Hg)|]. intros b s' (_ & G2 & G3 & G4). unfold ret. apply safe_ok. rewrite G3. auto.
Qed.
Notation skip_to_eof := (skip_to_eof W bs F bad skipok).
Lemma eof_safe : forall s, Inv s -> leof s = false ->
  safe (skip_to_eof s) (fun b s' => b = true /\ Inv s' /\ cur s' = L /\ leof s' = negb (L mod bs =? 0)).
Proof.
  intros s HI Hl. unfold FetchModel.skip_to_eof. eapply safe_bind; [apply (send_stop_safe 0 s HI (or_intror eq_refl))|].
  intros b s1 (E & [(_ & R & Hc)|(_ & X & _)]); [|congruence]. unfold bindM at 1. cbv iota beta. unfold bindM at 1, set_cur at 1. cbv iota beta. sp.
  pose proof (Nat.div_mod L bs ltac:(lia)) as DM. pose proof (Nat.mod_upper_bound L bs ltac:(lia)) as MB.
  match goal with |- safe (bindM _ _ ?t) _ => set (s2 := t) end.
  assert (I2 : Inv s2). { split; [left; unfold s2; sp; nia|]. split; [unfold s2; sp; intro; congruence|]. left. destruct R as (R1 & R2 & R3 & R4). split; [exact R1|auto]. }
  assert (L2 : leof s2 = false) by (unfold s2; sp; congruence).
  assert (C2 : cur s2 = L / bs * bs) by reflexivity.
  destruct (Nat.eqb_spec (L mod bs) 0) as [Z0|Z0].
  - rewrite bind_ret. unfold ret. apply safe_ok. split; [reflexivity|]. split; [exact I2|]. split; [lia|]. exact L2.
  - eapply safe_bind with (Q := fun _ s' => Inv s' /\ cur s' = L /\ leof s' = true).
    + eapply safe_bind; [apply (go_read_safe s2 I2 L2)|]. intros _ s3 (HL & Hc3). rewrite bind_get. cbn [eof_loop].
      pose proof (Live_inv _ HL) as I3. destruct HL as (_ & L3 & _).
      eapply safe_bind; [apply (read_safe bs s3 I3)|]. intros x s4 (-> & I4 & C4 & L4). rewrite firstn_length, skipn_length in *.
      destruct (Nat.eqb_spec (Nat.min bs (L - cur s3)) bs) as [Y|Y]; [nia|]. apply safe_ok. split; [exact I4|]. split; [nia|].
      rewrite L4, L3. cbn. apply Nat.ltb_lt. lia.
    + intros _ s3 (G1 & G2 & G3). unfold ret. apply safe_ok. auto.
Qed.

(** ** the end *)
Lemma rrun_noinit : forall n s, pc s <> RInit -> pc (rrun n s) <> RInit.
Proof.
  induction n as [|n IH]; intros s H; cbn; auto. apply IH. unfold FetchModel.rstep. destruct (pc s) as [| | | | |g k|g| | | | |] eqn:E; sp; try congruence.
  - destruct (flg s), (reof s); sp; discriminate.
  - destruct k; [destruct g; sp; discriminate|sp; discriminate].
  - destruct (flg s); sp; discriminate.
  - destruct (flg s); sp; discriminate.
Qed.
Lemma set_flag_quiet : forall f s, Quiet s ->
  safe (set_flag f s) (fun _ s' => Quiet s' /\ upto s s' /\ lus s' = lus s /\ chk s' = chk s /\ skipto s' = skipto s /\ flg s' = f /\ (pc s <> RInit -> pc s' <> RInit)).
Proof.
  intros f s HQ. unfold FetchModel.set_flag. eapply safe_bind; [apply tick_safe|]. cbv beta. intros _ s' (n & l & ->). apply safe_ok. sp.
  destruct (rrun_sched_same n l s) as (E1&E2&E3&E4&E5&E6&E7). pose proof (rrun_quiet n _ (sched_quiet l s HQ)) as HQ'.
  split; [exact HQ'|]. split; [repeat split; assumption|]. repeat split; auto. intro X. apply (rrun_noinit n (with_sched l s)). exact X.
Qed.
Definition Gone (s : st) : Prop := tst s = Dead /\ (pc s = REnd \/ pc s = RSend Fdie 0).
(** the order to end, sent to a thread at rest, then the acknowledgements *)
Lemma die_round : forall s, Quiet s -> lus s = [] -> tst s = Suspended -> ign s = 0 ->
  safe (bindM (set_flag Fdie) (fun _ => bindM (get tst) (fun t => bindM (match t with Suspended => bindM wait (fun _ => set_tst Running) | _ => ret tt end) (fun _ => purge 0))) s)
    (fun v s' => (v = Fdie /\ Gone s') \/ (v = Feof /\ pc s = RInit /\ pc s' <> RInit /\ Quiet s' /\ lus s' = [] /\ tst s' = Suspended /\ ign s' = 0)).
Proof.
  intros s HQ Hl Ht Hi. eapply safe_bind; [apply (set_flag_quiet Fdie s HQ)|]. intros _ s1 (Q1 & (U1&U2&U3&U4) & L1 & C1 & K1 & F1 & N1).
  rewrite bind_get. rewrite U1, Ht.
  eapply safe_bind with (Q := fun _ s' => tst s' = Running /\ ign s' = 0 /\ exists f, Flow (pc s = RInit) s' Fdie [] (skipto s1 / bs) (skipto s1 / bs) f 0 0).
  { eapply safe_bind; [unfold FetchModel.wait; apply (wait_safe (sched s1) s1 Fdie Q1 F1); [discriminate|apply Q1]|].
    intros _ s2 ((V1&V2&V3&V4) & K2 & L2 & C2 & f & HR & HF2). unfold set_tst. apply safe_ok. sp. split; [reflexivity|]. split; [congruence|]. exists f.
    apply mkflow; sp; [|congruence|exact HF2|congruence|rewrite K2; apply Q1].
    apply set_lus_RR. destruct HR as (H1 & H2). split; [exact H1|].
    assert (G : Fdie = Fnormal \/ pc s1 = RInit -> pc s = RInit).
    { intros [X|X]; [discriminate|]. destruct (pc s); try reflexivity; exfalso; apply N1; auto; discriminate. }
    destruct (pc s2) as [| | | | |g k|g| | | | |]; unfold fin in *; tauto. }
  intros _ s2 (T2 & I2 & f & HF2). unfold FetchModel.purge. rewrite !bind_get, T2.
  apply (safe_weak _ _ _ _ (data0 _ true s2 _ Fdie [] _ _ f 0 0 HF2 T2 I2 (or_introl eq_refl))).
  intros v s' [(_ & X & _)|([(-> & Hce)|(-> & _)] & (O1 & O2 & O3 & O4 & O5 & O6) & _)]; [congruence| |].
  - right. destruct O5 as ((O5 & O7) & O8); [discriminate|]. repeat split; auto; apply O5.
  - left. split; [reflexivity|]. exact (O6 eq_refl).
Qed.
Notation send_die := (send_die W bs F bad skipok).
Lemma send_die_safe : forall s, Rest s -> safe (send_die s) (fun _ s' => Gone s').
Proof.
  intros s (HQ & Hl & Ht & Hi). unfold FetchModel.send_die. rewrite bind_get, Ht.
  assert (A : forall K s0, bindM (set_flag Fdie) (fun _ => bindM (get tst) (fun t => bindM (match t with Suspended => bindM wait (fun _ => set_tst Running) | _ => ret tt end) (fun _ => bindM (purge 0) K))) s0
     = bindM (bindM (set_flag Fdie) (fun _ => bindM (get tst) (fun t => bindM (match t with Suspended => bindM wait (fun _ => set_tst Running) | _ => ret tt end) (fun _ => purge 0)))) K s0 :> res unit * st).
  { intros K s0. unfold bindM, get, ret, set_tst. destruct (set_flag Fdie s0) as [[x|e] s1]; auto. destruct (tst s1); auto. destruct (wait s1) as [[y|e] s2]; auto. }
  rewrite A. eapply safe_bind; [apply (die_round s HQ Hl Ht Hi)|].
  intros v s1 [(-> & G)|(-> & _ & N1 & Q1 & L1 & T1 & I1)]; [apply safe_ok; exact G|].
  rewrite A. eapply safe_bind; [apply (die_round s1 Q1 L1 T1 I1)|].
  intros v s2 [(-> & G)|(-> & X & _)]; [apply safe_ok; exact G|contradiction].
Qed.
Lemma join_safe : forall l s, pc s = REnd \/ pc s = RSend Fdie 0 -> safe (join_from W bs F bad skipok l s) (fun _ s' => pc s' = REnd).
Proof.
  induction l as [|(n, x) r IH]; intros s H; cbn; [reflexivity|].
  assert (H' : pc (rrun n s) = REnd \/ pc (rrun n s) = RSend Fdie 0).
  { clear - H. revert s H. induction n as [|n IH]; intros s H; cbn; auto. apply IH. unfold FetchModel.rstep. destruct H as [E|E]; rewrite E; sp; auto. }
  destruct H' as [E|E]; rewrite E; cbn [blocked]; [apply safe_ok; sp; exact E|]. apply IH. auto.
Qed.
Notation terminate := (terminate W bs F bad skipok).
Lemma terminate_safe : forall s, Inv s -> safe (terminate s) (fun _ s' => tst s' = Dead /\ pc s' = REnd).
Proof.
  intros s HI. unfold FetchModel.terminate. eapply safe_bind; [apply (send_stop_safe 0 s HI (or_intror eq_refl))|].
  intros b s1 (E & [(_ & R & Hc)|(_ & X & _)]); [|congruence]. rewrite bind_get. pose proof R as (R1 & R2 & R3 & R4). rewrite R3.
  eapply safe_bind with (Q := fun _ s' => Gone s').
  { unfold FetchModel.stop_threads. rewrite !bind_get, R3, R4, bind_ret. apply (send_die_safe s1 R). }
  intros _ s2 (D1 & D2). unfold FetchModel.join_threads.
  pose proof (join_safe (sched s2) s2 D2) as J. unfold safe in J. destruct (join_from W bs F bad skipok (sched s2) s2) as [[[]|e] s3]; cbn in J.
  - unfold set_tst. apply safe_ok. sp. auto.
  - exact J.
Qed.

(** ** a script of calls *)
Lemma good_of : forall q, q <= L \/ L <= q / bs * bs -> goodpos q.
Proof. intros q [H|H]; [left; exact H|right; apply blk_nil; exact H]. Qed.
Notation call := (call W bs F bad skipok).
Notation play := (play W bs F bad skipok).
Lemma call_safe : forall o r s, Inv s -> admissible bs F (cur s) (leof s) (o :: r) ->
  safe (call o s) (fun a s' => (a, cur s') = expect F (cur s) o /\ Inv s' /\ admissible bs F (cur s') (leof s') r).
Proof.
  intros o r s HI HA. cbn [admissible] in HA. cbv zeta in HA. destruct HA as (Hg & HA). apply good_of in Hg. destruct o as [n|q|x| | |]; cbn [FetchModel.call expect snd] in *.
  - eapply safe_bind; [apply (read_safe n s HI)|]. intros x s' (-> & G1 & G2 & G3). apply safe_ok. split; [rewrite G2; reflexivity|]. split; [exact G1|].
    rewrite G2, G3. rewrite firstn_length, skipn_length in *.
    replace (Nat.min n (L - cur s) <? n) with (L - cur s <? n); [exact HA|].
    destruct (Nat.ltb_spec (L - cur s) n), (Nat.ltb_spec (Nat.min n (L - cur s)) n); auto; lia.
  - eapply safe_bind; [apply (skip_safe q s HI Hg)|]. intros x s' (-> & G1 & G2 & G3). apply safe_ok. split; [rewrite G2; reflexivity|]. split; [exact G1|].
    rewrite G2, G3. destruct (q =? cur s); rewrite ?andb_true_r, ?andb_false_r in HA; exact HA.
  - assert (E : snd (if (0 <=? Z.of_nat (cur s) + x)%Z then (Abool true, Z.to_nat (Z.of_nat (cur s) + x)) else (Abool false, 0)) = if (0 <=? Z.of_nat (cur s) + x)%Z then Z.to_nat (Z.of_nat (cur s) + x) else 0)
      by (destruct (0 <=? Z.of_nat (cur s) + x)%Z; reflexivity).
    rewrite E in *. eapply safe_bind; [apply (rel_safe x s HI Hg)|]. intros b s' (-> & G1 & G2 & G3). apply safe_ok. rewrite <- G2 in HA. rewrite G2 at 1.
    split; [destruct (0 <=? Z.of_nat (cur s) + x)%Z; reflexivity|]. split; [exact G1|].
    rewrite G3. destruct (cur s' =? cur s); rewrite ?andb_true_r, ?andb_false_r in HA; exact HA.
  - destruct HA as (He & HA). eapply safe_bind; [apply (eof_safe s HI He)|]. intros b s' (-> & G1 & G2 & G3). apply safe_ok. rewrite G2, G3. auto.
  - eapply safe_bind; [apply (sync_safe s HI)|]. intros b s' (G1 & G2 & G3). apply safe_ok. rewrite G2, G3. auto.
  - destruct HA as (He & HA). eapply safe_bind; [apply (ahead_safe s HI He)|]. intros b s' (G1 & G2 & G3). apply safe_ok. rewrite G2, G3. auto.
Qed.
Lemma play_safe : forall l s, Inv s -> admissible bs F (cur s) (leof s) l ->
  safe (play l s) (fun x s' => x = expect_all F (cur s) l /\ tst s' = Dead /\ pc s' = REnd).
Proof.
  induction l as [|o r IH]; intros s HI HA.
  - cbn [FetchModel.play]. eapply safe_bind; [apply (terminate_safe s HI)|]. intros [] s' H. apply safe_ok. auto.
  - cbn [FetchModel.play expect_all]. cbv zeta.
    eapply safe_bind; [apply (call_safe o r s HI HA)|]. intros a s1 (E & I1 & A1). rewrite bind_get. rewrite <- E. cbn [snd].
    eapply safe_bind; [apply (IH s1 I1 A1)|]. intros x s2 (-> & G). apply safe_ok. auto.
Qed.
Lemma start_inv : forall e l, Inv (start e l).
Proof. intros e l. split; [left; cbn; lia|]. split; [discriminate|]. left. split; [|auto]. split; [reflexivity|]. split; [left; cbn; lia|exact I]. Qed.
Theorem play_right : forall l e sc, admissible bs F 0 false l ->
  match play l (start e sc) with
  | (Ok x, s') => x = expect_all F 0 l /\ tst s' = Dead /\ pc s' = REnd
  | (Err Fuel, _) => True
  | (Err _, _) => False
  end.
Proof.
  intros l e sc HA. pose proof (play_safe l (start e sc) (start_inv e sc) HA) as H. unfold safe in H.
  destruct (play l (start e sc)) as [[x|x] s']; cbn in *; [exact H|subst x; exact I].
Qed.
End P.
