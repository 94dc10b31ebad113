(** * The calls of FetchModel.v end: with a schedule that lets the reading thread move, and that is long enough, no run stops on the way. *)
From Coq Require Import List PeanoNat Bool.
From Verif Require Import Base FetchModel FetchSpec FetchProof.
Open Scope nat_scope.

Section L.
Variable W : nat.
Variable bs : nat.
Variable F : list N.
Variable bad : nat -> bool.
Variable skipok : nat -> bool.
Notation rstep := (rstep W bs F bad skipok).
Notation rrun := (rrun W bs F bad skipok).
Notation L := (length F).

Definition fair (l : list (nat * nat)) : Prop := Forall (fun e => 0 < fst e) l.
Definition sw (l : list (nat * nat)) : nat := list_sum (map (fun e => S (S (snd e))) l).
Lemma weight_eq : forall s, weight s = length (lus s) + sw (sched s).
Proof. reflexivity. Qed.
Lemma sw_cons : forall n k r, sw ((n, k) :: r) = S (S k) + sw r.
Proof. reflexivity. Qed.
Definition K : nat := 5 * L + 4 * W + 9.
Definition G : nat := 2 * K + 7.
Lemma K_eq : K = 5 * L + 4 * W + 9.
Proof. reflexivity. Qed.
Lemma G_eq : G = 2 * K + 7.
Proof. reflexivity. Qed.
Local Opaque K G.
(** how many steps the reading thread may still do by itself *)
Definition rem (s : st) : nat := L - epos s.
Definition ptop (s : st) (f : flag) : nat := if reof s then 4 * W + (if flag_eqb f Feof then 3 else 5) else 5 * rem s + 4 * W + 7.
Definition R (s : st) : nat :=
  match pc s with
  | RInit | RWait _ | REnd | RThrow => 0
  | RSend _ n => 4 * n + 2
  | RTop => ptop s (flg s)
  | RSetEof => S (ptop s Feof)
  | RRead => 5 * rem s + 4 * W + 6
  | RStart | REof2 | RStop1 => 5 * L + 4 * W + 8
  | REof1 => K
  end.
Definition Phi (s : st) : nat := R s + 2 * length (fifo s) + length (lus s).
Definition T (s : st) : nat := 2 * Phi s + (if ign s =? 0 then 0 else G).

Ltac sp := cbn [flg skipto fifo pc idx reof pif epos tst cur lus ign chk leof sched goto with_flag with_reof push get_ready with_sched with_main] in *.

Lemma ptop_le : forall s f, ptop s f <= 5 * L + 4 * W + 7.
Proof. intros s f. unfold ptop, rem. destruct (reof s); [destruct (flag_eqb f Feof); lia|lia]. Qed.
Lemma rstep_phi : forall s, blocked (pc s) = false -> Phi (rstep s) < Phi s.
Proof.
  intros s Hb. unfold Phi. destruct (rstep_same W bs F bad skipok s) as (_&_&El&_). rewrite El. clear El.
  assert (Hp : forall s0 f, ptop s0 f <= 5 * L + 4 * W + 7) by apply ptop_le.
  enough (H : R (rstep s) + 2 * length (fifo (rstep s)) < R s + 2 * length (fifo s)) by lia.
  unfold FetchModel.rstep. destruct (pc s) as [| | | | |g n|g| | | | |] eqn:E; try discriminate Hb; unfold R at 2; rewrite E.
  - sp. unfold R; sp. match goal with |- context [ptop ?a ?b] => specialize (Hp a b) end. lia.
  - unfold ptop. destruct (flg s) eqn:Ef, (reof s) eqn:Er; unfold R, ptop, rem; sp; rewrite ?Er, ?Ef; cbn [flag_eqb]; lia.
  - unfold read_block. destruct (is_nil (blk bs F (epos s))) eqn:En.
    + unfold R, ptop, rem; sp. cbn [flag_eqb]. destruct (flag_eqb (flg s) Feof); lia.
    + assert (He : epos s < L).
      { destruct (le_lt_dec L (epos s * bs)) as [X|X]; [|destruct bs as [|b0]; [cbn in En; discriminate|nia]].
        unfold blk in En. rewrite skipn_all2 in En by lia. rewrite firstn_nil in En. discriminate. }
      unfold R, ptop, rem; sp. rewrite app_length. cbn [length]. destruct (negb _); [destruct (flag_eqb (flg s) Feof); lia|lia].
  - unfold R, ptop, rem; sp. lia.
  - destruct n as [|n]; [destruct g; unfold R; sp; lia|]. unfold R; sp. rewrite app_length. cbn [length]. lia.
  - destruct (flg s) eqn:Ef; unfold R; sp; rewrite K_eq; lia.
  - destruct (flg s) eqn:Ef; unfold R; sp; match goal with |- context [ptop ?a ?b] => specialize (Hp a b) end; lia.
  - destruct (flg s) eqn:Ef; unfold R; sp; try lia; match goal with |- context [ptop ?a ?b] => specialize (Hp a b) end; lia.
Qed.
Lemma rstep_blocked : forall s, blocked (pc s) = true -> rstep s = s.
Proof. intros s H. unfold FetchModel.rstep. destruct (pc s); try discriminate; reflexivity. Qed.
Lemma rrun_blocked : forall n s, blocked (pc s) = true -> rrun n s = s.
Proof. induction n as [|n IH]; intros s H; cbn; auto. rewrite rstep_blocked by auto. auto. Qed.
Lemma rrun_phi : forall n s, Phi (rrun n s) <= Phi s.
Proof.
  induction n as [|n IH]; intro s; cbn; auto. specialize (IH (rstep s)). destruct (blocked (pc s)) eqn:E; [rewrite rstep_blocked in * by auto; exact IH|].
  pose proof (rstep_phi s E). lia.
Qed.
Lemma rrun_phi_lt : forall n s, 0 < n -> blocked (pc (rrun n s)) = false -> Phi (rrun n s) < Phi s.
Proof.
  intros n s Hn Hb. destruct n as [|n]; [lia|]. cbn in *. pose proof (rrun_phi n (rstep s)).
  destruct (blocked (pc s)) eqn:E; [rewrite (rstep_blocked s E), (rrun_blocked n s E) in Hb; congruence|]. pose proof (rstep_phi s E). lia.
Qed.

(** the cost of a part of a run *)
Definition Le (C : nat) (s s1 : st) : Prop :=
  weight s1 <= weight s /\ (fair (sched s) -> fair (sched s1) /\ T s1 + length (sched s) <= T s + length (sched s1) + C).
Definition ok {A} (C : nat) (s : st) (x : res A * st) : Prop :=
  match fst x with Ok _ => Le C s (snd x) | Err Fuel => sched (snd x) = [] /\ Le C s (snd x) | Err _ => True end.
Lemma Le_refl : forall s, Le 0 s s.
Proof. intro s. split; [lia|]. intro H. split; [exact H|lia]. Qed.
Lemma Le_trans : forall C1 C2 C s s1 s2, Le C1 s s1 -> Le C2 s1 s2 -> C1 + C2 <= C -> Le C s s2.
Proof.
  intros C1 C2 C s s1 s2 (H1 & H2) (H3 & H4) HC. split; [lia|]. intro Hf. destruct (H2 Hf) as (F1 & X1). destruct (H4 F1) as (F2 & X2). split; [exact F2|lia].
Qed.
Lemma ok_trans : forall A C1 C2 C s s1 (x : res A * st), Le C1 s s1 -> ok C2 s1 x -> C1 + C2 <= C -> ok C s x.
Proof.
  intros A C1 C2 C s s1 x H1 H2 HC. unfold ok in *. destruct (fst x) as [a|[]]; auto; try (eapply Le_trans; eassumption).
  destruct H2 as (H2 & H3). split; [exact H2|]. eapply Le_trans; eassumption.
Qed.
Lemma ok_bind : forall A B (m : M A) (f : A -> M B) s C1 C2 C, ok C1 s (m s) -> (forall a s1, m s = (Ok a, s1) -> ok C2 s1 (f a s1)) -> C1 + C2 <= C -> ok C s (bindM m f s).
Proof.
  intros A B m f s C1 C2 C H1 H2 HC. unfold bindM. destruct (m s) as [[a|e] s1] eqn:E.
  - apply (ok_trans _ C1 C2 C s s1); auto.
  - unfold ok in *; cbn in *. destruct e; auto. destruct H1 as (X1 & X2 & X3). split; [exact X1|]. split; [exact X2|]. intro Hf. destruct (X3 Hf) as (Y1 & Y2). split; [exact Y1|lia].
Qed.
Lemma ok_ret : forall A (a : A) s C, ok C s (ret a s).
Proof. intros A a s C. unfold ok, ret; cbn. apply (Le_trans 0 0 C s s s); [apply Le_refl|apply Le_refl|lia]. Qed.
Lemma ok_fail : forall A e s C, e <> Fuel -> ok C s (@fail A e s).
Proof. intros A e s C H. unfold ok, fail; cbn. destruct e; auto. congruence. Qed.
Lemma ok_weak : forall A C1 C s (x : res A * st), ok C1 s x -> C1 <= C -> ok C s x.
Proof. intros A C1 C s x H HC. apply (ok_trans _ 0 C1 C s s x); [apply Le_refl|exact H|lia]. Qed.
Lemma Le_main : forall t c l i k e s C, length l <= length (lus s) -> (i = 0 \/ ign s <> 0 \/ G <= C) -> Le C s (with_main t c l i k e s).
Proof.
  intros t c l i k e s C Hl Hi. unfold Le, weight, T, Phi, R, ptop, rem. sp. split; [lia|]. intro Hf. split; [exact Hf|].
  destruct (Nat.eqb_spec i 0), (Nat.eqb_spec (ign s) 0); lia.
Qed.

Notation tick := (tick W bs F bad skipok).
Notation wait := (wait W bs F bad skipok).
Notation gather := (gather W bs F bad skipok).
Notation set_flag := (set_flag W bs F bad skipok).
Notation set_pos := (set_pos W bs F bad skipok).
Notation go_read := (go_read W bs F bad skipok).
Notation read_refill := (read_refill W bs F bad skipok).

Lemma phi_sched : forall l s, Phi (with_sched l s) = Phi s.
Proof. reflexivity. Qed.
Lemma tick_ok : forall s, ok 1 s (tick s).
Proof.
  intro s. unfold FetchModel.tick, ok. destruct (sched s) as [|(n, k) r] eqn:E; cbn.
  - split; [exact E|]. apply (Le_trans 0 0 1 s s s); try apply Le_refl; lia.
  - destruct (rrun_same W bs F bad skipok n (with_sched r s)) as (_&_&El&Ei&_&_&_&Es). sp. unfold Le. rewrite !weight_eq, El, Es, E, sw_cons. cbn [length]. split; [lia|].
    intro Hf. inversion Hf; subst. split; [assumption|]. unfold T. rewrite Ei. pose proof (rrun_phi n (with_sched r s)) as P. rewrite phi_sched in P. sp. lia.
Qed.
Lemma flag_T : forall f s, T (with_flag f s) <= T s + 4.
Proof. intros f s. unfold T, Phi, R, ptop, rem; sp. destruct (pc s); try lia. destruct (reof s); [|lia]. destruct (flag_eqb f Feof), (flag_eqb (flg s) Feof); lia. Qed.
Lemma set_flag_ok : forall f s, ok 5 s (set_flag f s).
Proof.
  intros f s. unfold FetchModel.set_flag. apply (ok_bind _ _ _ _ _ 1 4); [apply tick_ok| |lia]. intros a s1 _. unfold ok; cbn. split; [reflexivity||(unfold weight; sp; lia)|].
  intro Hf. split; [exact Hf|]. pose proof (flag_T f s1). sp. lia.
Qed.
Lemma set_pos_ok : forall p s, ok 1 s (set_pos p s).
Proof.
  intros p s. unfold FetchModel.set_pos. apply (ok_bind _ _ _ _ _ 1 0); [apply tick_ok| |lia]. intros a s1 _. unfold ok; cbn. split; [unfold weight; sp; lia|].
  intro Hf. split; [exact Hf|]. unfold T, Phi, R, ptop, rem; sp. lia.
Qed.
Lemma Le_run : forall n k r s, blocked (pc (rrun n s)) = false -> Le 0 (with_sched ((n, k) :: r) s) (with_sched r (rrun n s)).
Proof.
  intros n k r s Hb. destruct (rrun_same W bs F bad skipok n s) as (_&_&El&Ei&_&_&_&Es). unfold Le. rewrite !weight_eq; sp. rewrite El, sw_cons. cbn [length]. split; [lia|].
  intro Hf. inversion Hf; subst. split; [assumption|]. cbn in *. pose proof (rrun_phi_lt n s ltac:(assumption) Hb). unfold T; sp. rewrite !phi_sched, Ei. lia.
Qed.
Lemma wait_ok : forall l s, ok (2 * K + 1) (with_sched l s) (wait_from W bs F bad skipok l s).
Proof.
  induction l as [|(n, k) r IH]; intro s; cbn.
  - unfold ok; cbn. split; [reflexivity|]. apply (Le_trans 0 0 _ _ (with_sched [] s)); try apply Le_refl; lia.
  - destruct (released (pc (rrun n s))) as [p|] eqn:Er.
    + unfold ok; cbn. destruct (rrun_same W bs F bad skipok n s) as (_&_&El&Ei&_&_&_&Es). unfold Le. rewrite !weight_eq; sp. rewrite El, sw_cons. cbn [length]. split; [lia|].
      intro Hf. inversion Hf; subst. split; [assumption|]. cbn in *.
      assert (P : Phi (with_sched r (goto p (rrun n s))) <= Phi s + K).
      { pose proof (rrun_phi n s) as P. rewrite phi_sched. unfold Phi in *; sp. assert (X : R (goto p (rrun n s)) <= K).
        { unfold R; sp. rewrite K_eq. destruct (pc (rrun n s)) as [| | | | |g j|g| | | | |]; try discriminate Er; [|destruct g; try discriminate Er]; injection Er as <-; lia. }
        lia. }
      unfold T; sp. rewrite Ei, !phi_sched in *. lia.
    + destruct (blocked (pc (rrun n s))) eqn:Eb; [exact I|]. apply (ok_trans _ 0 _ _ _ _ _ (Le_run n k r s Eb) (IH (rrun n s))). lia.
Qed.
Lemma with_sched_id : forall s, with_sched (sched s) s = s.
Proof. destruct s; reflexivity. Qed.
Lemma wait_keep : forall l s a s1, wait_from W bs F bad skipok l s = (Ok a, s1) -> lus s1 = lus s /\ tst s1 = tst s /\ leof s1 = leof s /\ ign s1 = ign s.
Proof.
  induction l as [|(n, k) r IH]; intros s a s1; cbn; [discriminate|]. destruct (rrun_same W bs F bad skipok n s) as (Et&_&El&Ei&_&Ee&_&_).
  destruct (released _); [intro E; injection E as _ <-; sp; auto|]. destruct (blocked _); [discriminate|]. intro E. destruct (IH _ _ _ E) as (->&->&->&->). auto.
Qed.
Lemma tick_keep : forall s a s1, tick s = (Ok a, s1) -> lus s1 = lus s /\ tst s1 = tst s /\ leof s1 = leof s /\ ign s1 = ign s.
Proof.
  intros s a s1. unfold FetchModel.tick. destruct (sched s) as [|(n, k) r]; [discriminate|]. intro E. injection E as _ <-.
  destruct (rrun_same W bs F bad skipok n (with_sched r s)) as (Et&_&El&Ei&_&Ee&_&_). auto.
Qed.
Lemma bind_inv : forall A B (m : M A) (f : A -> M B) s b s2, bindM m f s = (Ok b, s2) -> exists a s1, m s = (Ok a, s1) /\ f a s1 = (Ok b, s2).
Proof. intros A B m f s b s2. unfold bindM. destruct (m s) as [[a|e] s1]; [|discriminate]. exists a, s1; auto. Qed.
Lemma go_read_ok : forall s, ok G s (go_read s).
Proof.
  intro s. unfold FetchModel.go_read. rewrite bind_get. destruct (tst s); [apply ok_ret| |exact I].
  rewrite bind_get. apply (ok_bind _ _ _ _ _ 1 (2 * K + 6)); [apply set_pos_ok| |rewrite G_eq; lia]. intros _ s1 _.
  apply (ok_bind _ _ _ _ _ 5 (2 * K + 1)); [apply set_flag_ok| |lia]. intros _ s2 _.
  apply (ok_bind _ _ _ _ _ (2 * K + 1) 0); [unfold FetchModel.wait; pose proof (wait_ok (sched s2) s2) as X; rewrite with_sched_id in X; exact X| |lia].
  intros _ s3 _. unfold bindM, set_tst, set_chk. unfold ok; cbn. apply (Le_trans 0 0 0 _ (with_main Running (cur s3) (lus s3) (ign s3) (chk s3) (leof s3) s3)); [apply Le_main; auto|apply Le_main; sp; auto|lia].
  all: destruct (Nat.eq_dec (ign s3) 0); auto.
Qed.
Lemma go_read_keep : forall s a s1, go_read s = (Ok a, s1) -> lus s1 = lus s /\ tst s1 = Running /\ leof s1 = leof s.
Proof.
  intros s a s1. unfold FetchModel.go_read. rewrite bind_get. destruct (tst s) eqn:Et; [|rewrite bind_get|discriminate].
  - unfold ret. intro E. injection E as _ <-. auto.
  - intro E. apply bind_inv in E. destruct E as (? & s2 & E2 & E). apply bind_inv in E. destruct E as (? & s3 & E3 & E). apply bind_inv in E. destruct E as (? & s4 & E4 & E).
    unfold FetchModel.set_pos in E2. apply bind_inv in E2. destruct E2 as (? & s2' & E2 & E2'). injection E2' as _ <-. destruct (tick_keep _ _ _ E2) as (A1&A2&A3&_).
    unfold FetchModel.set_flag in E3. apply bind_inv in E3. destruct E3 as (? & s3' & E3 & E3'). injection E3' as _ <-. destruct (tick_keep _ _ _ E3) as (B1&B2&B3&_).
    destruct (wait_keep _ _ _ _ E4) as (C1&C2&C3&_). unfold bindM, set_tst, set_chk in E. injection E as _ <-. sp. repeat split; congruence.
Qed.

Lemma gather_ok : forall l s, lus s = [] ->
  match gather_from W bs F bad skipok l s with
  | (Ok _, s1) => sw (sched s1) + length (lus s1) < sw l /\ lus s1 <> [] /\ tst s1 = tst s /\ ign s1 = ign s /\ leof s1 = leof s /\ (fair l -> fair (sched s1) /\ T s1 + length l + 1 <= T s + length (sched s1))
  | (Err Fuel, s1) => sched s1 = [] /\ lus s1 = [] /\ (fair l -> T s1 + length l <= T s)
  | _ => True
  end.
Proof.
  induction l as [|(n, k) r IH]; intros s Hl; cbn [gather_from].
  - cbn [length sched with_sched]. split; [reflexivity|]. split; [exact Hl|]. intros _. unfold T; sp. rewrite phi_sched. lia.
  - destruct (rrun_same W bs F bad skipok n s) as (Et&_&El&Ei&_&Ee&_&Es). pose proof (rrun_phi n s) as P.
    destruct (fifo (rrun n s)) as [|i q] eqn:Eq.
    + destruct (blocked (pc (rrun n s))) eqn:Eb; [exact I|].
      assert (Hl' : lus (rrun n s) = []) by congruence. specialize (IH (rrun n s) Hl').
      assert (TT : fair ((n, k) :: r) -> fair r /\ T (rrun n s) + 2 <= T s).
      { intro Hf. inversion Hf; subst. split; [assumption|]. cbn in *. pose proof (rrun_phi_lt n s ltac:(assumption) Eb). unfold T. rewrite Ei. lia. }
      destruct (gather_from W bs F bad skipok r (rrun n s)) as [[a|[]] s1]; auto.
      * destruct IH as (H1 & H2 & H3 & H4 & H5 & H6). split; [rewrite sw_cons; lia|]. split; [exact H2|]. split; [congruence|]. split; [congruence|]. split; [congruence|].
        intro Hf. destruct (TT Hf) as (F1 & X1). destruct (H6 F1) as (F2 & X2). split; [exact F2|cbn [length]; lia].
      * destruct IH as (H1 & H2 & H3). split; [exact H1|]. split; [exact H2|]. intro Hf. destruct (TT Hf) as (F1 & X1). specialize (H3 F1). cbn [length]. lia.
    + sp. cbn [firstn skipn length]. assert (Hk : length (firstn k q) <= k) by (rewrite firstn_length; lia).
      split; [rewrite sw_cons; cbn [firstn length]; lia|]. split; [discriminate|]. split; [exact Et|]. split; [exact Ei|]. split; [exact Ee|]. intro Hf. inversion Hf; subst. split; [assumption|].
      unfold T; sp. rewrite Ei. unfold Phi in *; sp. rewrite El, Hl, Eq in P. cbn [length] in *.
      pose proof (f_equal (@length _) (firstn_skipn k q)) as FS. rewrite app_length in FS. unfold R, ptop, rem in *; sp. rewrite Hl. cbn [length]. lia.
Qed.
Lemma ok_pay : forall A s s1 (x : res A * st), weight s1 <= weight s -> (fair (sched s) -> fair (sched s1) /\ T s1 + length (sched s) + 1 <= T s + length (sched s1)) -> ok 1 s1 x -> ok 0 s x.
Proof.
  intros A s s1 x H1 H2 H3. assert (HL : Le 1 s1 (snd x) -> Le 0 s (snd x)).
  { intros (Y1 & Y2). split; [lia|]. intro Hf. destruct (H2 Hf) as (F1 & X1). destruct (Y2 F1) as (F2 & X2). split; [exact F2|lia]. }
  unfold ok in *. destruct (fst x) as [a|[]]; auto. destruct H3; auto.
Qed.
(** read_refill costs nothing: the blocks it takes pay for it *)
Lemma read_refill_ok : forall s, ok 0 s (read_refill s).
Proof.
  intro s. unfold FetchModel.read_refill. rewrite !bind_get. destruct (lus s) as [|i q] eqn:El; [|apply ok_ret].
  assert (H : ok 0 s (bindM gather (fun _ => bindM (get lus) (fun l => bindM (get chk) (fun c =>
    match l, c with
    | IData b o :: r, true => bindM tick (fun _ => bindM (get pif) (fun p => bindM (set_chk false) (fun _ => if p =? 0 then ret tt else if p <=? length b then set_lus (IData b p :: r) else fail Ebug)))
    | [], _ => fail Ebug
    | _, _ => ret tt
    end))) s)).
  { pose proof (gather_ok (sched s) s El) as HG. unfold bindM at 1, FetchModel.gather. destruct (gather_from W bs F bad skipok (sched s) s) as [[a|e] s1].
    - destruct HG as (H1 & H2 & H3 & H4 & H5 & H6). rewrite !bind_get.
      assert (HL : Le 0 s s1). { split; [unfold weight; rewrite El; unfold sw in *; cbn; lia|]. intro Hf. destruct (H6 Hf) as (F1 & X1). split; [exact F1|lia]. }
      assert (Hno : ok 0 s (ret tt s1)) by (apply (ok_trans _ 0 0 0 s s1); [exact HL|apply ok_ret|lia]).
      destruct (lus s1) as [|[b o| |g] r] eqn:E1; try exact Hno; [exact I|].
      destruct (chk s1); [|exact Hno].
      assert (G1 : ok 1 s1 (bindM tick (fun _ => bindM (get pif) (fun p => bindM (set_chk false) (fun _ => if p =? 0 then ret tt else if p <=? length b then set_lus (IData b p :: r) else fail Ebug))) s1)).
      { apply (ok_bind _ _ _ _ _ 1 0); [apply tick_ok| |lia]. intros x s2 E2. destruct (tick_keep _ _ _ E2) as (K1&_&_&_). rewrite bind_get. unfold bindM, set_chk.
        assert (M1 : forall l, length l <= length (lus s2) -> Le 0 s2 (with_main (tst s2) (cur s2) l (ign s2) false (leof s2) s2)).
        { intros l Hl. apply Le_main; [exact Hl|]. destruct (Nat.eq_dec (ign s2) 0); auto. }
        destruct (pif s2 =? 0); [unfold ret, ok; cbn; apply M1; lia|]. destruct (pif s2 <=? length b); [|exact I]. unfold set_lus, ok; cbn.
        change (Le 0 s2 (with_main (tst s2) (cur s2) (IData b (pif s2) :: r) (ign s2) false (leof s2) s2)). apply M1. rewrite K1, E1. cbn. lia. }
      apply (ok_pay _ s s1); [apply HL|exact H6|exact G1].
    - destruct e; auto; try exact I. destruct HG as (H1 & H2 & H3). unfold ok; cbn. split; [exact H1|]. split; [unfold weight; rewrite H2, El, H1; cbn; lia|].
      intro Hf. specialize (H3 Hf). rewrite H1. split; [constructor|]. cbn [length]. lia. }
  destruct (tst s); [exact H|exact H|apply ok_ret].
Qed.
Lemma read_refill_keep : forall s a s1, read_refill s = (Ok a, s1) ->
  tst s1 = tst s /\ leof s1 = leof s /\ ign s1 = ign s /\ (lus s <> [] -> s1 = s) /\ (lus s = [] -> tst s <> Dead -> weight s1 < weight s /\ lus s1 <> []).
Proof.
  intros s a s1. unfold FetchModel.read_refill. rewrite !bind_get. destruct (lus s) as [|i q] eqn:El.
  2:{ unfold ret. intro E. injection E as _ <-. repeat split; auto; congruence. }
  assert (H : (bindM gather (fun _ => bindM (get lus) (fun l => bindM (get chk) (fun c =>
    match l, c with
    | IData b o :: r, true => bindM tick (fun _ => bindM (get pif) (fun p => bindM (set_chk false) (fun _ => if p =? 0 then ret tt else if p <=? length b then set_lus (IData b p :: r) else fail Ebug)))
    | [], _ => fail Ebug
    | _, _ => ret tt
    end))) s) = (Ok a, s1) -> tst s1 = tst s /\ leof s1 = leof s /\ ign s1 = ign s /\ weight s1 < weight s /\ lus s1 <> []).
  { pose proof (gather_ok (sched s) s El) as HG. unfold bindM at 1, FetchModel.gather. destruct (gather_from W bs F bad skipok (sched s) s) as [[a'|e] s2]; [|discriminate].
    destruct HG as (H1 & H2 & H3 & H4 & H5 & _). rewrite !bind_get.
    assert (Hw : weight s2 < weight s) by (unfold weight; rewrite El; unfold sw in *; cbn; lia).
    assert (Hno : ret tt s2 = (Ok a, s1) -> tst s1 = tst s /\ leof s1 = leof s /\ ign s1 = ign s /\ weight s1 < weight s /\ lus s1 <> []).
    { unfold ret. intro E. injection E as _ <-. auto. }
    destruct (lus s2) as [|[b o| |g] r] eqn:E1; try exact Hno; [discriminate|]. destruct (chk s2); [|exact Hno].
    intro E. apply bind_inv in E. destruct E as (x & s3 & E3 & E). rewrite bind_get in E. destruct (tick_keep _ _ _ E3) as (K1&K2&K3&K4).
    pose proof (tick_ok s2) as TO. rewrite E3 in TO. destruct TO as (TO & _). cbn in TO. unfold bindM, set_chk in E.
    assert (Fin : forall l, l <> [] -> length l <= length (lus s3) -> let s4 := with_main (tst s3) (cur s3) l (ign s3) false (leof s3) s3 in
      tst s4 = tst s /\ leof s4 = leof s /\ ign s4 = ign s /\ weight s4 < weight s /\ lus s4 <> []).
    { intros l Hl1 Hl2 s4. unfold s4; sp. split; [congruence|]. split; [congruence|]. split; [congruence|]. split; [|exact Hl1]. unfold weight in *; sp. lia. }
    destruct (pif s3 =? 0); [unfold ret in E; injection E as _ <-; apply Fin; [congruence|lia]|].
    destruct (pif s3 <=? length b); [|discriminate]. unfold set_lus in E. injection E as _ <-. sp. apply (Fin (IData b (pif s3) :: r)); [discriminate|rewrite K1, E1; cbn; lia]. }
  destruct (tst s) eqn:Et; [intro E; destruct (H E) as (?&?&?&?&?); repeat split; auto; congruence|intro E; destruct (H E) as (?&?&?&?&?); repeat split; auto; congruence|].
  unfold ret. intro E. injection E as _ <-. repeat split; auto; congruence.
Qed.

(** ** looking for a position in the blocks at hand *)
Lemma find_loop_len : forall pos l c fd p l', find_loop pos l c = (fd, p, l') -> length l' <= length l /\ (fd = false -> l' = l \/ length l' < length l).
Proof.
  intros pos. induction l as [|[b o| |g] r IH]; intros c fd p l'; cbn [find_loop]; try (intro E; injection E as <- <- <-; split; auto; fail).
  destruct (pos <? c).
  - destruct (c <=? pos + o); intro E; injection E as <- <- <-; (split; [cbn; lia|intros; try discriminate; auto]).
  - destruct (pos <? c + (length b - o)); [intro E; injection E as <- <- <-; (split; [cbn; lia|discriminate])|].
    destruct ((c + (length b - o) =? pos) && negb (is_nil r)); [intro E; injection E as <- <- <-; cbn; split; [lia|discriminate]|].
    intro E. destruct (IH _ _ _ _ E) as (H1 & H2). cbn. split; [lia|]. intro X. right. destruct (H2 X) as [->|Y]; cbn in *; lia.
Qed.
Lemma find_ok : forall pos s, ok 0 s (find_offset pos s).
Proof.
  intros pos s. unfold find_offset. destruct (find_loop pos (lus s) (cur s)) as ((fd, p), l') eqn:E. unfold ok; cbn. apply Le_main; [apply (find_loop_len _ _ _ _ _ _ E)|].
  destruct (Nat.eq_dec (ign s) 0); auto.
Qed.
Lemma find_keep : forall pos s fd s1, find_offset pos s = (Ok fd, s1) ->
  tst s1 = tst s /\ leof s1 = leof s /\ ign s1 = ign s /\ sched s1 = sched s /\ length (lus s1) <= length (lus s) /\ (fd = false -> lus s1 = lus s \/ length (lus s1) < length (lus s)).
Proof.
  intros pos s fd s1. unfold find_offset. destruct (find_loop pos (lus s) (cur s)) as ((fd', p), l') eqn:E. intro X. injection X as -> <-. sp.
  destruct (find_loop_len _ _ _ _ _ _ E). auto 10.
Qed.
Lemma Leq_main : forall t c l k e s, length l <= length (lus s) -> Le 0 s (with_main t c l (ign s) k e s).
Proof. intros t c l k e s H. apply Le_main; [exact H|]. destruct (Nat.eq_dec (ign s) 0); auto. Qed.

(** ** waiting for the acknowledgements *)
Notation purge_loop := (purge_loop W bs F bad skipok).
Definition mu (top : bool) (num : nat) (s : st) : nat :=
  if top then 3 * weight s + 1 else match num with O => 0 | _ => 3 * weight s + match lus s with [] => 2 | _ => 0 end end.
Lemma mu_false : forall num s, mu false num s <= 3 * weight s + 2.
Proof. intros num s. unfold mu. destruct num; [lia|]. destruct (lus s); lia. Qed.
Lemma purge_loop_ok : forall fuel top num r pos s, mu top num s < fuel -> tst s <> Dead \/ (top = false /\ num = 0) -> ok G s (purge_loop fuel top num r pos s).
Proof.
  induction fuel as [|fuel IH]; intros top num r pos s Hm Ht; [lia|]. cbn [FetchModel.purge_loop]. destruct top.
  - destruct Ht as [Ht|(X & _)]; [|discriminate]. change (3 * weight s + 1 < S fuel) in Hm.
    apply (ok_bind _ _ _ _ _ 0 G); [apply read_refill_ok| |lia]. intros a s1 E1. destruct (read_refill_keep _ _ _ E1) as (A1 & A2 & A3 & A4 & A5).
    assert (Hs1 : (s1 = s /\ lus s1 <> []) \/ (weight s1 < weight s /\ lus s1 <> [])).
    { destruct (lus s) eqn:El; [right; apply A5; auto|left]. assert (Es : s1 = s) by (apply A4; discriminate). split; [exact Es|rewrite Es, El; discriminate]. }
    assert (M1 : mu false num s1 < fuel). { destruct Hs1 as [(-> & X)|(X & Y)]; [|pose proof (mu_false num s1); lia]. unfold mu. destruct num; [lia|]. destruct (lus s); [congruence|lia]. }
    assert (T1 : tst s1 <> Dead) by congruence.
    destruct (negb (pos =? 0) && flag_eqb r Fnormal); [|apply IH; auto].
    apply (ok_bind _ _ _ _ _ 0 G); [apply find_ok| |lia]. intros fd s2 E2. destruct (find_keep _ _ _ _ E2) as (B1 & B2 & B3 & B4 & B5 & B6). destruct fd.
    + unfold bindM, set_ign. apply (ok_trans _ G 0 G s2 (with_main (tst s2) (cur s2) (lus s2) num (chk s2) (leof s2) s2)); [apply Le_main; auto| |lia].
      destruct fuel as [|fuel]; [unfold mu in M1; lia|]. cbn [FetchModel.purge_loop]. rewrite bind_get. sp. destruct (lus s2) as [|[] ?]; apply ok_ret.
    + apply IH; [|left; congruence]. destruct (B6 eq_refl) as [X|X].
      * replace (mu false num s2) with (mu false num s1); [exact M1|]. unfold mu, weight. rewrite X, B4. reflexivity.
      * pose proof (mu_false num s2) as Y. assert (weight s2 < weight s1) by (unfold weight; rewrite B4; lia). destruct Hs1 as [(-> & _)|(Z & _)]; lia.
  - rewrite bind_get. destruct num as [|n]; [destruct (lus s) as [|[] ?]; apply ok_ret|].
    destruct Ht as [Ht|(_ & X)]; [|discriminate].
    destruct (lus s) as [|i q] eqn:El; [apply IH; [unfold mu in *; rewrite El in Hm; lia|auto]|].
    assert (Hm' : 3 * weight s < S fuel) by (unfold mu in Hm; rewrite El in Hm; lia).
    assert (Lq : length q <= length (lus s)) by (rewrite El; cbn; lia).
    assert (Pop : forall num r pos t i, (i = 0 \/ ign s <> 0) -> t <> Dead \/ num = 0 -> ok G s (purge_loop fuel false num r pos (with_main t (cur s) q i (chk s) (leof s) s))).
    { intros num r0 pos0 t i0 Hi Ht0. apply (ok_trans _ 0 G G s (with_main t (cur s) q i0 (chk s) (leof s) s)); [apply Le_main; tauto| |lia]. apply IH; [|sp; tauto].
      eapply Nat.le_lt_trans; [apply mu_false|]. unfold weight in *; sp. rewrite El in Hm'. cbn [length] in Hm'. lia. }
    assert (Hi : ign s = 0 \/ ign s <> 0) by lia.
    destruct i as [b o| |g].
    + unfold bindM, set_lus. apply Pop; auto.
    + unfold bindM, set_lus. apply Pop; auto.
    + rewrite bind_get.
      set (r1 := if flag_eqb r Fnormal then g else r). set (i' := if flag_eqb r Fnormal && negb (flag_eqb g Fstop) && negb (flag_eqb g Feof) then 0 else ign s).
      assert (Hi' : i' = 0 \/ ign s <> 0) by (unfold i'; destruct (_ && _ && _); auto).
      unfold bindM at 1, set_ign at 1. cbv iota beta. destruct (negb (flag_eqb g r1)); [exact I|].
      destruct i' as [|i''] eqn:Ei.
      * destruct n as [|n].
        -- unfold bindM, set_tst, set_lus. sp. apply Pop; auto.
        -- unfold bindM, set_lus. sp. apply Pop; auto.
      * assert (Hn : ign s <> 0) by (destruct Hi'; [discriminate|auto]). unfold bindM at 1, set_ign at 1. cbv iota beta. sp.
        destruct i'' as [|i''].
        -- unfold bindM at 1, set_tst at 1. cbv iota beta. sp. destruct (negb (flag_eqb r1 Feof)).
           ++ set (s1 := with_main Suspended (cur s) (lus s) 0 (chk s) (leof s) s).
              assert (L1 : weight s1 = weight s /\ (fair (sched s) -> T s1 + G <= T s)).
              { split; [reflexivity|]. intros _. unfold T, Phi, R, ptop, rem, s1; sp. destruct (ign s); [congruence|]. cbn. lia. }
              pose proof (go_read_ok s1) as GO.
              assert (St : forall s2 a, go_read s1 = (Ok a, s2) -> Le 0 s s2).
              { intros s2 a E. rewrite E in GO. destruct GO as (Y1 & Y2). cbn [snd] in *. destruct L1 as (L1 & L2). split; [lia|]. intro Hf. destruct (Y2 Hf) as (F1 & X1). split; [exact F1|].
                specialize (L2 Hf). change (sched s1) with (sched s) in X1. lia. }
              change (ok G s (bindM go_read (fun _ => bindM (set_lus q) (fun _ => purge_loop fuel false (S n) Fnormal 0)) s1)).
              unfold bindM at 1. destruct (go_read s1) as [[a|e] s2] eqn:E.
              ** specialize (St s2 a eq_refl). destruct (go_read_keep _ _ _ E) as (K1 & K2 & K3). unfold s1 in K1; sp. unfold bindM, set_lus.
                 apply (ok_trans _ 0 G G s s2); [exact St| |lia].
                 apply (ok_trans _ 0 G G s2 (with_main (tst s2) (cur s2) q (ign s2) (chk s2) (leof s2) s2)); [apply Leq_main; rewrite K1; exact Lq| |lia]. apply IH; [|sp; left; congruence].
                 destruct St as (St & _). eapply Nat.le_lt_trans; [apply mu_false|]. unfold weight in *; sp. rewrite K1, El in St. rewrite El in Hm'. cbn [length] in *. lia.
              ** unfold ok in *; cbn [fst snd] in *. destruct e; auto. destruct GO as (Y0 & Y1 & Y2). split; [exact Y0|]. destruct L1 as (L1 & L2). split; [lia|]. intro Hf. destruct (Y2 Hf) as (F1 & X1). split; [exact F1|].
                 specialize (L2 Hf). change (sched s1) with (sched s) in X1. lia.
           ++ unfold bindM, set_lus. sp. apply Pop; auto.
        -- unfold bindM, set_lus. sp. apply Pop; auto.
Qed.
Notation purge := (purge W bs F bad skipok).
Lemma purge_ok : forall pos s, ok G s (purge pos s).
Proof.
  intros pos s. unfold FetchModel.purge. rewrite !bind_get. destruct (tst s) eqn:Et; [| |exact I]; (apply purge_loop_ok; [unfold mu; lia|left; congruence]).
Qed.
Lemma purge_loop_leof : forall fuel top num r pos s v s1, purge_loop fuel top num r pos s = (Ok v, s1) -> leof s1 = leof s.
Proof.
  induction fuel as [|fuel IH]; intros top num r pos s v s1; [discriminate|]. cbn [FetchModel.purge_loop]. destruct top.
  - intro E. apply bind_inv in E. destruct E as (a & s2 & E2 & E). destruct (read_refill_keep _ _ _ E2) as (_ & A2 & _).
    destruct (negb (pos =? 0) && flag_eqb r Fnormal).
    + apply bind_inv in E. destruct E as (fd & s3 & E3 & E). destruct (find_keep _ _ _ _ E3) as (_ & B2 & _). destruct fd.
      * unfold bindM, set_ign in E. apply IH in E. sp. congruence.
      * apply IH in E. congruence.
    + apply IH in E. congruence.
  - rewrite bind_get. destruct (lus s) as [|i q]; [destruct num; [unfold ret; intro E; injection E as _ <-; reflexivity|apply IH]|].
    destruct num as [|n]; [destruct i; unfold ret; intro E; injection E as _ <-; reflexivity|].
    destruct i as [b o| |g]; try (unfold bindM, set_lus; intro E; apply IH in E; exact E).
    rewrite bind_get. unfold bindM at 1, set_ign at 1. cbv iota beta. destruct (negb _); [discriminate|].
    destruct (if flag_eqb r Fnormal && negb (flag_eqb g Fstop) && negb (flag_eqb g Feof) then 0 else ign s) as [|[|i'']].
    + destruct n; unfold bindM, set_tst, set_lus; intro E; apply IH in E; exact E.
    + unfold bindM at 1, set_ign at 1. cbv iota beta. unfold bindM at 1, set_tst at 1. cbv iota beta. destruct (negb _).
      * intro E. apply bind_inv in E. destruct E as (a & s2 & E2 & E). destruct (go_read_keep _ _ _ E2) as (_ & _ & K3). unfold bindM, set_lus in E. apply IH in E. sp. congruence.
      * unfold bindM, set_lus. intro E; apply IH in E; exact E.
    + unfold bindM, set_ign, set_lus. intro E; apply IH in E; exact E.
Qed.
Lemma purge_leof : forall pos s v s1, purge pos s = (Ok v, s1) -> leof s1 = leof s.
Proof. intros pos s v s1. unfold FetchModel.purge. rewrite !bind_get. destruct (tst s); [apply purge_loop_leof|apply purge_loop_leof|discriminate]. Qed.

Notation unack_loop := (unack_loop W bs F bad skipok).
Lemma unack_ok : forall fuel lookup pos s, weight s < fuel -> ok 0 s (unack_loop fuel lookup pos s).
Proof.
  induction fuel as [|fuel IH]; intros lookup pos s Hm; [lia|]. cbn [FetchModel.unack_loop].
  apply (ok_bind _ _ _ _ _ 0 0); [apply read_refill_ok| |lia]. intros a s1 E1. pose proof (read_refill_ok s) as RO. rewrite E1 in RO. destruct RO as (RO & _). cbn in RO.
  rewrite bind_get. destruct (lus s1) as [|i q] eqn:El; [exact I|].
  assert (Pop : forall i0 lk, (i0 = 0 \/ ign s1 <> 0) -> ok 0 s1 (unack_loop fuel lk pos (with_main (tst s1) (cur s1) q i0 (chk s1) (leof s1) s1))).
  { intros i0 lk Hi. apply (ok_trans _ 0 0 0 s1 (with_main (tst s1) (cur s1) q i0 (chk s1) (leof s1) s1)); [apply Le_main; [rewrite El; cbn; lia|tauto]| |lia]. apply IH.
    unfold weight in *; sp. rewrite El in RO. cbn [length] in RO. lia. }
  assert (Data : i <> IOrd Fnormal /\ (forall g, i <> IOrd g) -> ok 0 s1 (bindM (if lookup && negb (pos =? 0) then find_offset pos else ret false) (fun f =>
     if f then ret false else bindM (get lus) (fun l => match l with [] => unack_loop fuel lookup pos | IOrd _ :: _ => unack_loop fuel lookup pos | _ :: q => bindM (set_lus q) (fun _ => unack_loop fuel false pos) end)) s1)).
  { intros (_ & Hi). apply (ok_bind _ _ _ _ _ 0 0); [destruct (lookup && negb (pos =? 0)); [apply find_ok|apply ok_ret]| |lia]. intros fd s2 E2.
    assert (B : sched s2 = sched s1 /\ (fd = false -> lus s2 = lus s1 \/ length (lus s2) < length (lus s1))).
    { destruct (lookup && negb (pos =? 0)); [destruct (find_keep _ _ _ _ E2) as (_&_&_&B4&_&B6); auto|unfold ret in E2; injection E2 as _ <-; auto]. }
    destruct B as (B4 & B6). destruct fd; [apply ok_ret|]. rewrite bind_get.
    assert (Same : lus s2 <> lus s1 -> ok 0 s2 (unack_loop fuel lookup pos s2)).
    { intro X. apply IH. destruct (B6 eq_refl) as [Y|Y]; [contradiction|]. unfold weight in *. rewrite B4. lia. }
    assert (P2 : forall i2 q2, lus s2 = i2 :: q2 -> ok 0 s2 (bindM (set_lus q2) (fun _ => unack_loop fuel false pos) s2)).
    { intros i2 q2 E. unfold bindM, set_lus. apply (ok_trans _ 0 0 0 s2 (with_main (tst s2) (cur s2) q2 (ign s2) (chk s2) (leof s2) s2)); [apply Leq_main; rewrite E; cbn; lia| |lia]. apply IH.
      assert (length (lus s2) <= length (lus s1)) by (destruct (B6 eq_refl) as [->|]; lia). rewrite E in H. cbn in H. unfold weight in *; sp. rewrite B4. lia. }
    destruct (lus s2) as [|[b2 o2| |g2] q2] eqn:E3.
    - apply Same. congruence.
    - apply (P2 (IData b2 o2) q2). reflexivity.
    - apply (P2 IBad q2). reflexivity.
    - apply Same. rewrite El. intro X. injection X as X _. apply (Hi g2). auto. }
  destruct i as [b o| |g].
  - apply Data. split; [discriminate|]. intros; discriminate.
  - apply Data. split; [discriminate|]. intros; discriminate.
  - destruct g; try (exact I); rewrite bind_get;
      (destruct (ign s1) as [|[|i]] eqn:Ei; [exact I| |]).
    + unfold bindM, set_ign, set_lus, ret, ok; cbn. change (Le 0 s1 (with_main (tst s1) (cur s1) q 0 (chk s1) (leof s1) s1)). apply Le_main; [rewrite El; cbn; lia|auto].
    + unfold bindM, set_ign, set_lus. sp. apply Pop. right; lia.
    + unfold bindM, set_ign, set_lus, ret, ok; cbn. change (Le 0 s1 (with_main (tst s1) (cur s1) q 0 (chk s1) (leof s1) s1)). apply Le_main; [rewrite El; cbn; lia|auto].
    + unfold bindM, set_ign, set_lus. sp. apply Pop. right; lia.
Qed.
Notation purge_unack := (purge_unack W bs F bad skipok).
Lemma purge_unack_ok : forall pos s, ok 0 s (purge_unack pos s).
Proof.
  intros pos s. unfold FetchModel.purge_unack. apply (ok_bind _ _ _ _ _ 0 0); [destruct (pos =? 0); [apply ok_ret|apply find_ok]| |lia]. intros fd s1 _. rewrite !bind_get.
  assert (H : ok 0 s1 (bindM (if (0 <? ign s1) && negb fd then unack_loop (3 * weight s1 + 4) true pos else ret (negb fd)) (fun b => if b then bindM (set_tst Suspended) (fun _ => ret true) else ret false) s1)).
  { apply (ok_bind _ _ _ _ _ 0 0); [destruct ((0 <? ign s1) && negb fd); [apply unack_ok; lia|apply ok_ret]| |lia]. intros b s2 _. destruct b; [|apply ok_ret].
    unfold bindM, set_tst, ret, ok; cbn. apply Leq_main; lia. }
  destruct (tst s1); [exact H|exact H|exact I].
Qed.

(** ** the calls *)
Notation read_loop := (read_loop W bs F bad skipok).
Notation read := (read W bs F bad skipok).
Lemma read_loop_ok : forall fuel n added acc s, ((n = 0 \/ leof s = true) /\ 1 <= fuel) \/ 3 * weight s + 2 <= fuel -> ok G s (read_loop fuel n added acc s).
Proof.
  induction fuel as [|fuel IH]; intros n added acc s Hm; [lia|]. cbn [FetchModel.read_loop]. rewrite bind_get.
  destruct (Nat.eqb_spec n 0) as [Hn|Hn]; [apply ok_ret|]. destruct (leof s) eqn:He; [apply ok_ret|]. cbn [orb].
  assert (Hw : 3 * weight s + 2 <= S fuel) by (destruct Hm as [([X|X] & _)|X]; [lia|congruence|exact X]). clear Hm.
  apply (ok_bind _ _ _ _ _ 0 G); [apply read_refill_ok| |lia]. intros a s1 E1. pose proof (read_refill_ok s) as RO. rewrite E1 in RO. destruct RO as (RO & _). cbn [snd] in RO.
  rewrite bind_get. destruct (lus s1) as [|i q] eqn:El; [exact I|].
  assert (W1 : forall s2, length (lus s2) <= length q -> sched s2 = sched s1 -> weight s2 < weight s1).
  { intros s2 H1 H2. rewrite !weight_eq, H2, El. cbn [length]. lia. }
  assert (Lq : length q <= length (lus s1)) by (rewrite El; cbn; lia).
  assert (Hw1 : 1 <= weight s1) by (rewrite weight_eq, El; cbn; lia).
  destruct i as [b o| |g].
  - set (got := firstn n (skipn o b)). destruct (Nat.leb_spec (length b) (o + length got)) as [X|X]; unfold bindM, set_lus.
    + apply (ok_trans _ 0 G G s1 (with_main (tst s1) (cur s1) q (ign s1) (chk s1) (leof s1) s1)); [apply Leq_main; exact Lq| |lia].
      apply IH. right. pose proof (W1 (with_main (tst s1) (cur s1) q (ign s1) (chk s1) (leof s1) s1) (Nat.le_refl _) eq_refl). lia.
    + apply (ok_trans _ 0 G G s1 (with_main (tst s1) (cur s1) (IData b (o + length got) :: q) (ign s1) (chk s1) (leof s1) s1)); [apply Leq_main; rewrite El; cbn; lia| |lia].
      apply IH. left. split; [left|lia]. unfold got in *. rewrite firstn_length, skipn_length in *. lia.
  - exact I.
  - destruct g; try exact I.
    + rewrite bind_get. destruct (ign s1) as [|[|i]] eqn:Ei; [exact I| |].
      * set (s2 := with_main Suspended (cur s1 + (length acc - added)) q 0 (chk s1) (leof s1) s1).
        change (ok G s1 (bindM go_read (fun _ => read_loop fuel n (length acc) acc) s2)).
        assert (P2 : weight s2 < weight s1 /\ T s2 + G <= T s1).
        { split; [apply W1; [unfold s2; sp; lia|reflexivity]|]. assert (ER : R s2 = R s1) by reflexivity. unfold T, Phi. rewrite ER. unfold s2; sp. rewrite Ei, El. cbn [Nat.eqb length]. lia. }
        destruct P2 as (P2 & P3). pose proof (go_read_ok s2) as GO.
        unfold bindM at 1. destruct (go_read s2) as [[x|e] s3].
        -- destruct GO as (Y1 & Y2). cbn [snd] in *. apply (ok_trans _ 0 G G s1 s3); [|apply IH; right; lia|lia].
           split; [lia|]. intro Hf. destruct (Y2 Hf) as (Z1 & Z2). split; [exact Z1|]. change (sched s2) with (sched s1) in Z2. lia.
        -- unfold ok in *; cbn [fst snd] in *. destruct e; auto. destruct GO as (Y0 & Y1 & Y2). split; [exact Y0|]. split; [lia|]. intro Hf. destruct (Y2 Hf) as (Z1 & Z2). split; [exact Z1|].
           change (sched s2) with (sched s1) in Z2. lia.
      * unfold bindM, set_ign, set_lus. sp.
        apply (ok_trans _ 0 G G s1 (with_main (tst s1) (cur s1) q (S i) (chk s1) (leof s1) s1)); [apply Le_main; [exact Lq|right; left; lia]| |lia].
        apply (IH n added acc (with_main (tst s1) (cur s1) q (S i) (chk s1) (leof s1) s1)). right. pose proof (W1 (with_main (tst s1) (cur s1) q (S i) (chk s1) (leof s1) s1) (Nat.le_refl _) eq_refl). lia.
    + unfold bindM at 1, set_leof. cbv iota beta. set (s2 := with_main (tst s1) (cur s1) (lus s1) (ign s1) (chk s1) true s1).
      apply (ok_trans _ 0 G G s1 s2); [apply Leq_main; lia| |lia].
      apply (ok_bind _ _ _ _ _ G 0); [apply purge_ok| |lia]. intros v s3 E3. pose proof (purge_leof _ _ _ _ E3) as E4. destruct v; try exact I.
      destruct fuel as [|fuel]; [lia|]. cbn [FetchModel.read_loop]. rewrite bind_get, E4. unfold s2; sp. rewrite orb_true_r. apply ok_ret.
Qed.
Lemma read_ok : forall n s, ok (2 * G) s (read n s).
Proof.
  intros n s. unfold FetchModel.read. rewrite bind_get. destruct (leof s); [apply ok_ret|]. apply (ok_bind _ _ _ _ _ G G); [apply go_read_ok| |lia]. intros _ s1 _. rewrite bind_get.
  apply (ok_bind _ _ _ _ _ G 0); [apply read_loop_ok; right; lia| |lia]. intros (added, acc) s2 _. rewrite bind_get. unfold bindM, set_cur, ret, ok. cbn [fst snd]. apply Leq_main; lia.
Qed.
Notation send_stop := (send_stop W bs F bad skipok).
Lemma send_stop_ok : forall pos s, ok (G + 5) s (send_stop pos s).
Proof.
  intros pos s. unfold FetchModel.send_stop. rewrite bind_get. destruct (tst s); [|apply ok_ret|exact I].
  apply (ok_bind _ _ _ _ _ 5 G); [apply set_flag_ok| |lia]. intros _ s1 _. apply (ok_bind _ _ _ _ _ G 0); [apply purge_ok| |lia]. intros v s2 _.
  destruct v; try apply ok_ret; try exact I. destruct (pos =? 0); [exact I|apply ok_ret].
Qed.
Notation skip := (skip W bs F bad skipok).
Lemma skip_ok : forall pos s, ok (G + 5) s (skip pos s).
Proof.
  intros pos s. unfold FetchModel.skip. rewrite bind_get. destruct (pos =? cur s); [apply ok_ret|].
  apply (ok_bind _ _ _ _ _ 0 (G + 5)); [apply find_ok| |lia]. intros fd s1 _. destruct fd; [apply ok_ret|]. rewrite bind_get.
  apply (ok_bind _ _ _ _ _ (G + 5) 0); [destruct (ign s1); [apply send_stop_ok|apply (ok_weak _ 0); [apply purge_unack_ok|lia]]| |lia]. intros b s2 _.
  destruct b; [|apply ok_ret]. unfold bindM, set_cur, set_leof, ret, ok. cbn [fst snd].
  change (Le 0 s2 (with_main (tst s2) pos (lus s2) (ign s2) (chk s2) false s2)). apply Leq_main; lia.
Qed.
Notation skip_relative := (skip_relative W bs F bad skipok).
Lemma rel_ok : forall x s, ok (G + 5) s (skip_relative x s).
Proof.
  intros x s. unfold FetchModel.skip_relative. rewrite bind_get. destruct (0 <=? x)%Z; [apply skip_ok|]. destruct (Z.to_nat (- x) <=? cur s); [apply skip_ok|].
  apply (ok_bind _ _ _ _ _ (G + 5) 0); [apply skip_ok| |lia]. intros b s1 _. apply ok_ret.
Qed.
Notation skip_to_eof := (skip_to_eof W bs F bad skipok).
Notation send_die := (send_die W bs F bad skipok).
Definition Cdie : nat := 2 * (6 + 2 * K + G).
Lemma round_ok : forall s, ok (6 + 2 * K + G) s (bindM (set_flag Fdie) (fun _ => bindM (get tst) (fun t => bindM (match t with Suspended => bindM wait (fun _ => set_tst Running) | _ => ret tt end) (fun _ => purge 0))) s).
Proof.
  intro s. apply (ok_bind _ _ _ _ _ 5 (2 * K + 1 + G)); [apply set_flag_ok| |lia]. intros _ s1 _. rewrite bind_get.
  apply (ok_bind _ _ _ _ _ (2 * K + 1) G); [|intros _ s2 _; apply purge_ok|lia]. destruct (tst s1); try apply ok_ret.
  apply (ok_bind _ _ _ _ _ (2 * K + 1) 0); [unfold FetchModel.wait; pose proof (wait_ok (sched s1) s1) as X; rewrite with_sched_id in X; exact X| |lia].
  intros _ s2 _. unfold set_tst, ok. cbn [fst snd]. apply Leq_main; lia.
Qed.
Lemma send_die_ok : forall s, ok Cdie s (send_die s).
Proof.
  intro s. unfold FetchModel.send_die, Cdie. rewrite bind_get. 
  assert (A : forall K s0, bindM (set_flag Fdie) (fun _ => bindM (get tst) (fun t => bindM (match t with Suspended => bindM wait (fun _ => set_tst Running) | _ => ret tt end) (fun _ => bindM (purge 0) K))) s0
     = bindM (bindM (set_flag Fdie) (fun _ => bindM (get tst) (fun t => bindM (match t with Suspended => bindM wait (fun _ => set_tst Running) | _ => ret tt end) (fun _ => purge 0)))) K s0 :> res unit * st).
  { intros K0 s0. unfold bindM, get, ret, set_tst. destruct (set_flag Fdie s0) as [[x|e] s1]; auto. destruct (tst s1); auto. destruct (wait s1) as [[y|e] s2]; auto. }
  assert (B : forall s0, ok (6 + 2 * K + G) s0 (bindM (set_flag Fdie) (fun _ => bindM (get tst) (fun t => bindM (match t with Suspended => bindM wait (fun _ => set_tst Running) | _ => ret tt end)
     (fun _ => bindM (purge 0) (fun v => match v with Fdie => ret tt | _ => fail Ebug end)))) s0)).
  { intro s0. rewrite A. apply (ok_bind _ _ _ _ _ (6 + 2 * K + G) 0); [apply round_ok| |lia]. intros v s1 _. destruct v; try exact I. apply ok_ret. }
  assert (D0 : ok (2 * (6 + 2 * K + G)) s (bindM (set_flag Fdie) (fun _ => bindM (get tst) (fun t => bindM (match t with Suspended => bindM wait (fun _ => set_tst Running) | _ => ret tt end)
     (fun _ => bindM (purge 0) (fun v => match v with Fdie => ret tt | Feof | Fstop => bindM (set_flag Fdie) (fun _ => bindM (get tst) (fun t => bindM (match t with Suspended => bindM wait (fun _ => set_tst Running) | _ => ret tt end)
     (fun _ => bindM (purge 0) (fun v => match v with Fdie => ret tt | _ => fail Ebug end)))) | Fnormal => fail Ebug end)))) s)).
  { rewrite A. apply (ok_bind _ _ _ _ _ (6 + 2 * K + G) (6 + 2 * K + G)); [apply round_ok| |lia]. intros v s1 _. destruct v; try exact I; try apply B. apply ok_ret. }
  destruct (tst s); [exact D0|exact D0|exact I].
Qed.
Lemma join_ok : forall l s, ok 1 (with_sched l s) (join_from W bs F bad skipok l s).
Proof.
  induction l as [|(n, k) r IH]; intro s; cbn [join_from].
  - unfold ok; cbn [fst snd]. split; [reflexivity|]. apply (Le_trans 0 0 _ _ (with_sched [] s)); try apply Le_refl; lia.
  - destruct (blocked (pc (rrun n s))) eqn:Eb.
    + destruct (pc (rrun n s)); try discriminate Eb; try exact I.
      unfold ok; cbn [fst snd]. destruct (rrun_same W bs F bad skipok n s) as (_&_&El&Ei&_&_&_&Es). unfold Le. rewrite !weight_eq; sp. rewrite El, sw_cons. cbn [length]. split; [lia|].
      intro Hf. inversion Hf; subst. split; [assumption|]. pose proof (rrun_phi n s) as P. unfold T; sp. rewrite !phi_sched, Ei. lia.
    + assert (X : ok 1 (with_sched ((n, k) :: r) s) (join_from W bs F bad skipok r (rrun n s))) by (apply (ok_trans _ 0 _ _ _ _ _ (Le_run n k r s Eb) (IH (rrun n s))); lia).
      destruct (pc (rrun n s)) eqn:Ep; try discriminate Eb; exact X.
Qed.
Notation terminate := (terminate W bs F bad skipok).
Definition Cterm : nat := G + 5 + Cdie + 1.
Lemma terminate_ok : forall s, ok Cterm s (terminate s).
Proof.
  intro s. unfold FetchModel.terminate, Cterm. apply (ok_bind _ _ _ _ _ (G + 5) (Cdie + 1)); [apply send_stop_ok| |lia]. intros _ s1 _. rewrite bind_get.
  apply (ok_bind _ _ _ _ _ Cdie 1).
  - assert (X : ok Cdie s1 (stop_threads W bs F bad skipok s1)).
    { unfold FetchModel.stop_threads. rewrite !bind_get.
      assert (Y : ok Cdie s1 (bindM (match ign s1 with O => ret tt | S _ => bindM (purge_unack 0) (fun b => if b then ret tt else fail Ebug) end) (fun _ => send_die) s1)).
      { apply (ok_bind _ _ _ _ _ 0 Cdie); [|intros _ s2 _; apply send_die_ok|lia]. destruct (ign s1); [apply ok_ret|]. apply (ok_bind _ _ _ _ _ 0 0); [apply purge_unack_ok| |lia]. intros b s2 _.
        destruct b; [apply ok_ret|exact I]. }
      destruct (tst s1); [exact Y|exact Y|apply ok_ret]. }
    destruct (tst s1); [exact X|exact X|apply ok_ret].
  - intros _ s2 _. unfold FetchModel.join_threads. pose proof (join_ok (sched s2) s2) as J. rewrite with_sched_id in J.
    destruct (join_from W bs F bad skipok (sched s2) s2) as [[x|e] s3]; [|exact J]. unfold set_tst, ok in *. cbn [fst snd] in *.
    apply (Le_trans 1 0 1 s2 s3); [exact J|apply Leq_main; lia|lia].
  - lia.
Qed.

(** ** the end of the data, and scripts *)
Hypothesis HW : 0 < W.
Hypothesis Hbs : 0 < bs.
Hypothesis Hbad : forall k, bad k = false.
Hypothesis Hskip : forall k, skipok k = false -> blk bs F k = [].
Notation Inv := (Inv W bs F).
Lemma safe_eq : forall A (x : res A * st) Q a s, safe x Q -> x = (Ok a, s) -> Q a s.
Proof. intros A x Q a s H ->. exact H. Qed.
Definition Ceof : nat := G + 5 + 10 * L + 3 * G.
Lemma eof_ok : forall s, Inv s -> leof s = false -> ok Ceof s (skip_to_eof s).
Proof.
  intros s HI Hl. unfold FetchModel.skip_to_eof, Ceof. apply (ok_bind _ _ _ _ _ (G + 5) (10 * L + 3 * G)); [apply send_stop_ok| |lia]. intros b s1 E1.
  destruct (safe_eq _ _ _ _ _ (send_stop_safe W bs F bad skipok HW Hbs Hbad Hskip 0 s HI (or_intror eq_refl)) E1) as (E & [(_ & HR & Hc)|(_ & X & _)]); [|congruence].
  unfold bindM at 1. cbv iota beta. unfold bindM at 1, set_cur at 1. cbv iota beta. sp.
  match goal with |- ok _ _ (bindM _ _ ?t) => set (s2 := t) end.
  assert (LE : Le (10 * L) s1 s2).
  { split; [reflexivity|]. intro Hf. split; [exact Hf|]. assert (X : R s2 <= R s1 + 5 * L).
    { unfold R, s2, ptop, rem; sp. match goal with |- context [L - (L / bs + ?x)] => generalize (L - (L / bs + x)) (Nat.le_sub_l L (L / bs + x)) end.
      intros d Hd. clear s2. destruct (pc s1); try lia; destruct (reof s1); try lia; destruct (flag_eqb _ _); lia. }
    unfold T, Phi in *. unfold s2 in *; sp. lia. }
  pose proof (Nat.div_mod L bs ltac:(lia)) as DM. pose proof (Nat.mod_upper_bound L bs ltac:(lia)) as MB.
  assert (I2 : Inv s2). { split; [left; unfold s2; sp; nia|]. split; [unfold s2; sp; intro; congruence|]. left. destruct HR as (R1 & R2 & R3 & R4). split; [exact R1|auto]. }
  assert (L2 : leof s2 = false) by (unfold s2; sp; congruence).
  assert (C2 : cur s2 = L / bs * bs) by reflexivity.
  apply (ok_trans _ (10 * L) (3 * G) _ s1 s2); [exact LE| |lia].
  apply (ok_bind _ _ _ _ _ (3 * G) 0); [|intros; apply ok_ret|lia].
  destruct (Nat.eqb_spec (L mod bs) 0) as [Z0|Z0]; [apply ok_ret|].
  apply (ok_bind _ _ _ _ _ G (2 * G)); [apply go_read_ok| |lia]. intros x s3 E3.
  destruct (safe_eq _ _ _ _ _ (go_read_safe W bs F bad skipok HW Hbs Hbad Hskip s2 I2 L2) E3) as (HL & Hc3). rewrite bind_get. cbn [eof_loop].
  pose proof (Live_inv W bs F bad skipok HW Hbs Hbad Hskip s3 HL) as I3.
  apply (ok_bind _ _ _ _ _ (2 * G) 0); [apply read_ok| |lia]. intros y s4 E4.
  destruct (safe_eq _ _ _ _ _ (read_safe W bs F bad skipok HW Hbs Hbad Hskip bs s3 I3) E4) as (-> & _). rewrite firstn_length, skipn_length.
  destruct (Nat.eqb_spec (Nat.min bs (L - cur s3)) bs) as [Y|Y]; [nia|]. apply ok_ret.
Qed.
Notation call := (call W bs F bad skipok).
Notation play := (play W bs F bad skipok).
Definition Cop : nat := Ceof.
Lemma call_ok : forall o s, Inv s -> (o = Oeof -> leof s = false) -> ok Cop s (call o s).
Proof.
  intros o s HI He. unfold Cop, Ceof. destruct o as [n|q|x| | |]; cbn [FetchModel.call].
  - apply (ok_bind _ _ _ _ _ (2 * G) 0); [apply read_ok|intros; apply ok_ret|lia].
  - apply (ok_bind _ _ _ _ _ (G + 5) 0); [apply skip_ok|intros; apply ok_ret|lia].
  - apply (ok_bind _ _ _ _ _ (G + 5) 0); [apply rel_ok|intros; apply ok_ret|lia].
  - apply (ok_bind _ _ _ _ _ Ceof 0); [apply eof_ok; auto|intros; apply ok_ret|unfold Ceof; lia].
  - apply (ok_bind _ _ _ _ _ (G + 5) 0); [|intros; apply ok_ret|lia]. unfold FetchModel.sync. apply (ok_bind _ _ _ _ _ (G + 5) 0); [apply send_stop_ok|intros; apply ok_ret|lia].
  - apply (ok_bind _ _ _ _ _ G 0); [apply go_read_ok|intros; apply ok_ret|lia].
Qed.
Lemma play_ok : forall l s, Inv s -> admissible bs F (cur s) (leof s) l -> ok (length l * Cop + Cterm) s (play l s).
Proof.
  induction l as [|o r IH]; intros s HI HA; cbn [FetchModel.play length].
  - apply (ok_bind _ _ _ _ _ Cterm 0); [apply terminate_ok|intros; apply ok_ret|lia].
  - apply (ok_bind _ _ _ _ _ Cop (length r * Cop + Cterm)); [|  |lia].
    + apply call_ok; [exact HI|]. intros ->. cbn in HA. tauto.
    + intros a s1 E1. destruct (safe_eq _ _ _ _ _ (call_safe W bs F bad skipok HW Hbs Hbad Hskip o r s HI HA) E1) as (_ & I1 & A1). rewrite bind_get.
      apply (ok_bind _ _ _ _ _ (length r * Cop + Cterm) 0); [apply IH; auto|intros; apply ok_ret|lia].
Qed.
(** a number of accesses to shared things after which a script is done, if the reading thread moves between any two of them *)
Definition enough (l : list op) : nat := length l * Cop + Cterm.
Theorem play_done : forall l e sc, admissible bs F 0 false l -> fair sc -> enough l < length sc ->
  exists s', play l (start e sc) = (Ok (expect_all F 0 l), s') /\ tst s' = Dead /\ pc s' = REnd.
Proof.
  intros l e sc HA Hf Hn. pose proof (play_right W bs F bad skipok HW Hbs Hbad Hskip l e sc HA) as HP.
  pose proof (play_ok l (start e sc) (start_inv W bs F bad skipok HW Hbs Hbad Hskip e sc) HA) as HO. unfold ok in HO.
  destruct (play l (start e sc)) as [[x|x] s']; cbn [fst snd] in *.
  - destruct HP as (-> & H). exists s'. auto.
  - destruct x; try contradiction. exfalso. destruct HO as (E & _ & HO). destruct (HO Hf) as (_ & X). rewrite E in X. cbn [length] in X.
    change (sched (start e sc)) with sc in X. change (T (start e sc)) with 0 in X. unfold enough in Hn. lia.
Qed.
(** whatever the schedule, a run that is not done has gone through all of it *)
Theorem play_fuel : forall l e sc s', admissible bs F 0 false l -> play l (start e sc) = (Err Fuel, s') -> sched s' = [].
Proof.
  intros l e sc s' HA E. pose proof (play_ok l (start e sc) (start_inv W bs F bad skipok HW Hbs Hbad Hskip e sc) HA) as HO. rewrite E in HO. apply HO.
Qed.
End L.
