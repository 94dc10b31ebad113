(** * What the parallel decompression gives to the client, whatever the schedule: every step. *)
From Coq Require Import List Bool PeanoNat Wf_nat.
From Verif Require Import Base FileModel PipeModel PipeProof PipeProof2 BlockModel UnzipModel UnzipSpec UnzipProof UnzipProof2 UnzipProof4.
Import ListNotations.
Open Scope nat_scope.

Section Proof.
Variables (W : nat) (Z : zipper) (B : nat) (file : list N).
Hypothesis W_pos : 0 < W.
Notation step := (step W Z B file).
Notation steps := (steps W Z B file).
Notation inv := (inv W).
Notation next := (next Z B file).
Notation gives := (gives Z B).
Notation begins := (begins Z B file).
Notation holds := (holds Z B file).
Notation answers := (answers Z B file).
Notation path := (path Z B file).
Notation runs := (runs Z B file).
Notation dinv := (dinv Z B file).
Notation good_read := (good_read Z B).
Notation fok := (fok Z B).
Notation ungives := (ungives Z B).
Ltac fld := cbn [ops mode outs reof running pos rtype stop rm kind hold heap pipe ws wexn lus] in *.

Lemma treat_exn : forall v z f z', z <> Inform -> treat false (unzips Z B) v z f z' -> f = FErr -> exists i c, v = Blk i c /\ ungives c.
Proof.
  intros v z f z' NI H ->. inversion H; subst; try discriminate; [|congruence]. exists i, b. split; [reflexivity|]. intros y [U L]. unfold unzips in *. rewrite U in *.
  destruct (Nat.ltb_spec B (length y)); [lia|]. match goal with A : _ \/ _ |- _ => destruct A; discriminate end.
Qed.
Lemma treat_fok : forall v z f z', z <> Inform -> treat false (unzips Z B) v z f z' -> fok [] (v, f).
Proof.
  intros v z f z' NI H. destruct f as [d| | |].
  - inversion H; subst. unfold UnzipProof4.fok. unfold unzips in *. cbn [app]. destruct (z_unc Z b B) as [y|e] eqn:U; [|discriminate]. destruct (Nat.ltb_spec B (length y)); [discriminate|].
    match goal with A : WOk _ = WOk _ |- _ => injection A as -> end. split; assumption.
  - destruct (treat_exn _ _ _ _ NI H eq_refl) as (i & c & -> & U). split; auto.
  - destruct v; reflexivity.
  - destruct v; reflexivity.
Qed.
Lemma treat_state : forall v z f z', z <> Inform -> treat false (unzips Z B) v z f z' -> z' <> Inform /\ (f <> FErr -> z = Fine \/ z = Over false -> z' = Fine \/ z' = Over false) /\ (broken z' = true -> f = FErr \/ z = Failed) /\ (f = FJunk -> z = Failed).
Proof.
  intros v z f z' NI H. destruct H; try discriminate.
  - split; [discriminate|]. split; [auto|]. split; discriminate.
  - split; [discriminate|]. split; [congruence|]. split; [auto|discriminate].
  - congruence.
  - split; [discriminate|]. split; [intros _ [K|K]; discriminate K|]. split; auto.
  - split; [discriminate|]. split; [|split; discriminate]. intros _ [->| ->]; [auto|discriminate H].
Qed.
(** cells where the report of worker [i] takes place *)
Lemma announced_push : forall L a q w i z v f z', length w = W -> shaped (a ++ Busy i v :: q) -> NoDup (busy_ids (a ++ Busy i v :: q)) -> nth_error w i = Some z -> z <> Inform -> treat false (unzips Z B) v z f z' ->
  announced (map dn L ++ a ++ Busy i v :: q) w -> announced (map dn L ++ a ++ Done v f :: q) (upd i z' w).
Proof.
  intros L a q w i z v f z' Lw Sh ND Ni NI T An. destruct (treat_state _ _ _ _ NI T) as (_ & _ & T3 & T4). assert (Lk : i < length w) by (eapply nth_lt; eauto). rewrite app_assoc in *.
  assert (UQ : Forall (fun c => is_queued c = false) (map dn L ++ a)) by (apply Forall_app; split; [apply done_unqueued|eapply unqueued_before; [exact Sh|reflexivity]]).
  assert (NB : ~ In i (busy_ids (map dn L ++ a))).
  { rewrite busy_app. unfold dn. rewrite busy_done. cbn [app]. rewrite busy_app in ND. cbn [busy_ids] in ND. apply NoDup_remove_2 in ND. intro K. apply ND, in_or_app. left. exact K. }
  eapply announced_replace; [exact An|reflexivity|reflexivity| |].
  - intro J. assert (z = Failed) by (apply T4; destruct f; try discriminate J; reflexivity). subst z. destruct An as [_ J2]. destruct (J2 i Failed Ni eq_refl) as (u & r & E1 & Bu & N & _).
    destruct (split_at _ _ (Busy i v) q u r E1) as [(t & -> & _)|(q1 & -> & _)]; [rewrite existsb_app, Bu; reflexivity|]. destruct N. rewrite busy_app. apply in_or_app. right. left. reflexivity.
  - intros j sj Hj Hb. destruct (Nat.eq_dec j i) as [->|Nj].
    + rewrite upd_same in Hj by exact Lk. injection Hj as <-. destruct (T3 Hb) as [->|Ez].
      * right. split; [reflexivity|]. split; [rewrite busy_app; cbn [busy_ids]; rewrite app_nil_r; exact NB|exact UQ].
      * subst z. left. split; [|right; intros []]. inversion T; subst; try discriminate; assumption.
    + rewrite upd_other in Hj by exact Nj. left. split; [exact Hj|right; intros []].
Qed.
Lemma Forall_upd : forall (P : wstate -> Prop) w i z, Forall P w -> P z -> Forall P (upd i z w).
Proof. intros P w i z F. revert i. induction F as [|x w Hx F IH]; intros [|i] H; cbn [upd]; constructor; auto. Qed.

(** ** threads *)
Lemma runs_data : forall p0 G cs t1 p1 o m u re ru p t k h pi w x l c q, next t p = Edata c q ->
  runs p0 G cs t1 p1 (Rs o m u re ru p t false Rrun k None (S h) pi w x l) -> runs p0 G cs (Some H_DATA) q (Rs o m u re ru q (Some H_DATA) false Rrun k (Some (Blk 0 c)) h pi w x l).
Proof.
  intros p0 G cs t1 p1 o m u re ru p t k h pi w x l c q H [D1 D2 D3 D4 D5 D6]. fld. destruct D2 as [-> ->]. constructor; fld; auto.
  - rewrite items_hold, cont_app, app_assoc. eapply path_snoc; eauto.
  - intro E. destruct (D3 E) as (d & K & U). exists d. split; [|exact U]. rewrite items_hold, cont_app, app_assoc. apply in_or_app. left. exact K.
Qed.
Lemma runs_close : forall p0 G cs t1 p1 o m u re ru p t s k h pi w x l q b k', runs p0 G cs t1 p1 (Rs o m u re ru p t s Rrun k None h pi w x l) ->
  (b = true -> k' = true) -> (if k' then fails Z B file t p else s = true \/ exists q, next t p = Eend q) ->
  runs p0 G cs t1 p1 (Rs o m u re ru q t s (Rpush W b) k' None h pi w x l).
Proof. intros p0 G cs t1 p1 o m u re ru p t s k h pi w x l q b k' [D1 D2 D3 D4 D5 D6] Hb Hk. fld. destruct D2 as [-> ->]. constructor; fld; auto. Qed.
Lemma runs_send : forall p0 G cs t1 p1 o m u re ru p t s r k y h pi w x l, runs p0 G cs t1 p1 (Rs o m u re ru p t s r k (Some y) h pi w x l) -> runs p0 G cs t1 p1 (Rs o m u re ru p t s r k None h (pi ++ [Queued y]) w x l).
Proof.
  intros p0 G cs t1 p1 o m u re ru p t s r k y h pi w x l [D1 D2 D3 D4 D5 D6]. fld. constructor; fld; auto; try (rewrite items_send; assumption).
  assert (GR : forall got, good_read G got cs (Rs o m u re ru p t s r k (Some y) h pi w x l) -> good_read G got cs (Rs o m u re ru p t s r k None h (pi ++ [Queued y]) w x l)).
  { intros got (A & A2 & A3 & A4 & A5). unfold UnzipProof4.good_read. fld. split; [exact A|]. split; [exact A2|]. split; [|split; [|exact A5]].
    - rewrite app_assoc. apply announced_snoc. exact A3.
    - intros v f K. apply in_app_or in K as [K|[K|[]]]; [auto|discriminate K]. }
  destruct m; auto.
Qed.
Lemma runs_order : forall p0 G cs t1 p1 o m u re ru p t s n b k h h' pi w x l, runs p0 G cs t1 p1 (Rs o m u re ru p t s (Rpush (S n) b) k None h pi w x l) -> runs p0 G cs t1 p1 (Rs o m u re ru p t s (Rpush n b) k (Some Die) h' pi w x l).
Proof. intros p0 G cs t1 p1 o m u re ru p t s n b k h h' pi w x l [D1 D2 D3 D4 D5 D6]. fld. constructor; fld; auto; rewrite items_hold, cont_app, app_nil_r; assumption. Qed.
Lemma runs_over : forall p0 G cs t1 p1 o m u re ru p t s b k h pi w x l, runs p0 G cs t1 p1 (Rs o m u re ru p t s (Rpush 0 b) k None h pi w x l) -> runs p0 G cs t1 p1 (Rs o m u re ru p t s (Rover b) k None h pi w x l).
Proof. intros p0 G cs t1 p1 o m u re ru p t s b k h pi w x l [D1 D2 D3 D4 D5 D6]. fld. constructor; fld; auto. Qed.
Lemma runs_get : forall p0 G cs t1 p1 o m u re ru p t s r k y h a q w i x l v, runs p0 G cs t1 p1 (Rs o m u re ru p t s r k y h (a ++ Queued v :: q) w x l) -> runs p0 G cs t1 p1 (Rs o m u re ru p t s r k y h (a ++ Busy i v :: q) w x l).
Proof.
  intros p0 G cs t1 p1 o m u re ru p t s r k y h a q w i x l v [D1 D2 D3 D4 D5 D6]. fld. constructor; fld; auto; try (rewrite (items_get y a (Busy i v) (Queued v) q l eq_refl); assumption).
  assert (GR : forall got, good_read G got cs (Rs o m u re ru p t s r k y h (a ++ Queued v :: q) w x l) -> good_read G got cs (Rs o m u re ru p t s r k y h (a ++ Busy i v :: q) w x l)).
  { intros got (A & A2 & A3 & A4 & A5). unfold UnzipProof4.good_read. fld. split; [exact A|]. split; [exact A2|]. split; [|split; [|exact A5]].
    - rewrite app_assoc in *. eapply announced_replace; [exact A3|reflexivity|reflexivity|discriminate|]. intros j s' Hj Hb. left. split; [exact Hj|left; reflexivity].
    - intros e f K. apply A4. eapply in_replace; [exact K|discriminate]. }
  destruct m; auto.
Qed.
Lemma runs_push : forall p0 G cs t1 p1 o m u re ru p t s r k y h a q w i z z' x l v f, core W r y h (a ++ Busy i v :: q) w l -> nth_error w i = Some z -> treat false (unzips Z B) v z f z' ->
  runs p0 G cs t1 p1 (Rs o m u re ru p t s r k y h (a ++ Busy i v :: q) w x l) -> runs p0 G cs t1 p1 (Rs o m u re ru p t s r k y h (a ++ Done v f :: q) (upd i z' w) (match f with FErr => true | _ => x end) l).
Proof.
  intros p0 G cs t1 p1 o m u re ru p t s r k y h a q w i z z' x l v f C Ni T [D1 D2 D3 D4 D5 D6]. fld.
  assert (NI : z <> Inform) by (rewrite Forall_forall in D5; apply D5; eapply nth_error_In; eauto). destruct (treat_state _ _ _ _ NI T) as (T1 & T2 & _).
  assert (IV : forall j c, v = Blk j c -> In c (cont (items y (a ++ Busy i v :: q) l))).
  { intros j c ->. unfold items. rewrite !cont_app, map_app, cont_app. apply in_or_app. right. apply in_or_app. left. apply in_or_app. right. left. reflexivity. }
  assert (IE : items y (a ++ Done v f :: q) l = items y (a ++ Busy i v :: q) l) by apply (items_get y a (Done v f) (Busy i v) q l eq_refl).
  constructor; fld; rewrite ?IE; auto.
  - intro E. destruct f; auto. destruct (treat_exn _ _ _ _ NI T eq_refl) as (j & c & Ev & U). exists c. split; [|exact U]. apply in_or_app. right. eapply IV; eauto.
  - intro E. assert (f <> FErr /\ x = false) as [E1 E2] by (destruct f; try discriminate E; split; congruence). specialize (D4 E2). apply Forall_upd; [exact D4|]. apply T2; [exact E1|]. rewrite Forall_forall in D4. apply D4. eapply nth_error_In; eauto.
  - apply Forall_upd; assumption.
  - assert (GR : forall got, good_read G got cs (Rs o m u re ru p t s r k y h (a ++ Busy i v :: q) w x l) -> good_read G got cs (Rs o m u re ru p t s r k y h (a ++ Done v f :: q) (upd i z' w) (match f with FErr => true | _ => x end) l)).
    { intros got (A & A2 & A3 & A4 & A5). unfold UnzipProof4.good_read. fld. split; [exact A|]. split; [exact A2|]. split; [|split; [|exact A5]].
      - eapply announced_push; eauto; [exact (c_len _ _ _ _ _ _ _ C)|exact (c_shape _ _ _ _ _ _ _ C)|exact (c_nodup _ _ _ _ _ _ _ C)].
      - intros e g K. apply in_app_or in K as [K|[K|K]]; [apply A4; apply in_or_app; left; exact K| |apply A4; apply in_or_app; right; right; exact K]. injection K as <- <-. exact (treat_fok _ _ _ _ NI T). }
    destruct m; auto.
Qed.

(** ** main thread *)
Lemma cont_pop : forall y pi v f l, cont (items y pi ((v, f) :: l)) = cont [v] ++ cont (items y pi l).
Proof. intros. unfold items. cbn [map fst app]. change (v :: ?r) with ([v] ++ r). rewrite cont_app. reflexivity. Qed.
(** elements thrown away *)
Lemma runs_pop : forall p0 G cs t1 p1 o m m' u re ru p t s r k y h h' pi w x v f l, runs p0 G cs t1 p1 (Rs o m u re ru p t s r k y h pi w x ((v, f) :: l)) ->
  (match m' with Mnext => good_read G [] (cs ++ cont [v]) (Rs o m' u re ru p t s r k y h' pi w x l) | Mread _ got => good_read G got (cs ++ cont [v]) (Rs o m' u re ru p t s r k y h' pi w x l)
   | Mpurge _ _ c | Mjoin c => aim Z B file p0 G c (Rs o m' u re ru p t s r k y h' pi w x l) end) ->
  runs p0 G (cs ++ cont [v]) t1 p1 (Rs o m' u re ru p t s r k y h' pi w x l).
Proof. intros p0 G cs t1 p1 o m m' u re ru p t s r k y h h' pi w x v f l [D1 D2 D3 D4 D5 D6] M. fld. rewrite cont_pop in *. constructor; fld; rewrite <- ?app_assoc; auto. Qed.
Lemma read_begins : forall p0 G got cs t1 p1 s, runs p0 G cs t1 p1 s -> good_read G got cs s -> exists more, begins None p0 (G ++ got ++ more).
Proof.
  intros p0 G got cs t1 p1 s D (A & A2 & A3 & A4 & ys & part & F & E & Ln). pose proof (d_path _ _ _ _ _ _ _ _ _ D) as P. destruct (lus s) as [|[v f] l] eqn:El.
  - cbn in Ln. subst part. exists []. rewrite app_nil_r, E, app_nil_r. eapply path_begins; eauto.
  - destruct Ln as [Ln _]. unfold UnzipProof4.fok in Ln. assert (X : part = [] \/ exists i c d, v = Blk i c /\ f = FOk d /\ gives c (part ++ d)) by (destruct v, f; try tauto; right; eauto 6).
    destruct X as [->|(i & c & d & -> & -> & Gc)]; [exists []; rewrite app_nil_r, E, app_nil_r; eapply path_begins; eauto|].
    exists d. rewrite app_assoc, E, <- app_assoc. rewrite cont_pop in P. change (cont [Blk i c]) with [c] in P. rewrite app_assoc in P. replace (concat ys ++ part ++ d) with (concat (ys ++ [part ++ d])) by (rewrite concat_app; cbn [concat]; rewrite app_nil_r; reflexivity).
    eapply path_begins; [exact P|]. apply Forall2_app; [exact F|]. constructor; [exact Gc|constructor].
Qed.

Notation ok := (ok W Z B file).
Lemma goes : forall s, inv s -> mode s <> Mnext \/ rm s <> Roff -> running s = true.
Proof. intros s I H. unfold UnzipProof.inv in I. destruct (running s); [reflexivity|]. destruct I as (I1 & I2 & _). destruct H; contradiction. Qed.
Lemma pipe_goes : forall s, inv s -> pipe s <> [] \/ hold s <> None \/ lus s <> [] -> running s = true.
Proof. intros s I H. unfold UnzipProof.inv in I. destruct (running s); [reflexivity|]. destruct I as (I1 & I2 & I3 & I4 & I5 & _). destruct H as [H|[H|H]]; contradiction. Qed.
(** why an exception is thrown *)
Lemma runs_exn : forall p0 G cs t1 p1 o m u re ru p t s b k h pi w x l, runs p0 G cs t1 p1 (Rs o m u re ru p t s (Rover b) k None h pi w x l) -> b || x = true -> wrong Z B file p0.
Proof.
  intros p0 G cs t1 p1 o m u re ru p t s b k h pi w x l [D1 D2 D3 D4 D5 D6] E D. fld. destruct b.
  - destruct D2 as [D2 D2']. rewrite (D2 eq_refl) in D2'. eapply path_fails; eauto.
  - destruct (D3 E) as (c & K & U). eapply path_ungives; eauto.
Qed.
Lemma all_die : forall r y h pi w v l, core W r y h pi w ((v, FDie) :: l) -> cont (items y pi ((v, FDie) :: l)) = [].
Proof.
  intros r y h pi w v l C. pose proof (head_die _ _ _ _ _ _ _ _ _ C) as D. destruct v; [discriminate D|]. destruct (c_items _ _ _ _ _ _ _ C) as (bl & n & E & _). rewrite E.
  destruct bl as [|c bl]; [|discriminate E]. clear. cbn [map app]. induction n as [|n IH]; [reflexivity|exact IH].
Qed.
Lemma ok_step : forall p0 L s t, ok p0 L s -> step s t -> ok p0 L t.
Proof.
  intros ps L s t' [(a0 & p0 & G & b0 & EL & Cur & F & I & X & D)|A] H.
  2:{ right. destruct (outs_grow _ _ _ _ _ _ H) as [more ->]. intro m2. rewrite <- app_assoc. apply A. }
  assert (Hr : mode s <> Mnext \/ rm s <> Roff -> running s = true) by (apply goes; exact I).
  assert (Hp : pipe s <> [] \/ hold s <> None \/ lus s <> [] -> running s = true) by (apply pipe_goes; exact I).
  pose proof (inv_step _ _ _ _ W_pos _ _ I X H) as I'. pose proof (xinv_step _ _ _ _ _ _ I X H) as X'.
  assert (K : forall p1 G1 b1 a1, L = a1 ++ b1 ++ ops t' -> curop (mode t') b1 -> fine Z B file ps a1 (outs t') p1 G1 -> dinv p1 G1 t' -> (forall c, mode s = Mjoin c -> mode t' = Mnext -> wexn s = false) -> ok ps L t').
  { intros p1 G1 b1 a1 Q1 Q2 Q3 Q4 Q5. left. exists a1, p1, G1, b1. split; [exact Q1|]. split; [exact Q2|]. split; [exact Q3|]. split; [|split; [|exact Q4]].
    - destruct I' as [I'|(c & M1 & M2 & M3)]; [exact I'|]. rewrite (Q5 c M1 M3) in M2. discriminate M2.
    - destruct X' as [X'|(c & M1 & M2 & M3)]; [exact X'|]. rewrite (Q5 c M1 M3) in M2. discriminate M2. }
  unfold UnzipProof.inv in I. unfold UnzipProof4.dinv in D.
  destruct H; fld;
  try (assert (Er : ru = true) by (first [apply Hr; left; discriminate|apply Hr; right; discriminate|apply Hp; right; left; discriminate|apply Hp; left; destruct a; discriminate|apply Hp; right; right; discriminate]); subst ru);
  clear Hr Hp; fld.
  - (* data *) destruct D as (cs & t1 & p1 & D). apply (K p0 G b0 a0); auto; [|intros; congruence]. unfold UnzipProof4.dinv. fld. exists cs, (Some H_DATA), q. eapply runs_data; eauto.
  - destruct D as (cs & t1 & p1 & D). apply (K p0 G b0 a0); auto; [|intros; congruence]. unfold UnzipProof4.dinv. fld. exists cs, t1, p1. eapply runs_close; eauto.
  - destruct D as (cs & t1 & p1 & D). apply (K p0 G b0 a0); auto; [|intros; congruence]. unfold UnzipProof4.dinv. fld. exists cs, t1, p1. eapply runs_close; eauto.
  - destruct D as (cs & t1 & p1 & D). apply (K p0 G b0 a0); auto; [|intros; congruence]. unfold UnzipProof4.dinv. fld. exists cs, t1, p1. eapply runs_close; eauto. left. eauto.
  - destruct D as (cs & t1 & p1 & D). apply (K p0 G b0 a0); auto; [|intros; congruence]. unfold UnzipProof4.dinv. fld. exists cs, t1, p1. eapply runs_close; eauto. right. eauto.
  - destruct D as (cs & t1 & p1 & D). apply (K p0 G b0 a0); auto; [|intros; congruence]. unfold UnzipProof4.dinv. fld. exists cs, t1, p1. eapply runs_send; eauto.
  - destruct D as (cs & t1 & p1 & D). apply (K p0 G b0 a0); auto; [|intros; congruence]. unfold UnzipProof4.dinv. fld. exists cs, t1, p1. eapply runs_order; eauto.
  - destruct D as (cs & t1 & p1 & D). apply (K p0 G b0 a0); auto; [|intros; congruence]. unfold UnzipProof4.dinv. fld. exists cs, t1, p1. eapply runs_over; eauto.
  - destruct D as (cs & t1 & p1 & D). apply (K p0 G b0 a0); auto; [|intros; congruence]. unfold UnzipProof4.dinv. fld. exists cs, t1, p1. eapply runs_get; eauto.
  - destruct D as (cs & t1 & p1 & D). apply (K p0 G b0 a0); auto; [|intros; congruence]. unfold UnzipProof4.dinv. fld. exists cs, t1, p1. eapply runs_push; eauto. apply I.
  - (* read at the end *) cbn in Cur. subst b0. destruct ru. { exfalso. destruct D as (cs & t1 & p1 & D). destruct (d_mode _ _ _ _ _ _ _ _ _ D) as (_ & E & _). discriminate E. }
    destruct D as (D1 & D2 & D3). fld. apply (K p0 G [] (a0 ++ [Read n])).
    + rewrite EL. cbn [app]. rewrite <- app_assoc. reflexivity.
    + reflexivity.
    + rewrite <- (app_nil_r G) at 1. apply fn_read; auto; [exists []; cbn [app]; rewrite app_nil_r; apply holds_begins; exact D3|cbn; lia|rewrite app_nil_r; intros _; exact D3].
    + unfold UnzipProof4.dinv, rests. fld. auto.
    + intros; discriminate.
  - (* read *) cbn in Cur. subst b0. apply (K p0 G [Read n] a0); [exact EL|split; [reflexivity|cbn; lia]|exact F| |intros; discriminate].
    destruct D as (cs & t1 & p1 & [D1 D2 D3 D4 D5 D6]). fld. unfold UnzipProof4.dinv. fld. exists cs, t1, p1. constructor; fld; auto.
  - (* start *) cbn in Cur. subst b0. destruct D as (D1 & D2 & D3 & D4). fld. subst G p. unfold idle in I. fld. destruct I as (_ & _ & -> & -> & -> & -> & _ & _). apply (K p0 [] [Read n] a0); [exact EL|split; [reflexivity|cbn; lia]|exact F| |intros; discriminate].
    assert (Fw : Forall (fun z => z = Fine) (map restart w)). { clear - D1. induction D1 as [|z w -> _ IH]; constructor; auto. }
    unfold UnzipProof4.dinv. fld. exists [], None, p0. constructor; fld.
    + apply pt_nil.
    + auto.
    + discriminate.
    + intros _. eapply Forall_impl; [|exact Fw]. auto.
    + eapply Forall_impl; [|exact Fw]. intros z ->. discriminate.
    + split; [reflexivity|]. split; [reflexivity|]. split; [|split; [intros v f []|exists [], []; repeat split; constructor]]. split; fld.
      * intros u' c v E. destruct u'; discriminate E.
      * intros i z E Bz. apply nth_error_In in E. rewrite Forall_forall in Fw. rewrite (Fw z E) in Bz. discriminate Bz.
  - (* return *) cbn in Cur. destruct Cur as [-> Cur]. destruct D as (cs & t1 & p1 & D). pose proof (d_mode _ _ _ _ _ _ _ _ _ D) as GR. cbn [mode] in GR. pose proof (read_begins _ _ _ _ _ _ _ D GR) as Bg. apply (K p0 (G ++ got) [] (a0 ++ [Read n])).
    + rewrite EL, <- app_assoc. reflexivity.
    + reflexivity.
    + apply fn_read; auto; lia.
    + unfold UnzipProof4.dinv. fld. exists cs, t1, p1. destruct D as [D1 D2 D3 D4 D5 D6]. fld. constructor; fld; auto. unfold UnzipProof4.good_read in *. fld. rewrite app_nil_r. exact GR.
    + intros; discriminate.
  - (* gather *) assert (Er : ru = true) by (destruct ru; [reflexivity|]; exfalso; destruct I as (_ & _ & _ & I4 & _); fld; destruct ys; [congruence|discriminate I4]). subst ru.
    destruct D as (cs & t1 & p1 & [D1 D2 D3 D4 D5 D6]). apply (K p0 G b0 a0); auto; [|intros c -> ?; fld; contradiction]. unfold UnzipProof4.dinv. fld. exists cs, t1, p1.
    assert (IE : items y q ys = items y (map dn ys ++ q) []). { unfold items. unfold dn. rewrite map_app, items_done. cbn [map app]. rewrite <- app_assoc. reflexivity. }
    constructor; fld; rewrite ?IE; auto.
    assert (GR : forall got, good_read G got cs (Rs o m u re true p t s r k y h (map dn ys ++ q) w x []) -> good_read G got cs (Rs o m u re true p t s r k y h q w x ys)).
    { intros got (A & A2 & A3 & A4 & ys' & part & A5 & A6 & A7). unfold UnzipProof4.good_read. fld. split; [exact A|]. split; [exact A2|]. split; [exact A3|]. split; [intros v f Kv; apply A4; apply in_or_app; right; exact Kv|].
      cbn in A7. subst part. exists ys', []. split; [exact A5|]. split; [exact A6|]. assert (Fy : Forall (fok []) ys). { apply Forall_forall. intros [v f] Kv. apply A4. apply in_or_app. left. apply in_map_iff. exists (v, f). auto. }
      destruct ys as [|z ys]; [reflexivity|]. inversion Fy; subst. split; assumption. }
    destruct m; auto; contradiction.
  - (* take *) cbn in Cur. destruct Cur as [-> Cur]. destruct D as (cs & t1 & p1 & D). pose proof (d_mode _ _ _ _ _ _ _ _ _ D) as GR. cbn [mode] in GR. apply (K p0 G [Read n] a0); [exact EL|split; [reflexivity|rewrite app_length; lia]|exact F| |intros; discriminate].
    unfold UnzipProof4.dinv. fld. exists (cs ++ cont [Blk i c]), t1, p1. eapply runs_pop; [exact D|]. destruct GR as (A & A2 & A3 & A4 & ys & part & A5 & A6 & A7). fld. unfold UnzipProof4.good_read. fld.
    split; [exact A|]. split; [exact A2|]. split; [eapply announced_pop; [exact A3|reflexivity]|]. split; [exact A4|]. destruct A7 as [A7 A8]. exists (ys ++ [part ++ d]), []. split; [apply Forall2_app; [exact A5|]; constructor; [exact A7|constructor]|].
    split; [rewrite app_assoc, A6, concat_app; cbn [concat]; rewrite !app_nil_r, <- app_assoc; reflexivity|]. destruct l as [|z l]; [reflexivity|]. inversion A8; subst. split; assumption.
  - (* part *) cbn in Cur. destruct Cur as [-> Cur]. destruct D as (cs & t1 & p1 & D). pose proof (d_mode _ _ _ _ _ _ _ _ _ D) as GR. cbn [mode] in GR. apply (K p0 G [Read n] a0); [exact EL|split; [reflexivity|rewrite app_length, firstn_length; lia]|exact F| |intros; discriminate].
    unfold UnzipProof4.dinv. fld. exists cs, t1, p1. destruct D as [D1 D2 D3 D4 D5 D6]. fld. constructor; fld; auto. destruct GR as (A & A2 & A3 & A4 & ys & part & A5 & A6 & A7). fld. unfold UnzipProof4.good_read. fld.
    split; [exact A|]. split; [exact A2|]. split.
    { cbn [map app dn fst snd] in *. eapply (announced_replace [] (Done (Blk i c) (FOk d))); [exact A3|reflexivity|reflexivity|discriminate|]. intros j sj Hj Hb. left. split; [exact Hj|right; intros []]. }
    split; [exact A4|]. destruct A7 as [A7 A8]. exists ys, (part ++ firstn (n - length got) d). split; [exact A5|]. split; [rewrite app_assoc, A6, <- app_assoc; reflexivity|]. split; [|exact A8]. unfold UnzipProof4.fok in *. rewrite <- app_assoc, firstn_skipn. exact A7.
  - (* junk *) exfalso. destruct D as (cs & t1 & p1 & D). destruct (d_mode _ _ _ _ _ _ _ _ _ D) as (_ & _ & [J _] & _). specialize (J [] _ _ eq_refl eq_refl). discriminate J.
  - (* end *) cbn in Cur. destruct Cur as [-> Cur]. destruct D as (cs & t1 & p1 & D). apply (K p0 G [Read n] a0); [exact EL|cbn; eauto|exact F| |intros; discriminate].
    unfold UnzipProof4.dinv. fld. exists cs, t1, p1. destruct D as [D1 D2 D3 D4 D5 D6]. fld. constructor; fld; auto; [destruct r; auto; destruct D2; auto|]. unfold aim. fld. split; [|reflexivity].
    destruct I as [C _]. pose proof (head_norun _ _ _ _ _ _ _ _ C) as R. pose proof (all_die _ _ _ _ _ _ _ C) as Ad. rewrite Ad, app_nil_r in D1. destruct D6 as (A & A2 & A3 & A4 & ys & part & A5 & A6 & A7). fld. subst s.
    assert (part = []). { destruct A7 as [A7 _]. unfold UnzipProof4.fok in A7. destruct v; exact A7. } subst part. rewrite app_nil_r in A6. rewrite A6.
    assert (En : exists q, next t1 p1 = Eend q). { destruct r; try contradiction; try discriminate R; destruct D2 as [_ [D2|D2]]; try discriminate D2; exact D2. } destruct En as [q En]. eapply path_holds; eauto.
  - (* error *) cbn in Cur. destruct Cur as [-> Cur]. destruct D as (cs & t1 & p1 & D). apply (K p0 G [Read n] a0); [exact EL|cbn; eauto|exact F| |intros; discriminate].
    unfold UnzipProof4.dinv. fld. exists cs, t1, p1. destruct D as [D1 D2 D3 D4 D5 D6]. fld. constructor; fld; auto. unfold aim. intros Dt.
    destruct I as [C _]. pose proof (head_norun _ _ _ _ _ _ _ _ C) as R. destruct r; try contradiction; try discriminate R; destruct D2 as [_ D2]; eapply path_fails; eauto.
  - (* error of a worker *) cbn in Cur. destruct Cur as [-> Cur]. destruct D as (cs & t1 & p1 & D). apply (K p0 G [Read n] a0); [exact EL|cbn; eauto|exact F| |intros; discriminate].
    unfold UnzipProof4.dinv. fld. exists (cs ++ cont [v]), t1, p1. destruct D as [D1 D2 D3 D4 D5 D6]. fld. rewrite cont_pop, app_assoc in *.
    constructor; fld; auto; [destruct r; auto; destruct D2 as [D2 D2']; split; auto; destruct k; auto|].
    unfold aim. destruct D6 as (A & A2 & A3 & A4 & ys & part & A5 & A6 & A7). fld. destruct A7 as [A7 _]. destruct I as [C _]. pose proof (head_die _ _ _ _ _ _ _ _ _ C) as Dv. destruct v as [i c|]; [|discriminate Dv]. destruct A7 as [_ A7].
    intros Dt. eapply path_ungives; [exact D1| |exact A7]. apply in_or_app. left. apply in_or_app. right. left. reflexivity.
  - (* skip *) cbn in Cur. subst b0. destruct D as (D1 & D2 & D3). fld. apply (K q [] [] (a0 ++ [Skip q])).
    + rewrite EL, <- app_assoc. reflexivity.
    + reflexivity.
    + eapply fn_skip; eauto.
    + unfold UnzipProof4.dinv, rests. fld. auto.
    + intros; discriminate.
  - cbn in Cur. subst b0. apply (K p0 G [Skip q] a0); [exact EL|reflexivity|exact F| |intros; discriminate]. destruct D as (cs & t1 & p1 & [D1 D2 D3 D4 D5 D6]). fld. unfold UnzipProof4.dinv. fld. exists cs, t1, p1. constructor; fld; auto; [destruct r; auto; destruct D2 as [D2 D2']; split; auto; destruct k; auto|exact Logic.I].
  - (* tell *) cbn in Cur. subst b0. right. intro more. cbn [outs]. rewrite <- app_assoc. rewrite EL. eapply fine_answers; [exact F|]. cbn [app]. apply an_tell.
  - cbn in Cur. subst b0. apply (K p0 G [Tell] a0); [exact EL|reflexivity|exact F| |intros; discriminate]. destruct D as (cs & t1 & p1 & [D1 D2 D3 D4 D5 D6]). fld. unfold UnzipProof4.dinv. fld. exists cs, t1, p1. constructor; fld; auto; [destruct r; auto; destruct D2 as [D2 D2']; split; auto; destruct k; auto|exact Logic.I].
  - (* purge *) destruct D as (cs & t1 & p1 & D). apply (K p0 G b0 a0); auto; [|intros; discriminate]. unfold UnzipProof4.dinv. fld. exists (cs ++ cont [v]), t1, p1. eapply runs_pop; [exact D|]. pose proof (d_mode _ _ _ _ _ _ _ _ _ D) as M. exact M.
  - destruct D as (cs & t1 & p1 & D). apply (K p0 G b0 a0); auto; [destruct e; exact Cur| |intros; discriminate]. unfold UnzipProof4.dinv. fld. exists (cs ++ cont [v]), t1, p1. eapply runs_pop; [exact D|]. pose proof (d_mode _ _ _ _ _ _ _ _ _ D) as M. cbn [mode] in M. destruct e; exact M.
  - destruct D as (cs & t1 & p1 & D). apply (K p0 G b0 a0); auto; [destruct (e =? W); [destruct b|]; exact Cur| |intros; discriminate]. unfold UnzipProof4.dinv. fld. exists (cs ++ cont [v]), t1, p1. eapply runs_pop; [exact D|]. pose proof (d_mode _ _ _ _ _ _ _ _ _ D) as M. cbn [mode] in M. destruct (e =? W); [destruct b|]; exact M.
  - (* join *) destruct D as (cs & t1 & p1 & D). destruct (b || x) eqn:Ebx.
    + pose proof (runs_exn _ _ _ _ _ _ _ _ _ _ _ _ _ _ _ _ _ _ _ _ D Ebx) as Wr. right. intro more. cbn [outs]. rewrite <- app_assoc. rewrite EL. eapply fine_answers; [exact F|]. cbn [app].
      assert (exists op, b0 = [op]) as [op ->] by (destruct c; cbn in Cur; try (subst b0; eauto); destruct Cur as [n' Cur]; [destruct Cur as [-> _]|subst b0]; eauto). apply an_exn. exact Wr.
    + apply orb_false_iff in Ebx as [-> ->]. pose proof (d_mode _ _ _ _ _ _ _ _ _ D) as M. cbn [mode] in M. pose proof (d_fine _ _ _ _ _ _ _ _ _ D eq_refl) as Fw. fld.
      assert (Fo : Forall (fun z => z = Over false) w). { apply Forall_forall. intros z Kz. rewrite Forall_forall in Fw, H. destruct (Fw z Kz) as [->|E]; [discriminate (H _ Kz)|exact E]. }
      destruct c as [q| |got|].
      * cbn in Cur. subst b0. apply (K q [] [] (a0 ++ [Skip q])); auto; [rewrite EL, <- app_assoc; reflexivity|reflexivity|eapply fn_skip; eauto|]. unfold UnzipProof4.dinv, rests. fld. auto.
      * cbn in Cur. subst b0. right. intro more. cbn [outs]. rewrite <- app_assoc. rewrite EL. eapply fine_answers; [exact F|]. cbn [app]. apply an_tell.
      * destruct Cur as (n & -> & Ln). unfold aim in M. fld. destruct M as [M ->]. apply (K p0 (G ++ got) [] (a0 ++ [Read n])); auto; [rewrite EL, <- app_assoc; reflexivity|reflexivity| |unfold UnzipProof4.dinv, rests; fld; auto].
        apply fn_read; auto; [exists []; rewrite app_nil_r; apply holds_begins; exact M|lia].
      * destruct Cur as [n ->]. right. intro more. cbn [outs]. rewrite <- app_assoc. rewrite EL. eapply fine_answers; [exact F|]. cbn [app]. apply an_exn. exact M.
Qed.
Lemma ok_steps : forall p L s t, steps s t -> ok p L s -> ok p L t.
Proof. intros p L s t H. induction H as [s|s t u H _ IH]; intro A; [exact A|]. apply IH. eapply ok_step; eauto. Qed.
End Proof.
