(** * C46: a request of cancellation is thrown once, where and when it must be, whatever the schedule. *)
From Coq Require Import List Bool PeanoNat.
From Verif Require Import Base CancelModel CancelSpec CancelProof CancelProof2.
Import ListNotations.
Open Scope nat_scope.

(** the test of a check passes exactly when a request is under way for its thread, not served yet, and immediate or not blocked *)
Theorem C46_check : forall h t r s, runs (Test t r :: h) s -> (r = true <-> expected h t <> None).
Proof.
  intros h t r s H. inversion H as [|h' s0 e s' R St]; subst. pose proof (inv_runs _ _ R) as (ND & L & Ht). inversion St; subst. cbn [fst snd] in *. specialize (Ht t). pose proof Ht as (_ & _ & _ & P & _). match goal with E : ps t = Checking o |- _ => rewrite E in P end.
  destruct (T_obj h t w _ o f ND Ht P ltac:(assumption)) as (i & fl & -> & M). unfold due, expected. cbn. destruct (pending h t) as [[i' fl']|]; cbn; [|split; congruence]. injection M as -> ->.
  destruct (served h t), i, (blocked h t); cbn; split; congruence.
Qed.
Print Assumptions C46_check.
(** a check that is not disturbed throws the request under way *)
Theorem C46_throws_request : forall h t i fl r r' s, runs (Throw t i fl :: Flag t r :: Test t r' :: h) s -> expected h t = Some (i, fl).
Proof.
  intros h t i fl r r' s H. inversion H as [|h' s0 e s' R St]; subst. pose proof (inv_runs _ _ R) as (ND & L & Ht). inversion St; subst. cbn [fst snd] in *. specialize (Ht t). pose proof Ht as (_ & _ & _ & P & _). match goal with E : ps t = Raising o |- _ => rewrite E in P end.
  destruct (T_obj _ t w _ o f ND Ht P ltac:(assumption)) as (i & fl & -> & M). cbn [pending immediate cflag] in *.
  assert (X : expected h t <> None).
  { inversion R as [|? ? ? ? R2 S2]; subst. inversion S2; subst. apply (C46_check _ _ _ _ R2). destruct r'; [reflexivity|]. exfalso. inversion R2 as [|? ? ? ? R3 S3]; subst. inversion S3; subst. unfold go in *. rewrite Nat.eqb_refl in *. destruct (due f); [discriminate|]. discriminate. }
  unfold expected in *. destruct (pending h t) as [[i' fl']|]; [|congruence]. injection M as -> ->. destruct (negb (served h t) && (i || negb (blocked h t))); congruence.
Qed.
Print Assumptions C46_throws_request.
(** in any schedule, what is thrown is the request under way, or a void request if it was cleared since the test *)
Theorem C46_throw_value : forall h t i fl s, runs (Throw t i fl :: h) s -> pending h t = Some (i, fl) \/ (pending h t = None /\ i = false /\ fl = 0%N).
Proof.
  intros h t i fl s H. inversion H as [|h' s0 e s' R St]; subst. pose proof (inv_runs _ _ R) as (ND & L & Ht). inversion St; subst. cbn [fst snd] in *. specialize (Ht t). pose proof Ht as (_ & _ & _ & P & _). match goal with E : ps t = Raising o |- _ => rewrite E in P, Ht end.
  destruct (T_obj _ t w _ o f ND Ht P ltac:(assumption)) as (i & fl & -> & M). cbn. destruct (pending h t) as [v|]; [left; congruence|]. right. destruct (M I) as [-> ->]. auto.
Qed.
Print Assumptions C46_throw_value.
(** once the test passed an exception is thrown *)
Theorem C46_flag : forall h t r s, runs (Flag t r :: h) s -> r = true.
Proof.
  intros h t r s H. inversion H as [|h' s0 e s' R St]; subst. pose proof (inv_runs _ _ R) as (ND & L & Ht). inversion St; subst. cbn [fst snd] in *. specialize (Ht t). destruct Ht as (_ & _ & E1 & P & _). match goal with E : ps t = Passed o |- _ => rewrite E in P end.
  destruct P as [P Sv]. destruct E1 as (_ & i & fl & F & _); [intro K; rewrite K in P; exact P|]. apply existsb_exists. apply in_fst in P as [f P]. exists (o, f). pose proof (objs_tid _ _ _ P) as Et. rewrite Forall_forall in F. pose proof (F _ P) as Ef. cbn [snd] in *. apply filter_In in P as [P _].
  split; [exact P|]. apply of_tid_eq in Et. rewrite Et, Ef. cbn. rewrite Sv. reflexivity.
Qed.
Print Assumptions C46_flag.
(** a thread in a check is never stuck, and the objects it uses are still there *)
Theorem C46_goes_on : forall h w ps t, runs h (w, ps) -> ps t <> Idle -> exists e s', step (w, ps) e s' /\ match e with Test t' _ | Flag t' _ | Throw t' _ _ => t' = t | _ => False end.
Proof.
  intros h w ps t R X. pose proof (inv_runs _ _ R) as (ND & L & Ht). cbn [fst snd] in *. specialize (Ht t). destruct Ht as (_ & _ & _ & P & _). destruct (ps t) as [|o|o|o] eqn:E; [congruence| | |].
  - apply in_fst in P as [f P]. apply filter_In in P as [P _]. apply status_in in P; [|exact ND]. do 2 eexists. split; [eapply s_test; eauto|reflexivity].
  - do 2 eexists. split; [eapply s_flag; eauto|reflexivity].
  - apply in_fst in P as [f P]. apply filter_In in P as [P _]. apply status_in in P; [|exact ND]. do 2 eexists. split; [eapply s_throw; eauto|reflexivity].
Qed.
Print Assumptions C46_goes_on.
(** never more exceptions than requests *)
Theorem C46_once : forall h t s, runs h s -> throws h t <= requests h t.
Proof. intros h t s R. pose proof (inv_runs _ _ R) as (_ & _ & Ht). destruct (Ht t) as (_ & _ & _ & _ & C). lia. Qed.
Print Assumptions C46_once.
(** cancel_status() and self_is_under_cancellation() tell whether a request is under way; so does clear_pending_request() when no other thread is associated *)
Lemma status_value : forall h t w ps, inv h (w, ps) -> cancel_status t w = some (pending h t).
Proof.
  intros h t w ps (ND & L & Ht). cbn [fst snd] in *. destruct (Ht t) as (_ & E0 & E1 & _). unfold cancel_status, find_info. rewrite !find_filter. fold (objs t w). fold (pre t w). destruct (objs t w) as [|[o f] os].
  - destruct (E0 eq_refl) as (-> & _). cbn. destruct (pending h t) as [[i fl]|]; reflexivity.
  - destruct E1 as (_ & i & fl & F & _); [discriminate|]. inversion F as [|? ? Ef _]; subst. cbn in *. rewrite Ef. reflexivity.
Qed.
Theorem C46_status : forall h t r s, runs (Status t r :: h) s -> (r = true <-> pending h t <> None).
Proof. intros h t r s H. inversion H as [|h' s0 e s' R St]; subst. inversion St; subst. rewrite (status_value h t w ps (inv_runs _ _ R)). destruct (pending h t); cbn; split; congruence. Qed.
Print Assumptions C46_status.
Theorem C46_self : forall h t o r s, runs (Self t o r :: h) s -> (r = true <-> pending h t <> None).
Proof.
  intros h t o r s H. inversion H as [|h' s0 e s' R St]; subst. pose proof (inv_runs _ _ R) as (ND & L & Ht). inversion St; subst. cbn [fst snd] in *. specialize (Ht (tid f)).
  assert (Ow : owns (tid f) o w) by (exists f; auto). apply owns_in in Ow; [|exact ND]. destruct (T_obj h (tid f) w _ o f ND Ht Ow ltac:(assumption)) as (i & fl & Ef & M). rewrite Ef at 1. cbn. destruct (pending h (tid f)); cbn; split; congruence.
Qed.
Print Assumptions C46_self.
Theorem C46_clear_answer : forall h t r s, runs (Clear t r :: h) s -> (forall t', linked h t t' = false) -> (r = true <-> pending h t <> None).
Proof.
  intros h t r s H NL. inversion H as [|h' s0 e s' R St]; subst. pose proof (inv_runs _ _ R) as (ND & L & Ht). inversion St; subst. cbn [fst snd] in *.
  assert (Ea : targets t w = [t]). { unfold targets. destruct (filter _ (asso w)) as [|[a b] l] eqn:E; [reflexivity|]. assert (K : In (a, b) (filter (fun x => fst x =? t) (asso w))) by (rewrite E; left; reflexivity). apply filter_In in K as [K E2]. cbn in E2. apply Nat.eqb_eq in E2. subst a. apply L in K. rewrite NL in K. discriminate. }
  unfold clear_pending. rewrite Ea. cbn [fold_left fst snd]. destruct (Ht t) as (_ & E0 & E1 & _). unfold clear_one. destruct (set_for t false false false 0 w) as [w' fo] eqn:E.
  assert (Ef : fo = option_map (fun x => cancellation (snd x)) (hd_error (rev (objs t w)))) by (unfold set_for in E; injection E as _ <-; rewrite find_filter, filter_rev; reflexivity). assert (Ew : preborn w' = preborn w) by (unfold set_for in E; injection E as <- _; reflexivity).
  destruct (objs t w) as [|x os] eqn:Eo.
  - subst fo. cbn [rev hd_error option_map]. unfold remove_from_preborn. cbn [snd]. rewrite find_filter, filter_rev, Ew. fold (pre t w). destruct (E0 eq_refl) as (-> & _). destruct (pending h t) as [[i fl]|]; cbn; split; congruence.
  - destruct E1 as (_ & i & fl & F & _); [discriminate|]. destruct (rev (x :: os)) as [|y ys] eqn:Er; [cbn in Er; apply app_eq_nil in Er as [_ Er]; discriminate|].
    assert (Hy : In y (x :: os)) by (apply in_rev; rewrite Er; left; reflexivity). rewrite Forall_forall in F. subst fo. cbn [hd_error option_map snd]. rewrite (F y Hy). cbn. destruct (pending h t); cbn; split; congruence.
Qed.
Print Assumptions C46_clear_answer.

(** a request waits for its thread: whatever happens meanwhile except other requests, clearing, and the end of the objects of the thread, a check that comes later throws it; before, none does when delayed cancellations are blocked *)
Definition quiet (t : nat) (e : ev) : Prop := match e with Cancel _ _ _ | Clear _ _ => False | Del t' _ | Forget t' | Flag t' _ => t' <> t | _ => True end.
Lemma quiet_kept : forall t h2 h, Forall (quiet t) h2 -> pending (h2 ++ h) t = pending h t /\ served (h2 ++ h) t = served h t.
Proof.
  intros t h2 h F. induction F as [|e h2 Q F [IH1 IH2]]; [auto|]. cbn [app]. destruct e; cbn [pending served quiet] in *; try contradiction; rewrite ?IH1, ?IH2; auto; destruct (Nat.eqb_spec t0 t); try congruence; auto.
Qed.
Theorem C46_request_kept : forall h2 h1 a t i fl r s, hit h1 a t = true -> Forall (quiet t) h2 -> runs (Test t r :: h2 ++ Cancel a i fl :: h1) s ->
  (r = true <-> i = true \/ blocked (h2 ++ Cancel a i fl :: h1) t = false).
Proof.
  intros h2 h1 a t i fl r s Hh Q R. rewrite (C46_check _ _ _ _ R). unfold expected. destruct (quiet_kept t h2 (Cancel a i fl :: h1) Q) as [-> ->]. cbn [pending served]. rewrite Hh. cbn [negb andb]. destruct i, (blocked _ t); cbn; intuition congruence.
Qed.
Print Assumptions C46_request_kept.
(** after a clear, no check passes its test before another request *)
Theorem C46_cleared : forall h2 h1 a t x r s, hit h1 a t = true -> Forall (fun e => match e with Cancel _ _ _ => False | _ => True end) h2 -> runs (Test t r :: h2 ++ Clear a x :: h1) s -> r = false.
Proof.
  intros h2 h1 a t x r s Hh Q R. destruct r; [|reflexivity]. pose proof (proj1 (C46_check _ _ _ _ R) eq_refl) as K. exfalso. apply K. unfold expected. replace (pending (h2 ++ Clear a x :: h1) t) with (@None (bool * N)); [reflexivity|].
  symmetry. clear R K. induction Q as [|e h2 Qe Q IH]; cbn [app]; [cbn [pending]; rewrite Hh; reflexivity|]. destruct e; cbn [pending]; try contradiction; rewrite ?IH; try reflexivity; match goal with |- (if ?b then _ else _) = _ => destruct b; reflexivity end.
Qed.
Print Assumptions C46_cleared.
(** what each check throws comes from a request sent to its thread, or to one it is associated to *)
Theorem C46_from_request : forall h t i fl r r' s, runs (Throw t i fl :: Flag t r :: Test t r' :: h) s -> exists h2 a h1, h = h2 ++ Cancel a i fl :: h1 /\ hit h1 a t = true.
Proof.
  intros h t i fl r r' s R. apply C46_throws_request in R. unfold expected in R. assert (P : pending h t = Some (i, fl)) by (destruct (pending h t) as [[i' fl']|]; [destruct (_ && _) in R; congruence|discriminate]). clear R. revert P.
  induction h as [|e h IH]; [discriminate|]. intro P. assert (K : pending h t = Some (i, fl) -> exists h2 a h1, e :: h = h2 ++ Cancel a i fl :: h1 /\ hit h1 a t = true) by (intro Q; destruct (IH Q) as (h2 & a & h1 & -> & Hh); exists (e :: h2), a, h1; auto).
  destruct e; cbn [pending] in P; auto; try (match type of P with (if ?b then _ else _) = _ => destruct b eqn:Eb end; [discriminate P|auto]; fail).
  destruct (hit h t0 t) eqn:Eh; [|auto]. injection P as -> ->. exists [], t0, h. auto.
Qed.
Print Assumptions C46_from_request.

(** ** instances and refutations *)
Inductive path : state -> list ev -> state -> Prop :=
| path_nil : forall s, path s [] s
| path_cons : forall s e e' s1 l s2, step s e' s1 -> e = e' -> path s1 l s2 -> path s (e :: l) s2.
Lemma path_runs : forall s l s', path s l s' -> forall h, runs h s -> runs (rev l ++ h) s'.
Proof. intros s l s' H. induction H as [s|s e e' s1 l s2 St -> P IH]; intros h R; [exact R|]. cbn [rev]. rewrite <- app_assoc. apply IH. econstructor; eauto. Qed.
Lemma story_runs : forall l, (exists s, path init l s) -> exists s, runs (rev l) s.
Proof. intros l [s P]. exists s. rewrite <- (app_nil_r (rev l)). eapply path_runs; [exact P|constructor]. Qed.
Tactic Notation "one" uconstr(R) := eapply path_cons; [eapply R; first [vm_compute; reflexivity|eexists; split; vm_compute; reflexivity|idtac]|first [reflexivity|vm_compute; reflexivity]|].
Ltac ev :=
  match goal with
  | |- path _ [] _ => apply path_nil
  | |- path _ (New ?t ?o :: _) _ => one (s_new _ _ t o)
  | |- path _ (Del ?t ?o :: _) _ => one (s_del _ _ t o)
  | |- path _ (Block ?t ?o true :: _) _ => one (s_block _ _ t o)
  | |- path _ (Block ?t ?o false :: _) _ => one (s_unblock _ _ t o)
  | |- path _ (Check ?t ?o :: _) _ => one (s_check _ _ t o)
  | |- path _ (Test ?t _ :: _) _ => one (s_test _ _ t)
  | |- path _ (Flag ?t _ :: _) _ => one (s_flag _ _ t)
  | |- path _ (Throw ?t _ _ :: _) _ => one (s_throw _ _ t)
  | |- path _ (Cancel ?t ?i ?fl :: _) _ => one (s_cancel _ _ t i fl)
  | |- path _ (Clear ?t _ :: _) _ => one (s_clear _ _ t)
  | |- path _ (Status ?t _ :: _) _ => one (s_status _ _ t)
  | |- path _ (Assoc ?a ?b :: _) _ => one (s_assoc _ _ a b)
  end.
Ltac play := eexists; unfold init; repeat ev.
(** two threads, the second associated to the first; the request is made before thread 2 has any object, and while thread 1 blocks delayed cancellations *)
Definition story : list ev :=
  [Assoc 1 2; New 1 10; Block 1 10 true; Cancel 1 false 7; Check 1 10; Test 1 false; New 2 20; Check 2 20; Test 2 true; Flag 2 true; Throw 2 false 7; Block 1 10 false; Test 1 true; Flag 1 true; Throw 1 false 7; Check 1 10; Test 1 false; Status 1 true]%N.
Theorem C46_instance : (exists s, runs (rev story) s) /\ throws (rev story) 1 = 1 /\ throws (rev story) 2 = 1 /\ requests (rev story) 1 = 1 /\ requests (rev story) 2 = 1.
Proof. split; [|repeat split]. apply story_runs. unfold story. play. Qed.
Print Assumptions C46_instance.

(** a request is lost when the thread has no object for a while: between two operations of libdar, for example *)
Theorem C46_lost_request_refuted : exists s, runs (rev [New 1 10; Cancel 1 true 7; Del 1 10; New 1 11; Check 1 11; Test 1 false; Status 1 false])%N s.
Proof. apply story_runs. play. Qed.
(** a request cleared while a check is under way is thrown all the same, with void values *)
Theorem C46_cleared_thrown_refuted : exists s, runs (rev [New 1 10; Cancel 1 true 7; Check 1 10; Test 1 true; Clear 1 true; Flag 1 true; Throw 1 false 0])%N s.
Proof. apply story_runs. play. Qed.
(** clear_pending_request() gives the answer of the last thread associated, not of the thread it is asked for *)
Theorem C46_clear_answer_refuted : exists s, runs (rev [New 1 10; New 2 20; Cancel 1 true 7; Assoc 1 2; Clear 1 false])%N s /\ pending (rev [New 1 10; New 2 20; Cancel 1 true 7; Assoc 1 2])%N 1 = Some (true, 7%N).
Proof. destruct (story_runs [New 1 10; New 2 20; Cancel 1 true 7; Assoc 1 2; Clear 1 false]%N) as [s R]; [play|]. exists s. split; [exact R|reflexivity]. Qed.
(** requests are not propagated transitively, contrary to what the documentation says (thread_cancellation.hpp:138-140) *)
Theorem C46_transitive_refuted : exists s, runs (rev [New 3 30; Assoc 1 2; Assoc 2 3; Cancel 1 true 7; Status 2 true; Status 3 false])%N s.
Proof. apply story_runs. play. Qed.
(** two requests, the second one while the first is being thrown: the value of the first is never thrown, that of the second is thrown twice *)
Theorem C46_twice_refuted : exists s, runs (rev [New 1 10; Cancel 1 true 1; Check 1 10; Test 1 true; Flag 1 true; Cancel 1 true 2; Throw 1 true 2; Check 1 10; Test 1 true; Flag 1 true; Throw 1 true 2])%N s.
Proof. apply story_runs. play. Qed.
Print Assumptions C46_transitive_refuted.
