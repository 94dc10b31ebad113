(** * What the parallel writing puts in the file. *)
From Verif Require Import Base PipeModel PipeProof.
From Coq Require Import Bool PeanoNat.
Open Scope nat_scope.

Definition blk_of (x : item) : list (N * list N) := match x with Blk i b => [(i, b)] | Die => [] end.
Definition blks (l : list item) : list (N * list N) := flat_map blk_of l.
(** all that is between the main thread and the file *)
Definition line (s : st) : list cell := map (fun z => Done (fst z) (snd z)) (ones s) ++ pipe s.
Definition bad (c : cell) : bool := match c with Done _ FErr | Lost _ => true | _ => false end.
Definition junk (c : cell) : bool := match c with Done _ FJunk => true | _ => false end.
Definition broken (s : wstate) : bool := match s with Inform | Failed => true | _ => false end.
(** a report comes before the blocks of the worker concerned *)
Definition announced (L : list cell) (w : list wstate) : Prop :=
  (forall u c v, L = u ++ c :: v -> junk c = true -> existsb bad u = true) /\
  (forall k s, nth_error w k = Some s -> broken s = true -> exists u v, L = u ++ v /\ existsb bad u = true /\ ~ In k (busy_ids u) /\ Forall (fun c => is_queued c = false) u).

Lemma split_at : forall A (a : list A) c q u v, a ++ c :: q = u ++ v -> (exists t, a = u ++ t /\ v = t ++ c :: q) \/ (exists q1, u = a ++ c :: q1 /\ q = q1 ++ v).
Proof.
  induction a as [|x a IH]; intros c q u v H.
  - destruct u as [|y u]; [left; exists []; auto|]. cbn [app] in H. injection H as -> ->. right. exists u. auto.
  - destruct u as [|y u]; [left; exists (x :: a); auto|]. cbn [app] in H. injection H as -> H. destruct (IH _ _ _ _ H) as [(t & -> & ->)|(q1 & -> & ->)]; [left; exists t; auto|right; exists q1; auto].
Qed.
Lemma announced_snoc : forall L w x, announced L w -> announced (L ++ [Queued x]) w.
Proof.
  intros L w x [J1 J2]. split.
  - intros u c v E Hc. symmetry in E. destruct (split_at _ u c v L [Queued x] E) as [(t & -> & E2)|(q1 & E1 & _)].
    + destruct t as [|c' t]; cbn [app] in E2; [injection E2 as <- _; discriminate Hc|destruct t; discriminate E2].
    + exact (J1 u c q1 E1 Hc).
  - intros k s Hk Hb. destruct (J2 k s Hk Hb) as (u & v & -> & B & N & F). exists u, (v ++ [Queued x]). rewrite app_assoc. auto.
Qed.
(** replacing an element by one that is not a report, itself not being one *)
Lemma announced_replace : forall A c c' q w, announced (A ++ c :: q) w -> bad c = false -> is_queued c' = false ->
  (junk c' = true -> existsb bad A = true) ->
  forall w', (forall k s, nth_error w' k = Some s -> broken s = true ->
     (nth_error w k = Some s /\ (is_queued c = true \/ ~ In k (busy_ids [c']))) \/ (bad c' = true /\ ~ In k (busy_ids (A ++ [c'])) /\ Forall (fun c => is_queued c = false) A)) ->
  announced (A ++ c' :: q) w'.
Proof.
  intros A c c' q w [J1 J2] Bc Qc Jc w' Hw. split.
  - intros u d v E Hd. symmetry in E. destruct (split_at _ u d v A (c' :: q) E) as [(t & -> & E2)|(q1 & -> & E2)].
    + destruct t as [|x t]; cbn [app] in E2.
      * injection E2 as -> ->. rewrite app_nil_r. exact (Jc Hd).
      * injection E2 as <- ->. rewrite existsb_app. cbn [existsb]. specialize (J1 (A ++ c :: t) d v). rewrite <- app_assoc in J1. specialize (J1 eq_refl Hd). rewrite existsb_app in J1. cbn [existsb] in J1. rewrite Bc in J1. cbn [orb] in J1.
        destruct (existsb bad A); [reflexivity|]. cbn [orb] in *. rewrite J1. apply orb_true_r.
    + apply (J1 u d (q1 ++ c :: q)); [rewrite <- app_assoc; reflexivity|exact Hd].
  - intros k s Hk Hb. destruct (Hw k s Hk Hb) as [[H0 Nc]|[H1 [H2 H3]]].
    + destruct (J2 k s H0 Hb) as (u & v & E & B & N & F). destruct (split_at _ A c q u v E) as [(t & -> & ->)|(q1 & -> & ->)].
      * exists u, (t ++ c' :: q). rewrite app_assoc. auto.
      * assert (Qcc : is_queued c = false) by (apply Forall_app in F as [_ F]; inversion F; assumption). destruct Nc as [Nc|Nc]; [congruence|].
        exists (A ++ c' :: q1), v. split; [rewrite <- app_assoc; reflexivity|]. split; [|split].
        -- rewrite existsb_app in *. cbn [existsb] in *. rewrite Bc in B. cbn [orb] in B. destruct (existsb bad A); [reflexivity|]. cbn [orb] in *. rewrite B. apply orb_true_r.
        -- rewrite busy_app in *. change (c' :: q1) with ([c'] ++ q1). rewrite busy_app. intro K. apply in_app_or in K as [K|K]; [apply N, in_or_app; left; exact K|]. apply in_app_or in K as [K|K]; [exact (Nc K)|].
           apply N, in_or_app. right. change (c :: q1) with ([c] ++ q1). rewrite busy_app. apply in_or_app. right. exact K.
        -- apply Forall_app in F as [F1 F2]. inversion F2; subst. apply Forall_app. split; [exact F1|constructor; assumption].
    + exists (A ++ [c']), q. rewrite <- app_assoc. split; [reflexivity|]. split; [rewrite existsb_app; cbn [existsb]; rewrite H1; apply orb_true_r|]. split; [exact H2|]. apply Forall_app. split; [exact H3|repeat constructor; exact Qc].
Qed.
Lemma announced_pop : forall c L w, announced (c :: L) w -> bad c = false -> announced L w.
Proof.
  intros c L w [J1 J2] B. split.
  - intros u d v -> Hd. specialize (J1 (c :: u) d v eq_refl Hd). cbn [existsb] in J1. rewrite B in J1. exact J1.
  - intros k s Hk Hb. destruct (J2 k s Hk Hb) as ([|c0 u] & v & E & Bu & N & F); [discriminate Bu|]. cbn [app] in E. injection E as <- ->. cbn [existsb] in Bu. rewrite B in Bu.
    exists u, v. split; [reflexivity|]. split; [exact Bu|]. split; [intro K; apply N; destruct c; try exact K; right; exact K|inversion F; assumption].
Qed.

Section Proof.
Variable W : nat.
Variable lossy : bool.
Variable tr : N -> list N -> wres -> Prop.
Variable tail : list N.
Hypothesis W_pos : 0 < W.
Notation step := (step W lossy tr tail).
Notation inv := (inv W tail).

Definition ok (p : N * list N) (y : list N) : Prop := tr (fst p) (snd p) (WOk y).
Definition cut (t whole : list N) : Prop := exists r, whole = t ++ r.
(** [be]: the first blocks as transformed, the beginning of one more, the beginning of the final bytes *)
Definition truncated (all : list (N * list N)) (be : list N) (t : list N) : Prop :=
  exists pre post ys part, all = pre ++ post /\ Forall2 ok pre ys /\ be = concat ys ++ part ++ t /\ cut t tail /\
    (part = [] \/ exists p post' y, post = p :: post' /\ ok p y /\ cut part y).
Record inv3 (all : list (N * list N)) (s : st) : Prop := {
  o_flags : forall i b y, In (Done (Blk i b) (FOk y)) (line s) -> tr i b (WOk y);
  o_ok : err s = false -> raised s = false /\ announced (line s) (ws s) /\
    exists pre ys, all = pre ++ blks (seq_of s) /\ Forall2 ok pre ys /\ below s = concat ys ++ (if ended s then tail else []);
  o_err : err s = true -> exists t, truncated all (below s) t /\ (left_w s <> 0 -> t = []);
  o_who : lossy = false -> (err s = true /\ raised s = false) \/ existsb bad (line s) = true -> exists k x, nth_error (ws s) k = Some x /\ (broken x = true \/ x = Over true);
  o_wf : ended s = true -> left_w s = 0 }.
Lemma blks_app : forall a b, blks (a ++ b) = blks a ++ blks b.
Proof. intros. unfold blks. rewrite flat_map_app. reflexivity. Qed.
Lemma blks_map : forall l, blks (map (fun p => Blk (fst p) (snd p)) l) = l.
Proof. induction l as [|[i b] l IH]; [reflexivity|]. cbn. f_equal. exact IH. Qed.
Lemma blks_die : forall n, blks (repeat Die n) = [].
Proof. induction n as [|n IH]; [reflexivity|exact IH]. Qed.
Lemma inv3_start : forall blocks, inv3 blocks (start W blocks).
Proof.
  intro blocks. constructor; cbn -[blks]; try discriminate.
  - intros i b y [].
  - intros _. split; [reflexivity|]. split; [split; [intros u c v E; destruct u; discriminate E|intros k s E B; exfalso]|].
    + assert (s = Fine) by (eapply repeat_spec, nth_error_In, E). subst s. discriminate B.
    + exists [], []. split; [|split; [constructor|reflexivity]]. unfold seq_of, start. cbn [todo dies hold pipe ones map app opt]. rewrite blks_app, blks_map, blks_die, app_nil_r. reflexivity.
  - intros _ [[H _]|H]; discriminate H.
Qed.
Lemma unqueued_before : forall a c q, shaped (a ++ c :: q) -> is_queued c = false -> Forall (fun c => is_queued c = false) a.
Proof.
  induction a as [|d a IH]; intros c q H C; [constructor|]. cbn [app shaped] in H. destruct (is_queued d) eqn:D.
  - apply Forall_app in H as [_ H]. inversion H. congruence.
  - constructor; [exact D|eapply IH; eauto].
Qed.
Lemma truncated_more : forall all be t t', truncated all be t -> t = [] -> cut t' tail -> truncated all (be ++ t') t'.
Proof.
  intros all be t t' (pre & post & ys & part & A & F & -> & _ & P) -> C. exists pre, post, ys, part. repeat split; auto. rewrite <- !app_assoc. reflexivity.
Qed.
Lemma who_upd : forall k s' w x, nth_error w k = Some x -> (broken x = true \/ x = Over true -> broken s' = true \/ s' = Over true) ->
  (exists j y, nth_error w j = Some y /\ (broken y = true \/ y = Over true)) -> exists j y, nth_error (upd k s' w) j = Some y /\ (broken y = true \/ y = Over true).
Proof.
  intros k s' w x E M (j & y & Ej & B). destruct (Nat.eq_dec j k) as [->|Nj].
  - rewrite E in Ej. injection Ej as ->. exists k, s'. split; [apply upd_same; eapply nth_lt; eauto|auto].
  - exists j, y. rewrite upd_other by exact Nj. auto.
Qed.
Ltac sq := unfold line, seq_of in *; cbn [todo dies hold heap pipe ws ones err raised left_w ended below] in *.

Lemma inv3_step : forall all s t, inv s -> inv3 all s -> step s t -> inv3 all t.
Proof.
  intros all s t I [Of Ok Oe Ow Ox] H. destruct H; sq.
  - constructor; sq; auto.
  - constructor; sq; auto. 
  - (* scatter *) constructor; sq; auto.
    + intros i b y K. rewrite app_assoc in K. apply in_app_or in K as [K|[K|[]]]; [auto|discriminate K].
    + intro E. destruct (Ok E) as (R & A & pre & ys & P & F & B). split; [exact R|]. split; [rewrite app_assoc; apply announced_snoc, A|]. exists pre, ys. split; [|auto]. rewrite P, !map_app. cbn [map item_of opt app]. rewrite <- !app_assoc. reflexivity.
    + intros L [K|K]; apply Ow; auto. right. rewrite app_assoc, existsb_app in K. cbn [existsb bad] in K. rewrite !orb_false_r in K. exact K.
  - constructor; sq; auto; discriminate.
  - (* get *) constructor; sq; auto.
    + intros i b z K. apply Of. rewrite app_assoc in K |- *. eapply in_replace; [exact K|discriminate].
    + intro E. destruct (Ok E) as (R & An & pre & ys & P & F & B). split; [exact R|]. split.
      * rewrite app_assoc in An |- *. eapply announced_replace; [exact An|reflexivity|reflexivity|discriminate|]. intros j s' Hj Hb. left. split; [exact Hj|left; reflexivity].
      * exists pre, ys. split; [|auto]. rewrite P. rewrite (items_replace a (Queued y) (Busy k y) q eq_refl). reflexivity.
    + intros L [K|K]; apply Ow; auto. right. rewrite app_assoc in K |- *. rewrite existsb_app in *. exact K.
  - (* push *) assert (Lk : k < length w) by (eapply nth_lt; eauto). set (A := map (fun z : item * flag => Done (fst z) (snd z)) o ++ a).
    assert (EA : forall c, map (fun z : item * flag => Done (fst z) (snd z)) o ++ a ++ c :: q = A ++ c :: q) by (intro; unfold A; rewrite <- app_assoc; reflexivity). rewrite EA in Of, Ok, Ow.
    assert (UQ : Forall (fun c => is_queued c = false) A).
    { apply Forall_app. split; [apply done_unqueued|]. eapply unqueued_before; [apply (i_shape _ _ _ I)|reflexivity]. }
    assert (NB : ~ In k (busy_ids A)).
    { unfold A. rewrite busy_app, busy_done. cbn [app]. pose proof (i_nodup _ _ _ I) as ND. cbn [pipe] in ND. rewrite busy_app in ND. cbn [busy_ids] in ND. apply NoDup_remove_2 in ND. intro K. apply ND, in_or_app. left. exact K. }
    constructor; sq; rewrite ?EA; auto.
    + intros i b z K. apply in_app_or in K as [K|[K|K]]; [apply Of; apply in_or_app; left; exact K| |apply Of; apply in_or_app; right; right; exact K].
      injection K as -> ->. inversion H0; subst. assumption.
    + intro E. destruct (Ok E) as (R & An & pre & ys & P & F & B). split; [exact R|]. split.
      * eapply announced_replace; [exact An|reflexivity|reflexivity| |].
        -- intro J. assert (s = Failed) by (destruct H0; try discriminate J; reflexivity). subst s. destruct An as [_ J2]. destruct (J2 k Failed H eq_refl) as (u & v & E1 & Bu & N & _).
           destruct (split_at _ A (Busy k y) q u v E1) as [(t & -> & _)|(q1 & -> & _)]; [rewrite existsb_app, Bu; reflexivity|]. destruct N. rewrite busy_app. apply in_or_app. right. left. reflexivity.
        -- intros j sj Hj Hb. destruct (Nat.eq_dec j k) as [->|Nj].
           ++ rewrite upd_same in Hj by exact Lk. injection Hj as <-. destruct H0; try discriminate Hb.
              ** right. split; [reflexivity|]. split; [rewrite busy_app; cbn [busy_ids]; rewrite app_nil_r; exact NB|exact UQ].
              ** right. split; [reflexivity|]. split; [rewrite busy_app; cbn [busy_ids]; rewrite app_nil_r; exact NB|exact UQ].
              ** left. split; [exact H|right; intros []].
           ++ rewrite upd_other in Hj by exact Nj. left. split; [exact Hj|right; intros []].
      * exists pre, ys. split; [|auto]. rewrite P. rewrite (items_replace a (Busy k y) (Done y f) q eq_refl). reflexivity.
    + intros L K. assert (C : ((e = true /\ r = false) \/ existsb bad (A ++ Busy k y :: q) = true) \/ f = FErr).
      { destruct K as [K|K]; [left; left; exact K|]. rewrite existsb_app in *. cbn [existsb bad] in *. destruct f; cbn [orb] in *; auto. }
      destruct C as [C|C].
      * apply Ow in C; [|exact L]. eapply who_upd; [exact H| |exact C]. destruct H0; intros [Z|Z]; try discriminate Z; cbn [broken]; auto. destruct s; try discriminate Z; auto. subst s. discriminate H0.
      * exists k, s'. split; [apply upd_same, Lk|]. left. destruct H0; try discriminate C; try reflexivity. congruence.
  - (* lose *) assert (Lk : k < length w) by (eapply nth_lt; eauto). set (A := map (fun z : item * flag => Done (fst z) (snd z)) o ++ a).
    assert (EA : forall c, map (fun z : item * flag => Done (fst z) (snd z)) o ++ a ++ c :: q = A ++ c :: q) by (intro; unfold A; rewrite <- app_assoc; reflexivity). rewrite EA in Of, Ok, Ow.
    assert (UQ : Forall (fun c => is_queued c = false) A).
    { apply Forall_app. split; [apply done_unqueued|]. eapply unqueued_before; [apply (i_shape _ _ _ I)|reflexivity]. }
    assert (NB : ~ In k (busy_ids A)).
    { unfold A. rewrite busy_app, busy_done. cbn [app]. pose proof (i_nodup _ _ _ I) as ND. cbn [pipe] in ND. rewrite busy_app in ND. cbn [busy_ids] in ND. apply NoDup_remove_2 in ND. intro K. apply ND, in_or_app. left. exact K. }
    constructor; sq; rewrite ?EA; auto.
    + intros j z y K. apply in_app_or in K as [K|[K|K]]; [apply Of; apply in_or_app; left; exact K|discriminate K|apply Of; apply in_or_app; right; right; exact K].
    + intro E. destruct (Ok E) as (R & An & pre & ys & P & F & B). split; [exact R|]. split.
      * eapply announced_replace; [exact An|reflexivity|reflexivity|discriminate|]. intros j sj Hj Hb. destruct (Nat.eq_dec j k) as [->|Nj].
        -- right. split; [reflexivity|]. split; [rewrite busy_app; cbn [busy_ids]; rewrite app_nil_r; exact NB|exact UQ].
        -- rewrite upd_other in Hj by exact Nj. left. split; [exact Hj|right; intros []].
      * exists pre, ys. split; [|auto]. rewrite P. rewrite (items_replace a (Busy k (Blk i b)) (Lost (Blk i b)) q eq_refl). reflexivity.
    + congruence.
  - (* gather *) constructor; sq; auto. intro E. destruct (Ok E) as (R & An & pre & ys' & P & F & B). split; [exact R|]. split; [exact An|]. exists pre, ys'. split; [|auto].
    rewrite P, map_app, items_done. cbn [map app]. rewrite <- app_assoc. reflexivity.
  - (* write *) constructor; sq; auto; try discriminate.
    + intros j z y' K. apply Of. right. exact K.
    + intros _. destruct (Ok eq_refl) as (R & An & pre & ys & P & F & B). split; [exact R|]. split; [eapply announced_pop; [exact An|reflexivity]|].
      exists (pre ++ [(i, b)]), (ys ++ [y]). split; [rewrite P, <- app_assoc; reflexivity|]. split.
      * apply Forall2_app; [exact F|]. constructor; [|constructor]. apply Of. left. reflexivity.
      * rewrite B, concat_app. cbn [concat]. rewrite !app_nil_r. reflexivity.
  - (* the write fails *) constructor; sq; auto; try discriminate.
    + intros _. destruct (Ok eq_refl) as (_ & _ & pre & ys & P & F & B). exists []. split; [|auto]. exists pre. eexists. exists ys, part. split; [exact P|]. split; [exact F|]. split; [rewrite B, !app_nil_r; reflexivity|].
      split; [exists tail; reflexivity|]. right. do 3 eexists. split; [reflexivity|]. split; [apply Of; left; reflexivity|exists rest; exact H].
    + intros L [[_ K]|K]; [discriminate K|apply Ow; auto].
  - (* junk *) exfalso. destruct (Ok eq_refl) as (_ & [J1 _] & _). specialize (J1 [] _ _ eq_refl eq_refl). discriminate J1.
  - constructor; sq; auto; try discriminate.
    + intros j z y' K. apply Of. right. exact K.
    + intros L [K|K]; apply Ow; auto. right. cbn [map existsb bad fst snd] in *. destruct f; try contradiction; exact K.
  - (* error *) constructor; sq; auto; try discriminate.
    + intros j z y' K. apply Of. right. exact K.
    + intros _. destruct e; [apply Oe; reflexivity|]. destruct (Ok eq_refl) as (_ & _ & pre & ys & P & F & B). exists []. split; [|auto]. exists pre. eexists. exists ys, []. split; [exact P|]. split; [exact F|]. split; [rewrite B, !app_nil_r; reflexivity|].
      split; [exists tail; reflexivity|left; reflexivity].
  - (* die *) constructor; sq; auto; try discriminate.
    + intros j z y' K. apply Of. right. exact K.
    + intro E. destruct (Ok E) as (R & An & pre & ys & P & F & B). split; [exact R|]. split; [eapply announced_pop; [exact An|reflexivity]|]. exists pre, ys. auto.
    + intro E. destruct (Oe E) as (t & T & Z). exists t. split; [exact T|]. intros _. apply Z. discriminate.
  - (* end *) constructor; sq; auto; try discriminate.
    + intros j z y' K. apply Of. right. exact K.
    + intro E. destruct (Ok E) as (R & An & pre & ys & P & F & B). split; [exact R|]. split; [eapply announced_pop; [exact An|reflexivity]|]. exists pre, ys. split; [exact P|]. split; [exact F|]. rewrite B, app_nil_r. reflexivity.
    + intro E. destruct (Oe E) as (t & T & Z). exists tail. split; [|congruence]. eapply truncated_more; [exact T|apply Z; discriminate|exists []; rewrite app_nil_r; reflexivity].
  - constructor; sq; auto; try discriminate.
    + intros j z y' K. apply Of. right. exact K.
    + intros _. exists part. split; [|congruence]. destruct e.
      * destruct (Oe eq_refl) as (t & T & Z). eapply truncated_more; [exact T|apply Z; discriminate|exists rest; exact H].
      * destruct (Ok eq_refl) as (_ & _ & pre & ys & P & F & B). exists pre. eexists. exists ys, []. split; [exact P|]. split; [exact F|]. split; [rewrite B, app_nil_r; reflexivity|]. split; [exists rest; exact H|left; reflexivity].
    + intros L [[_ K]|K]; [discriminate K|]. apply Ow; auto.
Qed.
End Proof.
