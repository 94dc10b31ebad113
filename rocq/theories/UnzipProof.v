(** * Invariants of the parallel decompression. *)
From Coq Require Import List Bool PeanoNat Wf_nat.
From Verif Require Import Base FileModel PipeModel PipeProof BlockModel UnzipModel UnzipSpec.
Import ListNotations.
Open Scope nat_scope.

Section Proof.
Variables (W : nat) (Z : zipper) (B : nat) (file : list N).
Hypothesis W_pos : 0 < W.
Notation step := (step W Z B file).

Definition blk (c : list N) : item := Blk 0 c.
Definition dn (z : item * flag) : cell := Done (fst z) (snd z).
Definition items (y : option item) (pi : list cell) (l : list (item * flag)) : list item := map fst l ++ map item_of pi ++ opt y.
(** orders the thread that reads still has to give *)
Definition todie (r : rmode) : nat := match r with Rpush k _ => k | _ => 0 end.
Definition is_run (r : rmode) : bool := match r with Rrun => true | _ => false end.
Definition fins (r : rmode) (y : option item) (pi : list cell) (l : list (item * flag)) : nat := ndie (items y pi l) + todie r.
Record core (r : rmode) (y : option item) (h : nat) (pi : list cell) (w : list wstate) (l : list (item * flag)) : Prop := {
  c_len : length w = W;
  c_shape : shaped pi;
  c_queued : count is_queued pi <= RS W;
  c_done : count is_done pi <= RS W /\ (count is_done pi = RS W -> match pi with c :: _ => is_done c = true | [] => False end);
  c_nodup : NoDup (busy_ids pi);
  c_busy : forall k, In k (busy_ids pi) -> exists z, nth_error w k = Some z /\ is_over z = false;
  c_lus : length l <= RS W;
  c_items : exists bl n, items y pi l = map blk bl ++ repeat Die n /\ (bl = [] \/ is_run r = true \/ n + todie r = W) /\ (is_run r = true -> n = 0);
  c_alive : alive w = ndie (waiting pi) + ndie (opt y) + (if is_run r then W else todie r);
  c_flags : forall x f, In (Done x f) pi \/ In (x, f) l -> (x = Die <-> f = FDie);
  c_lost : forall x, ~ In (Lost x) pi;
  c_heap : h + length (opt y) + length pi + length l = HS W;
  c_off : r <> Roff }.

Lemma blk_pop : forall x rest bl n, x :: rest = map blk bl ++ repeat Die n ->
  (x = Die /\ bl = [] /\ exists n', n = S n' /\ rest = repeat Die n') \/ (exists c bl', x = blk c /\ bl = c :: bl' /\ rest = map blk bl' ++ repeat Die n).
Proof.
  intros x rest bl n E. destruct bl as [|c bl].
  - destruct n as [|n]; [discriminate E|]. cbn in E. injection E as -> ->. left. eauto.
  - cbn in E. injection E as -> ->. right. eauto.
Qed.
Lemma core_pop : forall r y h pi w v f l, core r y h pi w ((v, f) :: l) -> core r y (S h) pi w l.
Proof.
  intros r y h pi w v f l [C1 C2 C3 C4 C5 C6 C7 (bl & n & E & P & Q) C9 C10 C11 C12 C13]. constructor; auto; cbn [length] in *; try lia.
  - apply (blk_pop v (items y pi l)) in E. destruct E as [(-> & -> & n' & -> & E)|(c & bl' & -> & -> & E)].
    + exists [], n'. split; [exact E|]. split; [auto|]. intro R. specialize (Q R). discriminate.
    + exists bl', n. split; [exact E|]. split; [|exact Q]. destruct P as [P|P]; [discriminate|auto].
  - intros x g [K|K]; apply C10; auto. right. right. exact K.
Qed.
Lemma core_part : forall r y h pi w v d d' l, core r y h pi w ((v, FOk d) :: l) -> core r y h pi w ((v, FOk d') :: l).
Proof.
  intros r y h pi w v d d' l [C1 C2 C3 C4 C5 C6 C7 C8 C9 C10 C11 C12 C13]. constructor; auto.
  intros x g [K|[K|K]]; [apply C10; auto| |apply C10; right; right; exact K]. injection K as <- <-. specialize (C10 v (FOk d) (or_intror (or_introl eq_refl))). split; intro X; [apply C10 in X; discriminate|discriminate].
Qed.
Lemma core_gather : forall r y h ys q w, ys <> [] -> core r y h (map dn ys ++ q) w [] -> core r y h q w ys.
Proof.
  intros r y h ys q w NE [C1 C2 C3 C4 C5 C6 C7 C8 C9 C10 C11 C12 C13]. constructor; auto.
  - eapply shaped_tail; [|exact C2]. apply done_unqueued.
  - rewrite count_app in C3. lia.
  - destruct C4 as [D1 D2]. unfold dn in D1. rewrite count_app, count_done_map in D1. destruct ys; [congruence|]. cbn [length] in *. split; lia.
  - unfold dn in C5. rewrite busy_app, busy_done in C5. exact C5.
  - intros k K. apply C6. rewrite busy_app. apply in_or_app. right. exact K.
  - destruct C4 as [D1 D2]. unfold dn in D1. rewrite count_app, count_done_map in D1. lia.
  - unfold items in *. unfold dn in C8. rewrite map_app, items_done in C8. cbn [map app] in C8. rewrite <- app_assoc in C8. exact C8.
  - unfold dn in C9. rewrite waiting_app, waiting_done in C9. exact C9.
  - intros x f [K|K]; apply C10; left; apply in_or_app; [right; exact K|left]. apply in_map_iff. exists (x, f). auto.
  - intros x K. apply (C11 x). apply in_or_app. right. exact K.
  - unfold dn in C12. rewrite app_length, map_length in C12. cbn [length] in C12. lia.
Qed.
Lemma items_send : forall y pi l, items None (pi ++ [Queued y]) l = items (Some y) pi l.
Proof. intros. unfold items. rewrite map_app. cbn [map item_of opt]. rewrite app_nil_r. reflexivity. Qed.
Lemma core_send : forall r y h pi w l, count is_queued pi < RS W -> core r (Some y) h pi w l -> core r None h (pi ++ [Queued y]) w l.
Proof.
  intros r y h pi w l Hq [C1 C2 C3 C4 C5 C6 C7 C8 C9 C10 C11 C12 C13]. constructor; auto.
  - apply shaped_snoc, C2.
  - rewrite count_app. change (count is_queued [Queued y]) with 1. lia.
  - destruct C4 as [D1 D2]. rewrite count_app. change (count is_done [Queued y]) with 0. rewrite Nat.add_0_r. split; [exact D1|]. intro E. specialize (D2 E). destruct pi; [contradiction|exact D2].
  - rewrite busy_app. cbn [busy_ids]. rewrite app_nil_r. exact C5.
  - intros k. rewrite busy_app. cbn [busy_ids]. rewrite app_nil_r. apply C6.
  - rewrite items_send. exact C8.
  - rewrite C9, waiting_app, ndie_app. change (waiting [Queued y]) with [y]. change (ndie (opt None)) with 0. cbn [opt]. lia.
  - intros x f [K|K]; apply C10; [left|right; exact K]. apply in_app_or in K as [K|[K|[]]]; [exact K|discriminate K].
  - intros x K. apply in_app_or in K as [K|[K|[]]]; [exact (C11 x K)|discriminate K].
  - rewrite app_length. cbn [opt length] in *. lia.
Qed.
Lemma items_get : forall y a c c' q l, item_of c = item_of c' -> items y (a ++ c :: q) l = items y (a ++ c' :: q) l.
Proof. intros. unfold items. rewrite (items_replace a c c' q H). reflexivity. Qed.
Lemma core_get : forall r y h a v q w i z l, nth_error w i = Some z -> is_over z = false -> (forall e, ~ In (Busy i e) (a ++ Queued v :: q)) -> Forall (fun c => is_queued c = false) a ->
  core r y h (a ++ Queued v :: q) w l -> core r y h (a ++ Busy i v :: q) w l.
Proof.
  intros r y h a v q w i z l H H0 H1 H2 [C1 C2 C3 C4 C5 C6 C7 C8 C9 C10 C11 C12 C13]. constructor; auto.
  - eapply shaped_get; eauto; reflexivity.
  - rewrite count_app, count_cons in *. cbn [is_queued] in *. lia.
  - rewrite count_app, count_cons in *. cbn [is_done] in *. destruct C4 as [D1 D2]. split; [exact D1|]. intro E. specialize (D2 E). destruct a; [discriminate D2|exact D2].
  - rewrite busy_app in *. cbn [busy_ids] in *. apply NoDup_Add with (a := i) (l := busy_ids a ++ busy_ids q); [apply Add_app|]. split; [exact C5|]. intro K.
    apply in_app_or in K as [K|K]; apply busy_in in K as [e K]; apply (H1 e), in_or_app; [left; exact K|right; right; exact K].
  - intro j. rewrite busy_app. cbn [busy_ids]. intro K. apply in_app_or in K as [K|[<-|K]]; [apply C6; rewrite busy_app; apply in_or_app; left; exact K|eauto|apply C6; rewrite busy_app; apply in_or_app; right; exact K].
  - rewrite (items_get y a (Busy i v) (Queued v) q l eq_refl). exact C8.
  - rewrite C9, !waiting_app. reflexivity.
  - intros x f [K|K]; apply C10; [left|right; exact K]. apply in_app_or in K as [K|[K|K]]; apply in_or_app; [left; exact K|discriminate K|right; right; exact K].
  - intros x K. apply (C11 x). eapply in_replace; [exact K|discriminate].
  - rewrite app_length in *. cbn [length] in *. lia.
Qed.
Lemma core_push : forall r y h a v q w i z z' f l, nth_error w i = Some z -> treat false (unzips Z B) v z f z' -> room W a (a ++ Busy i v :: q) ->
  core r y h (a ++ Busy i v :: q) w l -> core r y h (a ++ Done v f :: q) (upd i z' w) l.
Proof.
  intros r y h a v q w i z z' f l H H0 [R1 R2] [C1 C2 C3 C4 C5 C6 C7 C8 C9 C10 C11 C12 C13]. assert (Lk : i < length w) by (eapply nth_lt; eauto). constructor; auto.
  - rewrite upd_length. exact C1.
  - eapply shaped_replace; [| |exact C2]; reflexivity.
  - rewrite count_app, count_cons in *. cbn [is_queued] in *. lia.
  - rewrite count_app, count_cons in *. cbn [is_done] in *. split; [lia|]. intro E. destruct a as [|c a]; [reflexivity|]. cbn [app] in *. destruct R2 as [R2|R2]; [lia|discriminate R2|exact R2].
  - rewrite busy_app in *. cbn [busy_ids] in *. apply NoDup_remove_1 in C5. exact C5.
  - intros j K. assert (J : j <> i). { intros ->. rewrite busy_app in *. cbn [busy_ids] in *. apply NoDup_remove_2 in C5. contradiction. }
    rewrite upd_other by exact J. apply C6. rewrite busy_app in *. cbn [busy_ids] in *. apply in_app_or in K as [K|K]; apply in_or_app; [left; exact K|right; right; exact K].
  - rewrite (items_get y a (Done v f) (Busy i v) q l eq_refl). exact C8.
  - rewrite !waiting_app in *. change (waiting (Busy i v :: q)) with (v :: waiting q) in C9. change (waiting (Done v f :: q)) with (waiting q).
    rewrite !ndie_app, ndie_cons in *. pose proof (upd_alive i z z' w H) as U. destruct H0; cbn [is_over is_die] in *; try rewrite H0 in U; lia.
  - intros x g [K|K]; [|apply C10; right; exact K]. apply in_app_or in K as [K|[K|K]]; [apply C10; left; apply in_or_app; left; exact K| |apply C10; left; apply in_or_app; right; right; exact K].
    injection K as <- <-. destruct H0; split; intro X; try discriminate X; reflexivity.
  - intros x K. apply (C11 x). eapply in_replace; [exact K|discriminate].
  - rewrite app_length in *. cbn [length] in *. lia.
Qed.
Lemma items_hold : forall y pi l, items (Some y) pi l = items None pi l ++ [y].
Proof. intros. unfold items. cbn [opt]. rewrite app_nil_r, app_assoc. reflexivity. Qed.
Lemma core_data : forall h pi w l c, core Rrun None (S h) pi w l -> core Rrun (Some (blk c)) h pi w l.
Proof.
  intros h pi w l c [C1 C2 C3 C4 C5 C6 C7 (bl & n & E & P & Q) C9 C10 C11 C12 C13]. constructor; auto.
  - rewrite (Q eq_refl) in E. exists (bl ++ [c]), 0. split; [|auto]. rewrite items_hold, E, map_app. cbn [repeat map]. rewrite !app_nil_r. reflexivity.
  - cbn [opt length] in *. lia.
Qed.
Lemma core_end : forall h pi w l b, core Rrun None h pi w l -> core (Rpush W b) None h pi w l.
Proof.
  intros h pi w l b [C1 C2 C3 C4 C5 C6 C7 (bl & n & E & P & Q) C9 C10 C11 C12 C13]. constructor; auto; try discriminate. exists bl, n. split; [exact E|]. rewrite (Q eq_refl). split; [right; right; reflexivity|discriminate].
Qed.
Lemma core_order : forall h pi w l n b, core (Rpush (S n) b) None (S h) pi w l -> core (Rpush n b) (Some Die) h pi w l.
Proof.
  intros h pi w l m b [C1 C2 C3 C4 C5 C6 C7 (bl & n & E & P & Q) C9 C10 C11 C12 C13]. constructor; auto; try discriminate.
  - exists bl, (S n). split; [rewrite items_hold, E, <- app_assoc; f_equal; clear; induction n as [|n IH]; [reflexivity|]; cbn [repeat app]; rewrite IH; reflexivity|]. split; [|discriminate].
    destruct P as [P|[P|P]]; [auto|discriminate P|]. right. right. cbn [todie] in *. lia.
  - rewrite C9. cbn [opt is_run todie]. change (ndie []) with 0. change (ndie [Die]) with 1. lia.
  - cbn [opt length] in *. lia.
Qed.
Lemma core_over : forall h pi w l b, core (Rpush 0 b) None h pi w l -> core (Rover b) None h pi w l.
Proof. intros h pi w l b [C1 C2 C3 C4 C5 C6 C7 (bl & n & E & P & Q) C9 C10 C11 C12 C13]. constructor; auto; try discriminate. exists bl, n. auto. Qed.
Lemma core_start : forall w, length w = W -> Forall (fun z => is_over z = true) w -> core Rrun None (HS W) [] (map restart w) [].
Proof.
  intros w L F. constructor.
  - rewrite map_length. exact L.
  - exact I.
  - apply Nat.le_0_l.
  - split; [apply Nat.le_0_l|]. cbn [count filter length]. unfold RS. intro E. change (count is_done []) with 0 in E. lia.
  - constructor.
  - intros k [].
  - apply Nat.le_0_l.
  - exists [], 0. cbn. auto.
  - rewrite <- L. clear L. induction F as [|z w Hz F IH]; [reflexivity|]. cbn [map length]. unfold alive in *. cbn [filter]. destruct z as [| | |[]]; try discriminate Hz; cbn [restart is_over negb length]; rewrite IH; reflexivity.
  - intros x f [[]|[]].
  - intros x [].
  - cbn. lia.
  - discriminate.
Qed.
(** when all the orders have been got back, nothing remains *)
Lemma core_empty : forall r y h pi w l, core r y h pi w l -> is_run r = false -> fins r y pi l = 0 -> y = None /\ pi = [] /\ l = [] /\ h = HS W /\ Forall (fun z => is_over z = true) w.
Proof.
  intros r y h pi w l [C1 C2 C3 C4 C5 C6 C7 (bl & n & E & P & Q) C9 C10 C11 C12 C13] R F. unfold fins in F.
  assert (n = 0). { rewrite E, ndie_app, ndie_repeat in F. lia. } subst n. assert (todie r = 0) by lia.
  assert (bl = []) by (destruct P as [P|[P|P]]; [exact P|congruence|lia]). subst bl. cbn in E. unfold items in E. apply app_eq_nil in E as [E1 E]. apply app_eq_nil in E as [E2 E3]. apply map_eq_nil in E1, E2. subst.
  assert (y = None) by (destruct y; [discriminate E3|reflexivity]). subst y. cbn in *. repeat split; auto; try lia. apply alive_none. rewrite C9, R. lia.
Qed.
Lemma core_heap : forall r h pi w l, core r None h pi w l -> 0 < h.
Proof.
  intros r h pi w l [C1 C2 C3 C4 C5 C6 C7 C8 C9 C10 C11 C12 C13]. rewrite (total_count _ C11) in C12. cbn [opt length] in C12.
  assert (count is_busy pi <= W).
  { rewrite busy_count. rewrite <- (seq_length W 0). apply NoDup_incl_length; [exact C5|]. intros k K. apply in_seq. destruct (C6 k K) as (x & E & _). apply nth_lt in E. lia. }
  unfold HS in *. lia.
Qed.

(** ** the main thread *)
(** what it still expects *)
Definition expects (s : rst) : Prop :=
  match mode s with
  | Mnext | Mread _ _ => rm s = Rrun \/ fins (rm s) (hold s) (pipe s) (lus s) = W
  | Mpurge e _ _ => 0 < e <= W /\ stop s = true /\ ((rm s = Rrun /\ e = W) \/ (is_run (rm s) = false /\ fins (rm s) (hold s) (pipe s) (lus s) = e))
  | Mjoin _ => wexn s = true \/ (is_run (rm s) = false /\ fins (rm s) (hold s) (pipe s) (lus s) = 0)
  end.
Definition idle (s : rst) : Prop :=
  mode s = Mnext /\ rm s = Roff /\ hold s = None /\ pipe s = [] /\ lus s = [] /\ heap s = HS W /\ length (ws s) = W /\ Forall (fun z => is_over z = true) (ws s).
Definition inv (s : rst) : Prop :=
  if running s then core (rm s) (hold s) (heap s) (pipe s) (ws s) (lus s) /\ expects s else idle s.
Lemma fins_pop : forall r y pi v f l, fins r y pi ((v, f) :: l) = (if is_die v then 1 else 0) + fins r y pi l.
Proof. intros. unfold fins, items. cbn [map fst app]. rewrite ndie_cons. lia. Qed.
Lemma fins_part : forall r y pi v f g l, fins r y pi ((v, f) :: l) = fins r y pi ((v, g) :: l).
Proof. reflexivity. Qed.
Lemma fins_gather : forall r y ys q, fins r y (map dn ys ++ q) [] = fins r y q ys.
Proof. intros. unfold fins, items, dn. rewrite map_app, items_done. cbn [map app]. rewrite <- app_assoc. reflexivity. Qed.
Lemma fins_send : forall r y pi l, fins r None (pi ++ [Queued y]) l = fins r (Some y) pi l.
Proof. intros. unfold fins. rewrite items_send. reflexivity. Qed.
Lemma fins_get : forall r y a c c' q l, item_of c = item_of c' -> fins r y (a ++ c :: q) l = fins r y (a ++ c' :: q) l.
Proof. intros. unfold fins. rewrite (items_get y a c c' q l H). reflexivity. Qed.
Lemma fins_order : forall n b pi l, fins (Rpush n b) (Some Die) pi l = fins (Rpush (S n) b) None pi l.
Proof. intros. unfold fins. rewrite items_hold, ndie_app. change (ndie [Die]) with 1. cbn [todie]. lia. Qed.
Lemma fins_end : forall h pi w l b, core Rrun None h pi w l -> fins (Rpush W b) None pi l = W.
Proof. intros h pi w l b C. destruct (c_items _ _ _ _ _ _ C) as (bl & n & E & _ & Q). unfold fins. rewrite E, (Q eq_refl), ndie_app, ndie_repeat. cbn [todie]. replace (ndie (map blk bl)) with 0; [lia|]. clear. induction bl as [|c bl IH]; [reflexivity|exact IH]. Qed.
Lemma head_die : forall r y h pi w v f l, core r y h pi w ((v, f) :: l) -> is_die v = (match f with FDie => true | _ => false end).
Proof. intros r y h pi w v f l C. pose proof (c_flags _ _ _ _ _ _ C v f (or_intror (or_introl eq_refl))) as [A A']. destruct v, f; try reflexivity; [discriminate (A' eq_refl)|discriminate (A eq_refl)..]. Qed.
Lemma head_norun : forall r y h pi w v l, core r y h pi w ((v, FDie) :: l) -> is_run r = false.
Proof.
  intros r y h pi w v l C. destruct (is_run r) eqn:R; [|reflexivity]. destruct (c_items _ _ _ _ _ _ C) as (bl & n & E & _ & Q). rewrite (Q R), app_nil_r in E.
  pose proof (head_die _ _ _ _ _ _ _ _ C) as D. destruct bl as [|c bl]; [discriminate E|]. cbn in E. injection E as -> _. discriminate D.
Qed.
End Proof.
