(** * Invariants of the parallel writing. *)
From Verif Require Import Base PipeModel.
From Coq Require Import Bool PeanoNat Wf_nat.
Open Scope nat_scope.

Definition item_of (c : cell) : item := match c with Queued x | Busy _ x | Done x _ | Lost x => x end.
Definition is_die (x : item) : bool := match x with Die => true | _ => false end.
Definition ndie (l : list item) : nat := length (filter is_die l).
Definition opt {A} (o : option A) : list A := match o with Some x => [x] | None => [] end.
Definition seq_of (s : st) : list item :=
  map fst (ones s) ++ map item_of (pipe s) ++ opt (hold s) ++ map (fun p => Blk (fst p) (snd p)) (todo s) ++ repeat Die (dies s).
Definition alive (w : list wstate) : nat := length (filter (fun s => negb (is_over s)) w).
Definition waiting (p : list cell) : list item := map item_of (filter (fun c => negb (is_done c)) p).
Fixpoint busy_ids (p : list cell) : list nat := match p with [] => [] | Busy k _ :: r => k :: busy_ids r | _ :: r => busy_ids r end.

(** ** counting *)
Lemma count_app : forall P a b, count P (a ++ b) = count P a + count P b.
Proof. intros. unfold count. rewrite filter_app, app_length. reflexivity. Qed.
Lemma count_cons : forall P c b, count P (c :: b) = (if P c then 1 else 0) + count P b.
Proof. intros. unfold count. cbn [filter]. destruct (P c); reflexivity. Qed.
Lemma ndie_app : forall a b, ndie (a ++ b) = ndie a + ndie b.
Proof. intros. unfold ndie. rewrite filter_app, app_length. reflexivity. Qed.
Lemma ndie_cons : forall c b, ndie (c :: b) = (if is_die c then 1 else 0) + ndie b.
Proof. intros. unfold ndie. cbn [filter]. destruct (is_die c); reflexivity. Qed.
Lemma ndie_blk : forall l, ndie (map (fun p : N * list N => Blk (fst p) (snd p)) l) = 0.
Proof. induction l as [|x l IH]; [reflexivity|]. cbn [map]. rewrite ndie_cons. exact IH. Qed.
Lemma ndie_repeat : forall n, ndie (repeat Die n) = n.
Proof. induction n as [|n IH]; [reflexivity|]. cbn [repeat]. rewrite ndie_cons, IH. reflexivity. Qed.
Lemma waiting_app : forall a b, waiting (a ++ b) = waiting a ++ waiting b.
Proof. intros. unfold waiting. rewrite filter_app, map_app. reflexivity. Qed.
Lemma waiting_done : forall ys, waiting (map (fun z => Done (fst z) (snd z)) ys) = [].
Proof. induction ys as [|y ys IH]; [reflexivity|exact IH]. Qed.
Lemma count_done_map : forall ys, count is_done (map (fun z => Done (fst z) (snd z)) ys) = length ys.
Proof. induction ys as [|y ys IH]; [reflexivity|]. cbn [map]. rewrite count_cons. cbn [is_done length]. lia. Qed.
Lemma count_queued_map : forall ys, count is_queued (map (fun z : item * flag => Done (fst z) (snd z)) ys) = 0.
Proof. induction ys as [|y ys IH]; [reflexivity|exact IH]. Qed.
Lemma items_done : forall ys, map item_of (map (fun z : item * flag => Done (fst z) (snd z)) ys) = map fst ys.
Proof. induction ys as [|y ys IH]; [reflexivity|]. cbn [map item_of]. rewrite IH. reflexivity. Qed.
Lemma busy_app : forall a b, busy_ids (a ++ b) = busy_ids a ++ busy_ids b.
Proof. induction a as [|[]]; intro b; cbn [app busy_ids]; [reflexivity|apply IHa| |apply IHa..]. rewrite IHa. reflexivity. Qed.
Lemma busy_done : forall ys, busy_ids (map (fun z => Done (fst z) (snd z)) ys) = [].
Proof. induction ys as [|y ys IH]; [reflexivity|exact IH]. Qed.
Lemma busy_in : forall k p, In k (busy_ids p) <-> exists z, In (Busy k z) p.
Proof.
  intros k p; induction p as [|c p IH]; [split; [intros []|intros [z []]]|]. split.
  - destruct c; cbn [busy_ids]; intro H; try (apply IH in H as [z H]; exists z; right; exact H). destruct H as [->|H]; [eexists; left; reflexivity|apply IH in H as [z H]; exists z; right; exact H].
  - intros [z [->|H]]; [left; reflexivity|]. destruct c; cbn [busy_ids]; try right; apply IH; eauto.
Qed.
Lemma busy_count : forall p, count is_busy p = length (busy_ids p).
Proof. induction p as [|c p IH]; [reflexivity|]. rewrite count_cons, IH. destruct c; reflexivity. Qed.
Lemma total_count : forall p, (forall x, ~ In (Lost x) p) -> length p = count is_queued p + count is_busy p + count is_done p.
Proof.
  induction p as [|c p IH]; intro H; [reflexivity|]. rewrite !count_cons. cbn [length]. rewrite IH by (intros x I; apply (H x); right; exact I).
  destruct c; cbn [is_queued is_busy is_done]; try lia. destruct (H x). left. reflexivity.
Qed.
Lemma upd_length : forall k s w, length (upd k s w) = length w.
Proof. induction k as [|k IH]; intros s [|x w]; cbn [upd length]; [reflexivity..|]. rewrite IH. reflexivity. Qed.
Lemma upd_alive : forall k s s' w, nth_error w k = Some s -> alive (upd k s' w) + (if is_over s then 0 else 1) = alive w + (if is_over s' then 0 else 1).
Proof.
  induction k as [|k IH]; intros s s' [|x w] H; try discriminate H.
  - injection H as ->. unfold alive. cbn [upd filter]. destruct (is_over s), (is_over s'); cbn [negb length]; lia.
  - cbn [nth_error] in H. specialize (IH s s' w H). unfold alive in *. cbn [upd filter]. destruct (is_over x); cbn [negb length]; lia.
Qed.
Lemma upd_same : forall k s w, k < length w -> nth_error (upd k s w) k = Some s.
Proof. induction k as [|k IH]; intros s [|x w] H; cbn [length] in H; try lia; [reflexivity|]. cbn [upd nth_error]. apply IH. lia. Qed.
Lemma upd_other : forall k j s w, j <> k -> nth_error (upd k s w) j = nth_error w j.
Proof. induction k as [|k IH]; intros [|j] s [|x w] H; cbn [upd nth_error]; try reflexivity; try lia. apply IH. lia. Qed.
Lemma nth_lt : forall A (l : list A) k x, nth_error l k = Some x -> k < length l.
Proof. intros A l k x H. apply nth_error_Some. rewrite H. discriminate. Qed.
Lemma alive_some : forall w, 0 < alive w -> exists k s, nth_error w k = Some s /\ is_over s = false.
Proof.
  induction w as [|x w IH]; intro H; [cbn in H; lia|]. unfold alive in H. cbn [filter] in H. destruct (is_over x) eqn:E.
  - cbn [negb] in H. destruct (IH H) as (k & s & A & B). exists (S k), s. split; assumption.
  - exists 0, x. split; [reflexivity|exact E].
Qed.
Lemma alive_none : forall w, alive w = 0 -> Forall (fun s => is_over s = true) w.
Proof. induction w as [|x w IH]; intro H; [constructor|]. unfold alive in H. cbn [filter] in H. destruct (is_over x) eqn:E; cbn [negb] in H; [constructor; [exact E|apply IH, H]|discriminate H]. Qed.
Lemma alive_repeat : forall n, alive (repeat Fine n) = n.
Proof. induction n as [|n IH]; [reflexivity|]. unfold alive in *. cbn [repeat filter is_over negb length]. rewrite IH. reflexivity. Qed.

(** what is in the scatter comes after all the rest *)
Fixpoint shaped (p : list cell) : Prop := match p with [] => True | c :: r => if is_queued c then Forall (fun c => is_queued c = true) r else shaped r end.
Lemma shaped_snoc : forall p x, shaped p -> shaped (p ++ [Queued x]).
Proof. induction p as [|c p IH]; intros x H; [constructor|]. cbn [app shaped] in *. destruct (is_queued c); [apply Forall_app; split; [exact H|repeat constructor]|apply IH, H]. Qed.
Lemma shaped_replace : forall a c c' q, is_queued c = false -> is_queued c' = false -> shaped (a ++ c :: q) -> shaped (a ++ c' :: q).
Proof.
  induction a as [|d a IH]; intros c c' q C C' H; cbn [app shaped] in *; [rewrite C in H; rewrite C'; exact H|]. destruct (is_queued d); [|eapply IH; eauto].
  apply Forall_app in H as [_ H]. inversion H. congruence.
Qed.
Lemma shaped_get : forall a x c' q, is_queued c' = false -> Forall (fun c => is_queued c = false) a -> shaped (a ++ Queued x :: q) -> shaped (a ++ c' :: q).
Proof.
  induction a as [|d a IH]; intros x c' q C' F H; cbn [app shaped is_queued] in *; [rewrite C'|inversion F as [|? ? D F']; subst; rewrite D in *; eapply IH; eauto].
  clear -H. induction q as [|e q IH]; [constructor|]. inversion H as [|? ? E H']; subst. cbn [shaped]. rewrite E. exact H'.
Qed.
Lemma shaped_tail : forall a q, Forall (fun c => is_queued c = false) a -> shaped (a ++ q) -> shaped q.
Proof. induction a as [|d a IH]; intros q F H; [exact H|]. inversion F as [|? ? D F']; subst. cbn [app shaped] in H. rewrite D in H. apply IH; assumption. Qed.
Lemma done_unqueued : forall ys, Forall (fun c => is_queued c = false) (map (fun z : item * flag => Done (fst z) (snd z)) ys).
Proof. induction ys as [|y ys IH]; constructor; [reflexivity|exact IH]. Qed.

Section Proof.
Variable W : nat.
Variable lossy : bool.
Variable tr : N -> list N -> wres -> Prop.
Variable tail : list N.
Hypothesis W_pos : 0 < W.
Let RS := RS W.
Let HS := HS W.
Notation step := (step W lossy tr tail).

(** ** every execution is finite *)
Definition weight (c : cell) : nat := match c with Queued _ => 4 | Busy _ _ => 3 | Done _ _ => 2 | Lost _ => 0 end.
Fixpoint weights (p : list cell) : nat := match p with [] => 0 | c :: r => weight c + weights r end.
Definition measure (s : st) : nat :=
  6 * length (todo s) + 6 * dies s + (match hold s with Some _ => 5 | None => 0 end) + weights (pipe s) + length (ones s) + (if err s then 0 else 1).
Lemma weights_app : forall a b, weights (a ++ b) = weights a + weights b.
Proof. induction a as [|c a IH]; intro b; [reflexivity|]. cbn [app weights]. rewrite IH. lia. Qed.
Lemma weights_done : forall ys, weights (map (fun z : item * flag => Done (fst z) (snd z)) ys) = 2 * length ys.
Proof. induction ys as [|y ys IH]; [reflexivity|]. cbn [map weights weight length]. rewrite IH. lia. Qed.
Lemma step_measure : forall s t, step s t -> measure t < measure s.
Proof.
  intros s t H. destruct H; unfold measure; cbn [todo dies hold heap pipe ws ones err raised left_w ended below length];
  rewrite ?weights_app, ?weights_done; cbn [weights weight]; try lia.
  - destruct td; [congruence|]. cbn [length]. lia.
  - destruct ys; [congruence|]. cbn [length]. lia.
Qed.
Lemma step_wf : well_founded (fun t s => step s t).
Proof. apply (well_founded_lt_compat _ measure). intros t s H. apply step_measure, H. Qed.

(** ** the shape of what is under way *)
Record inv (s : st) : Prop := {
  i_len : length (ws s) = W;
  i_shape : shaped (pipe s);
  i_queued : count is_queued (pipe s) <= RS;
  i_done : count is_done (pipe s) <= RS /\ (count is_done (pipe s) = RS -> match pipe s with c :: _ => is_done c = true | [] => False end);
  i_nodup : NoDup (busy_ids (pipe s));
  i_busy : forall k, In k (busy_ids (pipe s)) -> exists x, nth_error (ws s) k = Some x /\ is_over x = false;
  i_ones : length (ones s) <= RS;
  i_seq : exists bl, seq_of s = map (fun p => Blk (fst p) (snd p)) bl ++ repeat Die (left_w s) /\ (bl = [] \/ left_w s = W);
  i_alive : alive (ws s) = ndie (waiting (pipe s)) + ndie (opt (hold s)) + dies s;
  i_ended : ended s = true -> left_w s = 0;
  i_stuck : left_w s = 0 -> ended s = true \/ raised s = true /\ tail <> [];
  i_flags : forall x f, In (Done x f) (pipe s) \/ In (x, f) (ones s) -> (x = Die <-> f = FDie)
}.

Lemma inv_start : forall blocks, inv (start W blocks).
Proof.
  intro blocks. constructor; cbn [start todo dies hold heap pipe ws ones err raised left_w ended below]; try (cbn; lia || constructor || intros; contradiction).
  - apply repeat_length.
  - split; [cbn; lia|]. cbn. unfold RS, PipeModel.RS. lia.
  - exists blocks. split; [reflexivity|right; reflexivity].
  - rewrite alive_repeat. reflexivity.
Qed.

Ltac split_seq := unfold seq_of in *; cbn [todo dies hold heap pipe ws ones err raised left_w ended below] in *.
Lemma items_replace : forall a c c' q, item_of c = item_of c' -> map item_of (a ++ c :: q) = map item_of (a ++ c' :: q).
Proof. intros. rewrite !map_app. cbn [map]. rewrite H. reflexivity. Qed.
Lemma seq_pop : forall x r bl n, x :: r = map (fun p : N * list N => Blk (fst p) (snd p)) bl ++ repeat Die n -> (bl = [] \/ n = W) ->
  match x with
  | Blk i b => exists bl', r = map (fun p => Blk (fst p) (snd p)) bl' ++ repeat Die n /\ (bl' = [] \/ n = W)
  | Die => exists n', n = S n' /\ r = repeat Die n'
  end.
Proof.
  intros x r bl n H B. destruct bl as [|[i b] bl].
  - cbn [map app] in H. destruct n as [|n]; [discriminate H|]. cbn [repeat] in H. injection H as -> ->. eauto.
  - cbn [map app] in H. injection H as -> ->. destruct B as [B|B]; [discriminate B|]. exists bl. auto.
Qed.
Lemma repeat_seq : forall n, exists bl, repeat Die n = map (fun p : N * list N => Blk (fst p) (snd p)) bl ++ repeat Die n /\ (bl = [] \/ n = W).
Proof. intro n. exists []. auto. Qed.
Lemma seq_abandon : forall (u : list item) td d bl n, u ++ map (fun p : N * list N => Blk (fst p) (snd p)) td ++ repeat Die d = map (fun p : N * list N => Blk (fst p) (snd p)) bl ++ repeat Die n -> (bl = [] \/ n = W) ->
  exists bl', u ++ repeat Die d = map (fun p => Blk (fst p) (snd p)) bl' ++ repeat Die n /\ (bl' = [] \/ n = W).
Proof.
  induction u as [|x u IH]; intros td d bl n H B.
  - cbn [app] in *. revert bl H B. induction td as [|y td IHt]; intros bl H B; [exists bl; split; assumption|].
    cbn [map app] in H. apply seq_pop in H; [|exact B]. destruct y as [i b]. cbn [fst snd] in H. destruct H as (bl' & H & B'). exact (IHt bl' H B').
  - cbn [app] in H. pose proof (seq_pop _ _ _ _ H B) as P. destruct x as [i b|].
    + destruct P as (bl' & P & B'). destruct (IH _ _ _ _ P B') as (bl2 & P2 & B2). destruct bl as [|[i' b'] bl].
      * destruct n; discriminate H.
      * cbn [map app fst snd] in H. injection H as -> -> _. destruct B as [B|B]; [discriminate B|]. exists ((i', b') :: bl2). cbn [app map fst snd]. rewrite P2. auto.
    + destruct P as (n' & -> & P). exists []. split; [|left; reflexivity]. cbn [map app repeat]. f_equal.
      assert (Z : td = []). { destruct td as [|[i b] td]; [reflexivity|]. exfalso. cbn [map app fst snd] in P. assert (In (Blk i b) (repeat Die n')) by (rewrite <- P; apply in_or_app; right; left; reflexivity). apply repeat_spec in H0. discriminate H0. }
      subst td. exact P.
Qed.

Lemma inv_step : forall s t, inv s -> step s t -> inv t.
Proof.
  intros s t I H. destruct I as [Il Ish Iq [Id1 Id2] In1 Ib Io [bl [Is1 Is2]] Ia Ie Ik If].
  destruct H; split_seq.
  - (* take *) constructor; split_seq; auto. exists bl. split; [|exact Is2]. rewrite <- Is1. reflexivity.
  - constructor; split_seq; auto; [exists bl; split; [|exact Is2]; rewrite <- Is1; reflexivity|]. rewrite Ia. change (ndie (opt (Some Die))) with 1. change (ndie (opt None)) with 0. lia.
  - (* scatter *) constructor; split_seq; auto.
    + apply shaped_snoc, Ish.
    + rewrite count_app. change (count is_queued [Queued x]) with 1. unfold RS. lia.
    + rewrite count_app. change (count is_done [Queued x]) with 0. rewrite !Nat.add_0_r. split; [exact Id1|]. intro E. specialize (Id2 E). destruct p; [contradiction|exact Id2].
    + rewrite busy_app. cbn [busy_ids]. rewrite app_nil_r. exact In1.
    + intros k. rewrite busy_app. cbn [busy_ids]. rewrite app_nil_r. apply Ib.
    + exists bl. split; [|exact Is2]. rewrite <- Is1, map_app. cbn [map item_of opt app]. rewrite <- app_assoc. reflexivity.
    + rewrite Ia, waiting_app, ndie_app. change (waiting [Queued x]) with [x]. change (ndie (opt None)) with 0. cbn [opt]. lia.
    + intros y f [K|K]; [apply If; apply in_app_or in K as [K|[K|[]]]; [left; exact K|discriminate K]|apply If; right; exact K].
  - (* abandon *) constructor; split_seq; auto. cbn [map app]. rewrite !app_assoc in *. rewrite <- (app_assoc _ _ (repeat Die d)) in Is1. eapply seq_abandon; eauto.
  - (* get *) constructor; split_seq; auto.
    + eapply shaped_get; eauto; reflexivity.
    + rewrite count_app, count_cons in *. cbn [is_queued] in *. lia.
    + rewrite count_app, count_cons in *. cbn [is_done] in *. split; [exact Id1|]. intro E. specialize (Id2 E). destruct a; [discriminate Id2|exact Id2].
    + rewrite busy_app in *. cbn [busy_ids] in *. apply NoDup_Add with (a := k) (l := busy_ids a ++ busy_ids q); [apply Add_app|]. split; [exact In1|]. intro K.
      apply in_app_or in K as [K|K]; apply busy_in in K as [z K]; apply (H1 z), in_or_app; [left; exact K|right; right; exact K].
    + intro j. rewrite busy_app. cbn [busy_ids]. intro K. apply in_app_or in K as [K|[<-|K]]; [apply Ib; rewrite busy_app; apply in_or_app; left; exact K|eauto|apply Ib; rewrite busy_app; apply in_or_app; right; exact K].
    + exists bl. split; [|exact Is2]. rewrite <- Is1. rewrite (items_replace a (Queued y) (Busy k y) q eq_refl). reflexivity.
    + rewrite Ia, !waiting_app. reflexivity.
    + intros z f [K|K]; [apply If; left; apply in_or_app; apply in_app_or in K as [K|[K|K]]; [left; exact K|discriminate K|right; right; exact K]|apply If; right; exact K].
  - (* push *) destruct H1 as [R1 R2]. assert (Lk : k < length w) by (eapply nth_lt; eauto). constructor; split_seq; auto.
    + rewrite upd_length. exact Il.
    + eapply shaped_replace; [| |exact Ish]; reflexivity.
    + rewrite count_app, count_cons in *. cbn [is_queued] in *. lia.
    + rewrite count_app, count_cons in *. cbn [is_done] in *. unfold RS in *. split; [lia|]. intro E. destruct a as [|c a]; [reflexivity|]. cbn [app] in *. destruct R2 as [R2|R2]; [lia|discriminate R2|exact R2].
    + rewrite busy_app in *. cbn [busy_ids] in *. apply NoDup_remove_1 in In1. exact In1.
    + intros j K. assert (J : j <> k). { intros ->. rewrite busy_app in *. cbn [busy_ids] in *. apply NoDup_remove_2 in In1. contradiction. }
      rewrite upd_other by exact J. apply Ib. rewrite busy_app in *. cbn [busy_ids] in *. apply in_app_or in K as [K|K]; apply in_or_app; [left; exact K|right; right; exact K].
    + exists bl. split; [|exact Is2]. rewrite <- Is1. rewrite (items_replace a (Busy k y) (Done y f) q eq_refl). reflexivity.
    + rewrite !waiting_app in *. change (waiting (Busy k y :: q)) with (y :: waiting q) in Ia. change (waiting (Done y f :: q)) with (waiting q).
      rewrite !ndie_app, ndie_cons in *. pose proof (upd_alive k s s' w H) as U. destruct H0; cbn [is_over is_die] in *; try rewrite H0 in U; lia.
    + intros z g [K|K]; [|apply If; right; exact K]. apply in_app_or in K as [K|[K|K]]; [apply If; left; apply in_or_app; left; exact K| |apply If; left; apply in_or_app; right; right; exact K].
      injection K as <- <-. destruct H0; split; intro Z; try discriminate Z; reflexivity.
  - (* lose *) assert (Lk : k < length w) by (eapply nth_lt; eauto). constructor; split_seq; auto.
    + rewrite upd_length. exact Il.
    + eapply shaped_replace; [| |exact Ish]; reflexivity.
    + rewrite count_app, count_cons in *. cbn [is_queued] in *. lia.
    + rewrite count_app, count_cons in *. cbn [is_done] in *. split; [lia|]. intro E. specialize (Id2 E). destruct a; [discriminate Id2|exact Id2].
    + rewrite busy_app in *. cbn [busy_ids] in *. apply NoDup_remove_1 in In1. exact In1.
    + intros j K. assert (J : j <> k). { intros ->. rewrite busy_app in *. cbn [busy_ids] in *. apply NoDup_remove_2 in In1. contradiction. }
      rewrite upd_other by exact J. apply Ib. rewrite busy_app in *. cbn [busy_ids] in *. apply in_app_or in K as [K|K]; apply in_or_app; [left; exact K|right; right; exact K].
    + exists bl. split; [|exact Is2]. rewrite <- Is1. rewrite (items_replace a (Busy k (Blk i b)) (Lost (Blk i b)) q eq_refl). reflexivity.
    + rewrite !waiting_app in *. change (waiting (Busy k (Blk i b) :: q)) with (Blk i b :: waiting q) in Ia. change (waiting (Lost (Blk i b) :: q)) with (Blk i b :: waiting q).
      rewrite !ndie_app, ndie_cons in *. pose proof (upd_alive k Fine Inform w H0) as U. cbn [is_over is_die] in *. lia.
    + intros z g [K|K]; [|apply If; right; exact K]. apply in_app_or in K as [K|[K|K]]; [apply If; left; apply in_or_app; left; exact K|discriminate K|apply If; left; apply in_or_app; right; right; exact K].
  - (* gather *) constructor; split_seq; auto.
    + eapply shaped_tail; [|exact Ish]. apply done_unqueued.
    + rewrite count_app in Iq. lia.
    + rewrite count_app, count_done_map in *. destruct ys; [congruence|]. cbn [length] in *. lia.
    + rewrite busy_app, busy_done in In1. exact In1.
    + intros k K. apply Ib. rewrite busy_app. apply in_or_app. right. exact K.
    + rewrite count_app, count_done_map in *. lia.
    + exists bl. split; [|exact Is2]. rewrite <- Is1, map_app, items_done. cbn [map app]. rewrite <- app_assoc. reflexivity.
    + rewrite Ia, waiting_app, waiting_done. reflexivity.
    + intros z f [K|K]; apply If; left; apply in_or_app; [right; exact K|left]. apply in_map_iff. exists (z, f). auto.
  - (* the writing thread *)
    cbn [map fst app] in Is1. apply seq_pop in Is1; [|exact Is2]. constructor; split_seq; auto; [cbn [length] in Io; lia|]. intros z g [K|K]; apply If; [left; exact K|right; right; exact K].
  - constructor; split_seq; auto; [exists bl; split; auto|]. intro Z. destruct (Ik Z) as [Q|[_ Q]]; [discriminate Q|auto].
  - cbn [map fst app] in Is1. apply seq_pop in Is1; [|exact Is2]. constructor; split_seq; auto; [cbn [length] in Io; lia|]. intros z g [K|K]; apply If; [left; exact K|right; right; exact K].
  - cbn [map fst app] in Is1. apply seq_pop in Is1; [|exact Is2]. constructor; split_seq; auto; [cbn [length] in Io; lia|]. intros z g [K|K]; apply If; [left; exact K|right; right; exact K].
  - cbn [map fst app] in Is1. apply seq_pop in Is1; [|exact Is2]. constructor; split_seq; auto; [cbn [length] in Io; lia|]. intros z g [K|K]; apply If; [left; exact K|right; right; exact K].
  - cbn [map fst app] in Is1. apply seq_pop in Is1 as (n' & E & Is1); [|exact Is2]. injection E as <-. constructor; split_seq; auto; [cbn [length] in Io; lia|rewrite Is1; apply repeat_seq|discriminate|discriminate|]. intros z g [K|K]; apply If; [left; exact K|right; right; exact K].
  - cbn [map fst app] in Is1. apply seq_pop in Is1 as (n' & E & Is1); [|exact Is2]. injection E as <-. constructor; split_seq; auto; [cbn [length] in Io; lia|rewrite Is1; apply repeat_seq|]. intros z g [K|K]; apply If; [left; exact K|right; right; exact K].
  - cbn [map fst app] in Is1. apply seq_pop in Is1 as (n' & E & Is1); [|exact Is2]. injection E as <-. constructor; split_seq; auto; [cbn [length] in Io; lia|rewrite Is1; apply repeat_seq|intros _; right; split; [reflexivity|]; subst tail; destruct part; [exact H0|discriminate]|]. intros z g [K|K]; apply If; [left; exact K|right; right; exact K].
Qed.

(** ** the pool of segments is never empty, and some thread can always go on *)
Definition no_loss : Prop := lossy = false \/ forall i b, ~ tr i b WExn.
Record inv2 (s : st) : Prop := {
  j_lost : forall x, ~ In (Lost x) (pipe s);
  j_heap : heap s + length (opt (hold s)) + length (pipe s) + length (ones s) = HS }.
Lemma inv2_start : forall blocks, inv2 (start W blocks).
Proof. intro blocks. constructor; cbn; [auto|unfold HS, PipeModel.HS; lia]. Qed.
Lemma in_replace : forall (a q : list cell) c c' x, In x (a ++ c' :: q) -> x <> c' -> In x (a ++ c :: q).
Proof. intros a q c c' x H N. apply in_app_or in H as [H|[H|H]]; apply in_or_app; [left; exact H|congruence|right; right; exact H]. Qed.
Lemma inv2_step : forall s t, no_loss -> inv2 s -> step s t -> inv2 t.
Proof.
  intros s t NL [Jl Jh] H. destruct H; split_seq; try (constructor; split_seq; auto; cbn [opt length] in *; lia).
  - constructor; split_seq; [|rewrite app_length in *; cbn [opt length] in *; lia]. intros z K. apply in_app_or in K as [K|[K|[]]]; [exact (Jl z K)|discriminate K].
  - constructor; split_seq; [|rewrite app_length in *; cbn [length] in *; lia]. intros z K. apply (Jl z). eapply in_replace; [exact K|discriminate].
  - constructor; split_seq; [|rewrite app_length in *; cbn [length] in *; lia]. intros z K. apply (Jl z). eapply in_replace; [exact K|discriminate].
  - exfalso. destruct NL as [NL|NL]; [congruence|]. exact (NL _ _ H1).
  - constructor; split_seq; [|rewrite app_length, map_length in Jh; cbn [length] in *; lia]. intros z K. apply (Jl z), in_or_app. right. exact K.
Qed.
Lemma busy_bound : forall s, inv s -> count is_busy (pipe s) <= W.
Proof.
  intros s I. rewrite busy_count. rewrite <- (seq_length W 0). apply NoDup_incl_length; [apply I|]. intros k K. apply in_seq. destruct (i_busy s I k K) as (x & E & _). apply nth_lt in E. rewrite (i_len s I) in E. lia.
Qed.
Lemma heap_not_empty : forall s, inv s -> inv2 s -> hold s = None -> 0 < heap s.
Proof.
  intros s I J N. pose proof (busy_bound s I). destruct J as [Jl Jh]. rewrite (total_count _ Jl), N in Jh. cbn [opt length] in Jh.
  pose proof (i_queued s I). destruct (i_done s I) as [D _]. pose proof (i_ones s I). unfold HS, PipeModel.HS, RS in *. lia.
Qed.
Definition total : Prop := forall i b, exists r, tr i b r.
Lemma progress : forall s, no_loss -> total -> inv s -> inv2 s -> finished s \/ (left_w s = 0 /\ ended s = false /\ raised s = true /\ tail <> []) \/ exists t, step s t.
Proof.
  intros s NL T I J. pose proof (heap_not_empty s I J) as Hh. destruct J as [Jl Jh].
  assert (Z : left_w s = 0 -> seq_of s = []).
  { intro E. destruct (i_seq s I) as (bl & E1 & [->|E2]); [rewrite E1, E; reflexivity|lia]. }
  destruct s as [td d x h p w o e r l en be]. split_seq. cbn [todo dies hold heap pipe ws ones err raised left_w ended below] in *.
  destruct o as [|[y f] o].
  2:{ assert (Hl : l <> 0) by (intro E; apply Z in E; discriminate E). destruct en; [destruct Hl; apply (i_ended _ I); reflexivity|]. right. right.
      pose proof (proj1 (i_flags _ I y f (or_intror (or_introl eq_refl)))) as F1. pose proof (proj2 (i_flags _ I y f (or_intror (or_introl eq_refl)))) as F2.
      destruct y as [i b|].
      - destruct f; [destruct e; eexists; [apply s_ignore; exact Logic.I|apply s_write]|eexists; apply s_error|destruct e; eexists; [apply s_ignore; exact Logic.I|apply s_write_junk]|discriminate (F2 eq_refl)].
      - rewrite (F1 eq_refl) in *. destruct l as [|[|l]]; [congruence|eexists; apply s_end|eexists; apply s_die]. }
  destruct p as [|c p].
  - destruct x as [x|].
    + right. right. eexists. apply s_scatter. cbn. unfold PipeModel.RS. lia.
    + specialize (Hh eq_refl). destruct h as [|h]; [lia|]. destruct td as [|[i b] td]; [|right; right; eexists; apply s_take].
      destruct d as [|d]; [|right; right; eexists; apply s_take_die].
      assert (L : l = 0). { destruct (i_seq _ I) as (bl & E1 & _). unfold seq_of in E1. cbn in E1. symmetry in E1. apply app_eq_nil in E1 as [_ E1]. destruct l; [reflexivity|discriminate E1]. }
      subst l. destruct en; [|right; left; destruct (i_stuck _ I eq_refl) as [Q|[Q1 Q2]]; [discriminate Q|auto]]. left. repeat split; cbn; auto. apply alive_none. pose proof (i_alive _ I) as A. cbn in A. exact A.
  - assert (Hl : l <> 0) by (intro E; apply Z in E; discriminate E).
    right. right. destruct c as [y|k y|y f|y].
    + (* all is queued *) pose proof (i_shape _ I) as Sh. cbn [pipe shaped is_queued] in Sh.
      assert (A : 0 < alive w).
      { pose proof (i_alive _ I) as A. cbn [ws pipe hold dies] in A. rewrite A. destruct (i_seq _ I) as (bl & E1 & _). apply (f_equal ndie) in E1. unfold seq_of in E1. cbn [todo dies hold heap pipe ws ones err raised left_w ended below map fst app] in E1.
        rewrite ndie_app, ndie_blk, ndie_repeat in E1. assert (Ew : waiting (Queued y :: p) = map item_of (Queued y :: p)).
        { unfold waiting. f_equal. assert (Q : Forall (fun c => is_queued c = true) (Queued y :: p)) by (constructor; [reflexivity|exact Sh]). clear -Q. induction Q as [|c l C Q IH]; [reflexivity|]. cbn [filter]. destruct c; try discriminate C. cbn [is_done negb]. rewrite IH. reflexivity. }
        rewrite Ew. change (item_of (Queued y) :: map item_of p ++ opt x ++ map (fun p : N * list N => Blk (fst p) (snd p)) td ++ repeat Die d) with (map item_of (Queued y :: p) ++ opt x ++ map (fun p : N * list N => Blk (fst p) (snd p)) td ++ repeat Die d) in E1.
        rewrite !ndie_app, ndie_blk, ndie_repeat in E1. lia. }
      apply alive_some in A as (k & s & A1 & A2). exists (St td d x h ([] ++ Busy k y :: p) w [] e r l en be). change (Queued y :: p) with ([] ++ Queued y :: p).
      eapply s_get; eauto. intros z K. cbn [app] in K. destruct K as [K|K]; [discriminate K|]. rewrite Forall_forall in Sh. apply Sh in K. discriminate K.
    + destruct (i_busy _ I k) as (s & E & O); [left; reflexivity|]. cbn [ws] in E.
      assert (TR : exists f s', treat lossy tr y s f s').
      { destruct y as [i b|]; [|do 2 eexists; apply t_die; exact O]. destruct s; [|do 2 eexists; constructor|do 2 eexists; constructor|discriminate O].
        destruct (T i b) as [[z| |] Tr]; [do 2 eexists; apply t_ok; exact Tr| |].
        - destruct lossy eqn:Lo; [do 2 eexists; apply t_range; auto|do 2 eexists; apply t_exn; auto].
        - destruct NL as [NL|NL]; [do 2 eexists; apply t_exn; auto|destruct (NL _ _ Tr)]. }
      destruct TR as (f & s' & TR). exists (St td d x h ([] ++ Done y f :: p) (upd k s' w) [] e r l en be). change (Busy k y :: p) with ([] ++ Busy k y :: p). eapply s_push; [exact E|exact TR|]. split; [|auto].
      destruct (i_done _ I) as [D1 D2]. cbn [pipe is_done] in *. fold RS. cbn [app]. destruct (Nat.eq_dec (count is_done (Busy k y :: p)) RS) as [Q|Q]; [discriminate (D2 Q)|lia].
    + destruct en; [destruct Hl; apply (i_ended _ I); reflexivity|]. exists (St td d x h p w [(y, f)] e r l false be). change (Done y f :: p) with (map (fun z : item * flag => Done (fst z) (snd z)) [(y, f)] ++ p). apply s_gather. discriminate.
    + destruct (Jl y). left. reflexivity.
Qed.
End Proof.
