(** * C45: parallel decompression gives the client what reading sequentially would give, whatever the schedule of the threads; no deadlock, no endless schedule. *)
From Coq Require Import List Bool PeanoNat.
From Verif Require Import Base InfinintModel InfinintProof2 FileModel CacheProof PipeModel PipeProof BlockModel PropBlock PropPipe PipeSpec UnzipModel UnzipSpec UnzipProof UnzipProof2 UnzipProof3 UnzipProof4 UnzipProof5.
Import ListNotations.
Open Scope nat_scope.
Notation steps := UnzipModel.steps.
Notation start := UnzipModel.start.
Notation stopped := UnzipSpec.stopped.

(** whatever the file and the schedule: the data given are those of the file, in order; less than asked is given at the mark of end only; an exception only comes if what follows is damaged *)
Theorem C45_exact : forall W Z B file p l s, 0 < W -> steps W Z B file (start W p l) s -> answers Z B file p [] l (outs s).
Proof. intros W Z B file p l s HW H. eapply ok_answers. eapply ok_steps; [exact HW|exact H|apply ok_start]. Qed.
Print Assumptions C45_exact.

(** no deadlock, unless a block is damaged; damaged headers and blocks that are not complete are allowed *)
Theorem C45_no_deadlock : forall W Z B file S p l s, 0 < W -> sound Z B file S -> no_tell l -> S None p -> (forall q, In (Skip q) l -> S None q) ->
  steps W Z B file (start W p l) s -> stopped W Z B file s -> served s.
Proof.
  intros W Z B file S p l s HW HS T P Q H St. destruct (all_steps W Z B file S HW HS _ _ H (all_start W Z B S p l T Q P)) as (I & X & L).
  destruct (progress W Z B file S HW s I X L) as [K|[t K]]; [exact K|destruct (St t K)].
Qed.
Print Assumptions C45_no_deadlock.

(** no schedule goes on for ever *)
Theorem C45_ends : forall W Z B file S p l, 0 < W -> sound Z B file S -> no_tell l -> S None p -> (forall q, In (Skip q) l -> S None q) ->
  Acc (fun t s => UnzipModel.step W Z B file s t) (start W p l).
Proof. intros W Z B file S p l HW HS T P Q. apply (ends W Z B file S HW HS). apply all_start; assumption. Qed.
Print Assumptions C45_ends.

(** ** sound files *)
Section Sound.
Variables (Z : zipper) (B : nat) (file : list N).
Notation holds := (holds Z B file).
Notation begins := (begins Z B file).
Notation next := (next Z B file).
Lemma gives_det : forall c y y', gives Z B c y -> gives Z B c y' -> y = y'.
Proof. intros c y y' [H _] [H' _]. congruence. Qed.
Lemma begins_prefix : forall t p X, begins t p X -> forall D, holds t p D -> exists R, D = X ++ R.
Proof.
  intros t p X H. induction H as [t p|t p c q y X Hn G H IH]; intros D HD; [exists D; reflexivity|]. inversion HD; subst; [congruence|].
  match goal with A : next t p = Edata ?c0 ?q0 |- _ => rewrite Hn in A; injection A as <- <- end. match goal with A : gives Z B c ?y' |- _ => pose proof (gives_det _ _ _ G A); subst end.
  match goal with A : holds (Some H_DATA) q ?D0 |- _ => destruct (IH _ A) as [R ->] end. exists R. apply app_assoc.
Qed.
Lemma holds_det : forall t p D, holds t p D -> forall D', holds t p D' -> D = D'.
Proof.
  intros t p X H. induction H as [t p q Hn|t p c q y X Hn G H IH]; intros D HD; inversion HD; subst; try congruence.
  match goal with A : next t p = Edata ?c0 ?q0 |- _ => rewrite Hn in A; injection A as <- <- end. match goal with A : gives Z B c ?y' |- _ => pose proof (gives_det _ _ _ G A); subst end. f_equal. apply IH. assumption.
Qed.
Lemma holds_more : forall t p D, holds t p D -> forall c q, next t p = Edata c q -> p < q.
Proof.
  intros t p D H c q E. assert (K : skipn p file = [] -> t = Some H_DATA -> False).
  { clear c q E. induction H as [t p q Hn|t p c q y D Hn G H IH]; intros K ->.
    - unfold UnzipModel.next in Hn. rewrite K in Hn. discriminate Hn.
    - unfold UnzipModel.next in Hn. rewrite K in Hn. injection Hn as <- <-. apply IH; auto. }
  unfold UnzipModel.next in E. destruct (skipn p file) as [|ty r] eqn:Es.
  - destruct t as [[|[|[]|]]|]; try discriminate E. destruct (K eq_refl eq_refl).
  - destruct (readN r) as [[n rst]|] eqn:Er; [|discriminate E]. destruct (U_I_max <? n)%N; [discriminate E|]. destruct (ty =? H_EOF)%N; [destruct (n =? 0)%N; discriminate E|].
    destruct (ty =? H_DATA)%N; [|discriminate E]. destruct (N.of_nat (z_room Z B) <? n)%N; [discriminate E|]. destruct (Nat.ltb_spec (length rst) (N.to_nat n)); [discriminate E|]. injection E as <- <-.
    assert (length rst <= length r) by (destruct (ReadStable.framed_readN _ _ _ Er) as (pr & -> & _); rewrite app_length; lia).
    assert (L : length (skipn p file) = S (length r)) by (rewrite Es; reflexivity). rewrite skipn_length in L. lia.
Qed.
Lemma holds_sound : sound Z B file (fun t p => exists D, holds t p D).
Proof.
  intros t p [D H]. pose proof (holds_more t p D H) as M. inversion H; subst; [rewrite H0; exact I|]. rewrite H0. split; [eapply M; eauto|]. split; eauto.
Qed.
Lemma answers_len : forall p got l u, answers Z B file p got l u -> no_tell l -> (exists D, holds None p D) -> (forall q, In (Skip q) l -> exists D, holds None q D) -> length u <= length l.
Proof.
  intros p got l u H. induction H; intros T P Q; cbn [length]; try lia.
  - apply le_n_S. apply IHanswers; auto; [intro K; apply T; right; exact K|intros q K; apply Q; right; exact K].
  - apply le_n_S. apply IHanswers; [intro K; apply T; right; exact K|apply Q; left; reflexivity|intros q' K; apply Q; right; exact K].
  - destruct P as [D P]. destruct (H D P).
  - destruct T. left. reflexivity.
Qed.
Lemma firstn_exact : forall A (d r : list A) n, length d = n -> firstn n (d ++ r) = d /\ skipn n (d ++ r) = r.
Proof. intros A d r n <-. split; [apply firstn_app_exact|apply skipn_app_exact]. Qed.
Lemma fine_expected : forall data p a u q G, fine Z B file p a u q G -> holds None p (data p) -> (forall q, In (Skip q) a -> holds None q (data q)) ->
  holds None q (data q) /\ exists R, data q = G ++ R /\ forall l, expected data (data p) (a ++ l) = u ++ expected data R l.
Proof.
  intros data p a u q G H. induction H as [|a u q G n d H IH [more Bg] Ln Hs|a u q G r H IH]; intros P Q.
  - split; [exact P|]. exists (data p). auto.
  - destruct IH as [Hq (R & E & X)]; [exact P|intros q' K; apply Q, in_or_app; left; exact K|]. split; [exact Hq|].
    destruct (begins_prefix _ _ _ Bg _ Hq) as [R2 E2]. rewrite E, <- !app_assoc in E2. apply app_inv_head in E2.
    assert (F : firstn n R = d /\ skipn n R = skipn (length d) R).
    { destruct (Nat.eq_dec (length d) n) as [El|El].
      - rewrite E2. destruct (firstn_exact _ d (more ++ R2) n El) as [-> ->]. rewrite El. destruct (firstn_exact _ d (more ++ R2) n El) as [_ ->]. auto.
      - assert (Lt : length d < n) by lia. pose proof (holds_det _ _ _ (Hs Lt) _ Hq) as E3. rewrite E in E3. apply app_inv_head in E3. rewrite <- E3. rewrite firstn_all2 by lia. rewrite skipn_all2 by lia. rewrite skipn_all. auto. }
    exists (skipn (length d) R). split; [rewrite E2, skipn_app_exact, E, E2, <- app_assoc; reflexivity|]. intro l. rewrite <- !app_assoc, X. cbn [app expected]. destruct F as [-> ->]. reflexivity.
  - assert (Hr : holds None r (data r)) by (apply Q, in_or_app; right; left; reflexivity). split; [exact Hr|]. exists (data r). split; [reflexivity|]. intro l.
    destruct IH as [_ (R & E & X)]; [exact P|intros q' K; apply Q, in_or_app; left; exact K|]. rewrite <- !app_assoc, X. reflexivity.
Qed.
End Sound.

(** when nothing is damaged, every maximal schedule serves the client, and a client that is served got the data a sequential reading gives *)
Theorem C45_reads : forall W Z B file data p l s, 0 < W -> no_tell l -> holds Z B file None p (data p) -> (forall q, In (Skip q) l -> holds Z B file None q (data q)) ->
  steps W Z B file (start W p l) s -> (stopped W Z B file s -> served s) /\ (served s -> outs s = expected data (data p) l).
Proof.
  intros W Z B file data p l s HW T P Q H. split.
  { intro St. eapply (C45_no_deadlock W Z B file (fun t p => exists D, holds Z B file t p D) p l); eauto. apply holds_sound. }
  intro Sv. pose proof (ok_steps W Z B file HW p l _ _ H (ok_start W Z B file p l)) as [(a & p0 & G & b & EL & Cur & F & _)|A].
  - destruct Sv as [Eo Em]. rewrite Em in Cur. cbn in Cur. subst b. rewrite Eo, app_nil_r in EL. subst a.
    destruct (fine_expected Z B file data p l (outs s) p0 G F P Q) as [_ (R & _ & X)]. specialize (X []). cbn [expected] in X. rewrite !app_nil_r in X. symmetry. exact X.
  - exfalso. specialize (A (repeat ODone (S (length l)))). apply answers_len in A; eauto. rewrite app_length, repeat_length in A. lia.
Qed.
Print Assumptions C45_reads.

(** the pool is never exhausted, and never gets more segments than it had *)
Theorem C45_pool : forall W Z B file S p l s, 0 < W -> sound Z B file S -> no_tell l -> S None p -> (forall q, In (Skip q) l -> S None q) ->
  steps W Z B file (start W p l) s -> heap s + length (opt (hold s)) + length (pipe s) + length (lus s) = HS W /\ (hold s = None -> 0 < heap s).
Proof.
  intros W Z B file S p l s HW HS T P Q H. destruct (all_steps W Z B file S HW HS _ _ H (all_start W Z B S p l T Q P)) as (I & X & L). unfold inv in I. destruct (running s).
  - destruct I as [C _]. split; [exact (c_heap _ _ _ _ _ _ _ C)|]. intro E. rewrite E in C. eapply core_heap; eauto.
  - destruct I as (_ & _ & E1 & E2 & E3 & E4 & _). rewrite E1, E2, E3, E4. cbn [opt length]. split; [lia|]. intros _. unfold PipeModel.HS. lia.
Qed.
Print Assumptions C45_pool.

(** ** what the sequential (C30) or the parallel (C39) compression wrote *)
Section Stream.
Variables (Z : zipper) (B : nat).
Hypothesis G : good_zip Z B.
Hypothesis small : (N.of_nat (z_room Z B) <= U_I_max)%N.
Lemma next_data : forall X c rest t, 0 < length c <= B -> next Z B (X ++ piece Z c ++ rest) t (length X) = Edata (z_comp Z c) (length (X ++ piece Z c)).
Proof.
  intros X c rest t L. unfold next. rewrite skipn_app_exact. unfold piece at 1. unfold bh_dump at 1. rewrite <- app_assoc. cbn [app]. rewrite readN_dumpN. pose proof (gz_room _ _ G c L).
  replace (U_I_max <? N.of_nat (length (z_comp Z c)))%N with false by (symmetry; apply N.ltb_ge; lia). change (H_DATA =? H_EOF)%N with false. change (H_DATA =? H_DATA)%N with true. cbn iota.
  replace (N.of_nat (z_room Z B) <? N.of_nat (length (z_comp Z c)))%N with false by lia. rewrite Nat2N.id. rewrite app_length. replace (length (z_comp Z c) + length rest <? length (z_comp Z c)) with false by lia.
  rewrite firstn_app_exact. f_equal. unfold piece, bh_dump. repeat rewrite app_length. cbn [length app]. repeat rewrite app_length. cbn [length]. lia.
Qed.
Lemma next_end : forall X rest t, exists q, next Z B (X ++ bh_dump H_EOF 0 ++ rest) t (length X) = Eend q.
Proof. intros X rest t. unfold next. rewrite skipn_app_exact. unfold bh_dump. cbn [app]. rewrite readN_dumpN. change (U_I_max <? 0)%N with false. change (H_EOF =? H_EOF)%N with true. change (0 =? 0)%N with true. eexists. reflexivity. Qed.
Lemma tail_holds : forall n R X post t, length R <= n -> holds Z B (X ++ flat_map (piece Z) (chunks (length R) B R) ++ bh_dump H_EOF 0 ++ post) t (length X) R.
Proof.
  pose proof (gz_B _ _ G) as HB. induction n as [|n IH]; intros R X post t L.
  - destruct R; [|cbn in L; lia]. cbn [length chunks flat_map app]. destruct (next_end X post t) as [q E]. eapply hd_end. exact E.
  - destruct R as [|x R0]; [cbn [length chunks flat_map app]; destruct (next_end X post t) as [q E]; eapply hd_end; exact E|]. remember (x :: R0) as R eqn:ER. assert (HR : R <> []) by (subst; discriminate).
    rewrite chunks_step by (auto; lia). cbn [flat_map]. rewrite <- (app_assoc (piece Z (firstn B R))).
    match goal with |- holds _ _ ?f _ _ _ => enough (E : holds Z B f t (length X) (firstn B R ++ skipn B R)) by (rewrite firstn_skipn in E; exact E) end.
    assert (Lc : 0 < length (firstn B R) <= B) by (rewrite firstn_length; subst R; cbn [length]; lia).
    eapply hd_blk; [apply next_data; exact Lc|split; [apply (gz_inv _ _ G); exact Lc|lia]|].
    rewrite (app_assoc X). apply IH. rewrite skipn_length. subst R. cbn [length] in *. lia.
Qed.
Lemma stream_holds : forall pre D post, D <> [] -> holds Z B (pre ++ stream Z B D ++ post) None (length pre) D.
Proof. intros pre D post H. unfold stream. destruct D as [|x D]; [congruence|]. rewrite <- app_assoc. eapply tail_holds. reflexivity. Qed.
Lemma expected_reads : forall data ns D, expected data D (map Read ns) = map OData (plain_reads ns D).
Proof. intros data ns. induction ns as [|n ns IH]; intro D; [reflexivity|]. cbn [map expected plain_reads]. f_equal. apply IH. Qed.
End Stream.

(** reading with any number of threads gives what the sequential reading gives *)
Theorem C45_as_sequential : forall W Z B pre D post ns s, 0 < W -> good_zip Z B -> (N.of_nat (z_room Z B) <= U_I_max)%N -> D <> [] ->
  steps W Z B (pre ++ stream Z B D ++ post) (start W (length pre) (map Read ns)) s ->
  exists rs, b_fetch Z B (mk_file (pre ++ stream Z B D ++ post) 0) (length pre) ns = Ok rs /\
    (stopped W Z B (pre ++ stream Z B D ++ post) s -> served s) /\ (served s -> outs s = map OData rs).
Proof.
  intros W Z B pre D post ns s HW G Sm HD H. exists (plain_reads ns D). split; [apply C30_stream_reads; assumption|].
  rewrite <- (expected_reads (fun _ => D)). eapply (C45_reads W Z B _ (fun _ => D)); eauto.
  - intro K. apply in_map_iff in K as (n & K & _). discriminate K.
  - apply stream_holds; assumption.
  - intros q K. apply in_map_iff in K as (n & K & _). discriminate K.
Qed.
Print Assumptions C45_as_sequential.

(** compressing with some threads then decompressing with others gives the data back *)
Theorem C45_round_trip : forall W W' Z B writes ns w s, 0 < W -> 0 < W' -> good_zip Z B -> (N.of_nat (z_room Z B) <= U_I_max)%N -> concat writes <> [] ->
  PipeModel.steps W false (compresses Z) (bh_dump H_EOF 0) (PipeModel.start W (handed B writes)) w -> PipeSpec.stopped W false (compresses Z) (bh_dump H_EOF 0) w -> raised w = false ->
  steps W' Z B (below w) (start W' 0 (map Read ns)) s -> stopped W' Z B (below w) s ->
  served s /\ outs s = map OData (plain_reads ns (concat writes)).
Proof.
  intros W W' Z B writes ns w s HW HW' G Sm HD H St R Hs Hst. destruct (C39_compression W Z B writes w HW G HD H St R) as (_ & _ & E). rewrite E in Hs, Hst.
  pose proof (C45_as_sequential W' Z B [] (concat writes) [] ns s HW' G Sm HD) as K. cbn [app length] in K. rewrite app_nil_r in K. destruct (K Hs) as (rs & F & Sv & O). specialize (Sv Hst). split; [exact Sv|].
  pose proof (C30_stream_reads Z B [] (concat writes) [] 0 ns G HD) as F2. cbn [app length] in F2. rewrite app_nil_r in F2. rewrite F in F2. injection F2 as ->. exact (O Sv).
Qed.
Print Assumptions C45_round_trip.

(** ** an instance *)
(** there is always such a schedule *)
Lemma some_schedule : forall W Z B file S p l, 0 < W -> sound Z B file S -> no_tell l -> S None p -> (forall q, In (Skip q) l -> S None q) -> exists s, steps W Z B file (start W p l) s /\ served s.
Proof.
  intros W Z B file S p l HW HS T P Q. pose proof (all_start W Z B S p l T Q P) as A. pose proof (ends W Z B file S HW HS _ A) as Ac. revert A. induction Ac as [s _ IH]. intro A.
  destruct A as (I & X & L). destruct (progress W Z B file S HW s I X L) as [K|[t K]]; [exists s; split; [apply steps_refl|exact K]|].
  destruct (IH t K) as (u & Hu & Su); [eapply all_step; eauto; split; [|split]; assumption|]. exists u. split; [eapply steps_next; eauto|exact Su].
Qed.
(** a block as written: a byte 7 then the data; see PropBlock *)
Definition two_blocks : list N := ([9] ++ (bh_dump 1 3 ++ [7; 5; 6]) ++ (bh_dump 1 2 ++ [7; 8]) ++ bh_dump 2 0)%N.
Definition what (p : nat) : list N := if p =? 1 then [5; 6; 8]%N else [8]%N.
Definition at2 : nat := 1 + length (bh_dump 1 3 ++ [7; 5; 6]%N).
Lemma what_holds : forall p, p = 1 \/ p = at2 -> holds toy_zip 2 two_blocks None p (what p).
Proof.
  assert (H2 : forall t, holds toy_zip 2 two_blocks t at2 [8]%N).
  { intro t. change [8]%N with ([8]%N ++ []). eapply hd_blk; [destruct t; vm_compute; reflexivity|split; [reflexivity|vm_compute; lia]|]. eapply hd_end. vm_compute. reflexivity. }
  intros p [->| ->]; [|apply H2]. change (what 1) with ([5; 6] ++ [8])%N. eapply hd_blk; [vm_compute; reflexivity|split; [reflexivity|vm_compute; lia]|]. apply H2.
Qed.
Theorem C45_instance : exists s, steps 2 toy_zip 2 two_blocks (start 2 1 [Read 1; Read 5; Read 1; Skip at2; Read 0; Read 1; Skip 1; Read 3]) s /\ served s /\
  outs s = [OData [5]; OData [6; 8]; OData []; ODone; OData []; OData [8]; ODone; OData [5; 6; 8]]%N.
Proof.
  set (l := [Read 1; Read 5; Read 1; Skip at2; Read 0; Read 1; Skip 1; Read 3]).
  assert (Q : forall q, In (Skip q) l -> holds toy_zip 2 two_blocks None q (what q)). { intros q K. apply what_holds. unfold l in K. cbn [In] in K. repeat (destruct K as [K|K]; [first [discriminate K|injection K as <-; auto]|]). destruct K. }
  assert (T : no_tell l) by (unfold no_tell, l; cbn [In]; intuition discriminate).
  destruct (some_schedule 2 toy_zip 2 two_blocks (fun t p => exists D, holds toy_zip 2 two_blocks t p D) 1 l) as (s & H & Sv); [lia|apply holds_sound|exact T|exists (what 1); apply what_holds; auto|intros q K; exists (what q); auto|].
  exists s. split; [exact H|]. split; [exact Sv|]. rewrite (proj2 (C45_reads 2 toy_zip 2 two_blocks what 1 l s ltac:(lia) T (what_holds 1 (or_introl eq_refl)) Q H) Sv). reflexivity.
Qed.
Print Assumptions C45_instance.

(** ** refuted *)
Ltac no_busy := let K := fresh in intros ? K; cbn [app In] in K; repeat (destruct K as [K|K]; [try discriminate K|]); try contradiction.
Ltac room := split; [vm_compute; lia|try (left; reflexivity); try (right; reflexivity); try (intro; exfalso; vm_compute in *; lia); try (intros _; first [left; reflexivity|right; reflexivity])].
Ltac go R := eapply steps_next; [eapply R|]; cbn [app upd].
Ltac data := eapply steps_next; [eapply r_data; vm_compute; reflexivity|]; cbn [app].
Ltac send := eapply steps_next; [eapply r_send; vm_compute; lia|]; cbn [app].
Ltac get a i := eapply steps_next; [eapply (w_get _ _ _ _ _ _ _ _ _ _ _ _ _ _ _ _ a _ _ i); [reflexivity|reflexivity|no_busy|repeat constructor]|]; cbn [app].
Ltac treat_it := first [apply t_ok; vm_compute; reflexivity|apply t_exn; [reflexivity|right; vm_compute; reflexivity]|apply t_failed|apply t_die; reflexivity].
Ltac push a i := eapply steps_next; [eapply (w_push _ _ _ _ _ _ _ _ _ _ _ _ _ _ _ _ a _ _ i); [reflexivity|treat_it|room]|]; cbn [app upd].
Ltac gather l := eapply steps_next; [eapply (m_gather _ _ _ _ _ _ _ _ _ _ _ _ _ _ _ _ l); [discriminate|vm_compute; first [exact I|lia]]|]; cbn [app].
Ltac main R := eapply steps_next; [eapply R; cbn [length app]; first [lia|exact I|idtac]|]; cbn [app firstn skipn length Nat.sub Nat.eqb map restart].
(** after an exception, a worker that failed drops all the blocks it gets, as its error flag is never reset (parallel_block_compressor.cpp:943, 960): reading again the sound part of the file, after a skip,
    gives nothing, as if the end had been reached, without any error *)
Definition bad_second : list N := ((bh_dump 1 2 ++ [7; 5]) ++ (bh_dump 1 2 ++ [8; 8]) ++ bh_dump 2 0)%N.
Theorem C45_after_error_refuted : exists s, steps 1 toy_zip 2 bad_second (start 1 0 [Read 3; Skip 0; Read 1]) s /\ served s /\ outs s = [OExn false; ODone; OData []] /\ begins toy_zip 2 bad_second None 0 [5]%N.
Proof.
  eexists. split; [|split; [|split]].
  - unfold start. cbn [repeat]. main m_read_start. data. send. get (@nil cell) 0. push (@nil cell) 0.
    gather [(Blk 0 [7; 5], FOk [5])]%N. main m_take. data. send. get (@nil cell) 0. push (@nil cell) 0. gather [(Blk 0 [8; 8], FErr)]%N. main m_werror.
    go r_stop. go r_order. send. get (@nil cell) 0. push (@nil cell) 0. gather [(Die, FDie)]. main p_die. go r_over. eapply steps_next; [eapply m_join; repeat constructor|]. cbn [orb app].
    main m_skip_idle. main m_read_start. data. send. get (@nil cell) 0. push (@nil cell) 0. gather [(Blk 0 [7; 5], FJunk)]%N. main m_junk. data. send. get (@nil cell) 0. push (@nil cell) 0. gather [(Blk 0 [8; 8], FJunk)]%N. main m_junk.
    eapply steps_next; [eapply r_end; vm_compute; reflexivity|]. go r_order. send. get (@nil cell) 0. push (@nil cell) 0. gather [(Die, FDie)]. main m_eof. main p_die. go r_over. eapply steps_next; [eapply m_join; repeat constructor|]. cbn [orb app]. apply steps_refl.
  - split; reflexivity.
  - reflexivity.
  - change [5]%N with ([5] ++ [])%N. eapply bg_blk; [vm_compute; reflexivity|split; [reflexivity|vm_compute; lia]|apply bg_nil].
Qed.
Print Assumptions C45_after_error_refuted.

(** a file that stops without a mark of end, between two blocks: the thread that reads makes empty blocks for ever, as the result of set_from is not looked at (:841); if the algorithm accepts an empty block, the client never gets an answer *)
Definition plain_zip : zipper := mk_zip (fun n => n) (fun c => c) (fun c _ => Ok c).
Theorem C45_no_end_mark_refuted : exists s s', steps 1 plain_zip 2 (bh_dump 1 1 ++ [5])%N (start 1 0 [Read 3]) s /\ UnzipModel.step 1 plain_zip 2 (bh_dump 1 1 ++ [5])%N s s' /\ steps 1 plain_zip 2 (bh_dump 1 1 ++ [5])%N s' s.
Proof.
  eexists. eexists. split; [|split].
  - unfold start. cbn [repeat]. main m_read_start. data. send. get (@nil cell) 0. push (@nil cell) 0. gather [(Blk 0 [5], FOk [5])]%N. main m_take. apply steps_refl.
  - eapply r_data. vm_compute. reflexivity.
  - send. get (@nil cell) 0. push (@nil cell) 0. gather [(Blk 0 [], FOk [])]%N. main m_take. apply steps_refl.
Qed.
Print Assumptions C45_no_end_mark_refuted.

(** a file cut inside a block is reported as a bug of libdar, not as damaged data (:273-275) *)
Theorem C45_cut_block_refuted : exists s, steps 1 toy_zip 2 (bh_dump 1 3 ++ [7; 5])%N (start 1 0 [Read 3]) s /\ served s /\ outs s = [OExn true].
Proof.
  eexists. split; [|split].
  - unfold start. cbn [repeat]. main m_read_start. eapply steps_next; [eapply r_short; vm_compute; reflexivity|]. go r_order. send. get (@nil cell) 0. push (@nil cell) 0. gather [(Die, FDie)].
    main m_error. main p_die. go r_over. eapply steps_next; [eapply m_join; repeat constructor|]. cbn [orb app]. apply steps_refl.
  - split; reflexivity.
  - reflexivity.
Qed.
Print Assumptions C45_cut_block_refuted.

(** get_position() gives a position that depends on the schedule, as well as the data that follow *)
Theorem C45_position_refuted : exists s s', steps 1 toy_zip 2 two_blocks (start 1 1 [Read 2; Tell]) s /\ steps 1 toy_zip 2 two_blocks (start 1 1 [Read 2; Tell]) s' /\ served s /\ served s' /\ outs s <> outs s'.
Proof.
  eexists. eexists. split; [|split; [|split; [|split]]].
  - unfold start. cbn [repeat]. main m_read_start. data. send. get (@nil cell) 0. push (@nil cell) 0. gather [(Blk 0 [7; 5; 6], FOk [5; 6])]%N. main m_take. main m_return. main m_tell.
    go r_stop. go r_order. send. get (@nil cell) 0. push (@nil cell) 0. gather [(Die, FDie)]. main p_die. go r_over. eapply steps_next; [eapply m_join; repeat constructor|]. cbn [orb app]. apply steps_refl.
  - unfold start. cbn [repeat]. main m_read_start. data. send. get (@nil cell) 0. push (@nil cell) 0. gather [(Blk 0 [7; 5; 6], FOk [5; 6])]%N. main m_take. main m_return. data. send. get (@nil cell) 0. push (@nil cell) 0. main m_tell. gather [(Blk 0 [7; 8], FOk [8])]%N. main p_data.
    go r_stop. go r_order. send. get (@nil cell) 0. push (@nil cell) 0. gather [(Die, FDie)]. main p_die. go r_over. eapply steps_next; [eapply m_join; repeat constructor|]. cbn [orb app]. apply steps_refl.
  - split; reflexivity.
  - split; reflexivity.
  - discriminate.
Qed.
Print Assumptions C45_position_refuted.

(** two damaged blocks read in advance when the client skips: the blocks that follow them are not purged (:449-457, 592-596), the workers cannot pass their orders to end and the program hangs *)
Definition two_bad : list N := ((bh_dump 1 3 ++ [7; 5; 6]) ++ (bh_dump 1 1 ++ [8]) ++ (bh_dump 1 1 ++ [8]) ++ (bh_dump 1 2 ++ [7; 5]) ++ (bh_dump 1 2 ++ [7; 5]) ++ bh_dump 2 0)%N.
Theorem C45_damaged_hang_refuted : exists s, steps 2 toy_zip 2 two_bad (start 2 0 [Read 1; Skip 0]) s /\ stopped 2 toy_zip 2 two_bad s /\ ~ served s.
Proof.
  eexists. split; [|split].
  - unfold start. cbn [repeat]. main m_read_start. data. send. get (@nil cell) 0. push (@nil cell) 0. gather [(Blk 0 [7; 5; 6], FOk [5; 6])]%N. main m_part. main m_return.
    data. send. data. send. get (@nil cell) 0. get [Busy 0 (Blk 0 [8])]%N 1. push (@nil cell) 0. push [Done (Blk 0 [8]%N) FErr] 1. data. send. data. send. main m_skip. main p_data.
    gather [(Blk 0 [8], FErr); (Blk 0 [8], FErr)]%N. main p_err. main p_err. get (@nil cell) 0. push (@nil cell) 0. get [Done (Blk 0 [7; 5]%N) FJunk] 1. push [Done (Blk 0 [7; 5]%N) FJunk] 1.
    go r_stop. go r_order. send. go r_order. send. go r_over. get [Done (Blk 0 [7; 5]%N) FJunk; Done (Blk 0 [7; 5]%N) FJunk] 0. push [Done (Blk 0 [7; 5]%N) FJunk; Done (Blk 0 [7; 5]%N) FJunk] 0.
    get [Done (Blk 0 [7; 5]%N) FJunk; Done (Blk 0 [7; 5]%N) FJunk; Done Die FDie] 1. apply steps_refl.
  - intros t H. inversion H; subst; clear H.
    + match goal with E : ?a ++ _ :: _ = _ |- _ => destruct a as [|? [|? [|? [|? [|? ?]]]]]; cbn [app] in E; discriminate E end.
    + match goal with E : ?a ++ _ :: _ = _ |- _ => destruct a as [|? [|? [|? [|? [|? ?]]]]]; cbn [app] in E; try discriminate E; injection E as; subst end. match goal with R : room _ _ _ |- _ => destruct R as [R _]; vm_compute in R; lia end.
    + contradiction.
    + match goal with F : Forall _ _ |- _ => inversion F as [|? ? _ F2]; inversion F2; discriminate end.
  - intros [_ K]. discriminate K.
Qed.
Print Assumptions C45_damaged_hang_refuted.

(** ** what is a block and what is the mark of end, in bytes *)
Theorem C45_syntax : forall Z B file t p, p < length file ->
  (forall c q, next Z B file t p = Edata c q <->
     exists r rest, skipn p file = H_DATA :: r /\ readN r = Ok (N.of_nat (length c), c ++ rest) /\ length c <= z_room Z B /\ (N.of_nat (length c) <= U_I_max)%N /\ q + length rest = length file) /\
  (forall q, next Z B file t p = Eend q <-> exists r rest, skipn p file = H_EOF :: r /\ readN r = Ok (0%N, rest) /\ q + length rest = length file).
Proof.
  intros Z B file t p L. unfold next. destruct (skipn p file) as [|ty r] eqn:Es; [assert (K : length (skipn p file) = 0) by (rewrite Es; reflexivity); rewrite skipn_length in K; lia|].
  assert (Lf : length r < length file). { assert (K : length (skipn p file) = S (length r)) by (rewrite Es; reflexivity). rewrite skipn_length in K. lia. }
  destruct (readN r) as [[n rest]|] eqn:Er.
  2:{ split; [intros c q|intro q]; (split; [discriminate|]); intros (r' & rest & E & E2 & _); injection E as -> ->; congruence. }
  assert (Lr : length rest <= length r) by (destruct (ReadStable.framed_readN _ _ _ Er) as (pr & -> & _); rewrite app_length; lia).
  split.
  - intros c q. split.
    + destruct (N.ltb_spec U_I_max n); [discriminate|]. destruct (N.eqb_spec ty H_EOF); [destruct (n =? 0)%N; discriminate|]. destruct (N.eqb_spec ty H_DATA) as [->|]; [|discriminate].
      destruct (N.ltb_spec (N.of_nat (z_room Z B)) n); [discriminate|]. destruct (Nat.ltb_spec (length rest) (N.to_nat n)); [discriminate|]. intro E. injection E as <- <-.
      exists r, (skipn (N.to_nat n) rest). rewrite firstn_skipn, firstn_length_le, N2Nat.id, skipn_length by lia. repeat split; try assumption; try reflexivity; lia.
    + intros (r' & rest' & E & E2 & Lc & Lm & Q). injection E as -> ->. rewrite Er in E2. injection E2 as -> ->. rewrite app_length in *.
      replace (U_I_max <? N.of_nat (length c))%N with false by (symmetry; apply N.ltb_ge; exact Lm). change (H_DATA =? H_EOF)%N with false. change (H_DATA =? H_DATA)%N with true. cbn iota.
      replace (N.of_nat (z_room Z B) <? N.of_nat (length c))%N with false by lia. rewrite Nat2N.id. replace (length c + length rest' <? length c) with false by lia. rewrite firstn_app_exact. f_equal. lia.
  - intro q. split.
    + destruct (N.ltb_spec U_I_max n); [discriminate|]. destruct (N.eqb_spec ty H_EOF) as [->|].
      * destruct (N.eqb_spec n 0) as [->|]; [|discriminate]. intro E. injection E as <-. exists r, rest. repeat split; auto. lia.
      * destruct (ty =? H_DATA)%N; [|discriminate]. destruct (N.of_nat (z_room Z B) <? n)%N; [discriminate|]. destruct (length rest <? N.to_nat n); discriminate.
    + intros (r' & rest' & E & E2 & Q). injection E as -> ->. rewrite Er in E2. injection E2 as -> ->. change (U_I_max <? 0)%N with false. change (H_EOF =? H_EOF)%N with true. change (0 =? 0)%N with true. cbn iota. f_equal. lia.
Qed.
Print Assumptions C45_syntax.
