(** * PropSplit: property C54, dar_split carries a stream over several media unchanged *)
From Coq Require Import List.
From Verif Require Import Base SplitModel SplitSpec.
Local Open Scope nat_scope.

(** ** split_output *)
Lemma out_write_ok ws : forall data step m ws' lft m', out_write ws data step m = (ws', lft, m') ->
  recorded m' ++ lft = recorded m ++ data.
Proof.
  induction ws as [|w ws IH]; intros data step m ws' lft m' E; destruct data as [|d data]; cbn [out_write] in E.
  - injection E as <- <- <-. reflexivity.
  - injection E as <- <- <-. reflexivity.
  - injection E as <- <- <-. reflexivity.
  - destruct w as [k| | |].
    + apply IH in E. rewrite E. unfold recorded. cbn [old cur]. rewrite <- !app_assoc. do 2 f_equal. apply firstn_skipn.
    + apply IH in E. exact E.
    + destruct (1 <? step).
      * apply IH in E. exact E.
      * apply IH in E. rewrite E. unfold recorded. cbn [old cur]. rewrite concat_app. cbn [concat]. rewrite !app_nil_r. reflexivity.
    + apply IH in E. exact E.
Qed.

Lemma out_loop_ok rs : forall ws bs inp m st m' p r, out_loop rs ws bs inp m = (st, m', p, r) ->
  recorded m' ++ p ++ r = recorded m ++ inp /\ (st = Finished -> p = [] /\ r = []) /\ (st = Failed -> p = []).
Proof.
  induction rs as [|a rs IH]; intros ws bs inp m st m' p r E; cbn [out_loop] in E.
  - injection E as <- <- <- <-. repeat split; discriminate.
  - destruct a as [k| |].
    + destruct inp as [|x inp]; [injection E as <- <- <- <-; repeat split; discriminate|].
      set (n := max 1 (min k (bufsize bs))) in *. set (i := x :: inp) in *.
      destruct (out_write ws (firstn n i) (length (firstn n i)) m) as [[ws' lft] m1] eqn:W.
      apply out_write_ok in W. destruct lft as [|y lft].
      * apply IH in E. destruct E as (E & F). split; [|exact F]. rewrite E. rewrite app_nil_r in W. rewrite W, <- app_assoc, firstn_skipn. reflexivity.
      * injection E as <- <- <- <-. split; [|split; discriminate]. rewrite app_assoc, W, <- app_assoc, firstn_skipn. reflexivity.
    + apply IH in E. exact E.
    + injection E as <- <- <- <-. repeat split; discriminate.
Qed.

(** At every moment, what is on the media, then what is in the buffer, then what remains to
    be read, is the input: no byte lost, repeated or displaced, whatever the media changes,
    errors and short writes; and all of it is on the media when the program ends on the end
    of the input. *)
Theorem C54_output : forall rs ws bs inp st m pending rest, split_output rs ws bs inp = (st, m, pending, rest) ->
  recorded m ++ pending ++ rest = inp /\ (st = Finished -> recorded m = inp) /\ (st = Failed -> pending = []).
Proof.
  intros rs ws bs inp st m p r E. apply out_loop_ok in E. destruct E as (E & F & G). cbn in E. split; [exact E|]. split; [|exact G].
  intro S. destruct (F S) as [-> ->]. rewrite !app_nil_r in E. exact E.
Qed.

(** ** Media are filled up before being changed *)
Definition full_inv (cap : nat) (m : media) : Prop :=
  (honest cap m -> length (cur m) <= cap /\ Forall (fun t => length t = cap) (old m)).

Lemma honest_call cap (m : media) o c s w : honest cap {| old := o; cur := c; calls := call m s w |} ->
  honest cap m /\ match w with WNospc => cap < length (cur m) + s | WTook k => length (cur m) + k <= cap | _ => True end.
Proof.
  intro H. split.
  - intros u a x Hx. apply H. cbn [calls]. unfold call. apply in_or_app. left. exact Hx.
  - apply (H (length (cur m)) s w). cbn [calls]. unfold call. apply in_or_app. right. left. reflexivity.
Qed.

Lemma out_write_full cap ws : forall data step m ws' lft m', out_write ws data step m = (ws', lft, m') ->
  (data <> [] -> 1 <= step <= length data) -> full_inv cap m -> full_inv cap m'.
Proof.
  induction ws as [|w ws IH]; intros data step m ws' lft m' E L I; destruct data as [|d data]; cbn [out_write] in E;
    try (injection E as <- <- <-; exact I).
  assert (L' := L ltac:(discriminate)). destruct w as [k| | |].
  - eapply IH; [exact E| |].
    + intro Ne. destruct (Nat.ltb_spec (length (skipn (min k step) (d :: data))) step); [|lia].
      destruct (skipn (min k step) (d :: data)); [congruence|cbn [length]; lia].
    + intro H. apply honest_call in H. destruct H as [H1 H2]. destruct (I H1) as [I1 I2]. cbn [cur old]. split; [|exact I2].
      rewrite app_length, firstn_length. lia.
  - eapply IH; [exact E|auto|]. intro H. apply honest_call in H. apply I, H.
  - destruct (Nat.ltb_spec 1 step).
    + eapply IH; [exact E| |].
      * intros _. split; [apply Nat.div_le_lower_bound; lia|]. etransitivity; [apply Nat.div_le_upper_bound with (q := step); lia|lia].
      * intro H'. apply honest_call in H'. apply I, H'.
    + eapply IH; [exact E| |].
      * intros _. cbn [length]. lia.
      * intro H'. apply honest_call in H'. destruct H' as [H1 H2]. destruct (I H1) as [I1 I2]. cbn [cur old]. split; [cbn; lia|].
        apply Forall_app. split; [exact I2|]. constructor; [lia|constructor].
  - eapply IH; [exact E|auto|]. intro H. apply honest_call in H. apply I, H.
Qed.

Lemma out_loop_full cap rs : forall ws bs inp m st m' p r, out_loop rs ws bs inp m = (st, m', p, r) ->
  full_inv cap m -> full_inv cap m'.
Proof.
  induction rs as [|a rs IH]; intros ws bs inp m st m' p r E I; cbn [out_loop] in E.
  - injection E as <- <- <- <-. exact I.
  - destruct a as [k| |]; [|eapply IH; eauto|injection E as <- <- <- <-; exact I].
    destruct inp as [|x inp]; [injection E as <- <- <- <-; exact I|].
    set (n := max 1 (min k (bufsize bs))) in *. set (i := x :: inp) in *.
    destruct (out_write ws (firstn n i) (length (firstn n i)) m) as [[ws' lft] m1] eqn:W.
    apply (out_write_full cap) in W; [| |exact I].
    + destruct lft as [|y lft]; [eapply IH; eauto|injection E as <- <- <- <-; exact W].
    + intros _. rewrite firstn_length. unfold i. cbn [length]. lia.
Qed.

(** Every medium given back to the user was filled to its last byte. *)
Theorem C54_media_full : forall cap rs ws bs inp st m pending rest, split_output rs ws bs inp = (st, m, pending, rest) ->
  honest cap m -> Forall (fun t => length t = cap) (old m) /\ length (cur m) <= cap.
Proof.
  intros cap rs ws bs inp st m p r E H. apply (out_loop_full cap) in E.
  - destruct (E H). auto.
  - intros _. cbn. split; [lia|constructor].
Qed.

(** ** split_input *)
Lemma in_write_ok ws : forall data out ws' lft out' f, in_write ws data out = (ws', lft, out', f) -> out' ++ lft = out ++ data.
Proof.
  induction ws as [|w ws IH]; intros data out ws' lft out' f E; destruct data as [|d data]; cbn [in_write] in E;
    try (injection E as <- <- <- <-; reflexivity).
  destruct w as [k| | |]; try (injection E as <- <- <- <-; reflexivity); apply IH in E; [|exact E].
  rewrite E, <- app_assoc. f_equal. apply firstn_skipn.
Qed.

Lemma in_loop_ok rs : forall ws bs count iter tape tapes out st out' p,
  in_loop rs ws bs count iter tape tapes out = Ok (st, out', p) -> (count = 0 \/ S iter <= count) ->
  (exists rest, out' ++ p ++ rest = out ++ tape ++ concat tapes) /\
  (st = Finished -> p = [] /\ 0 < count /\ out' = out ++ tape ++ concat (firstn (count - S iter) tapes) /\ count - S iter <= length tapes).
Proof.
  induction rs as [|a rs IH]; intros ws bs count iter tape tapes out st out' p E C; cbn [in_loop] in E.
  - injection E as <- <- <-. split; [eexists; reflexivity|discriminate].
  - destruct a as [k| |]; [|eapply IH; eauto|eapply IH; eauto].
    destruct tape as [|x tape].
    + destruct (Nat.eqb_spec count 0) as [Z|Z]; [|destruct (Nat.ltb_spec (S iter) count) as [L|L]]; cbn [orb] in E.
      * destruct tapes as [|t tapes]; [injection E as <- <- <-; split; [eexists; reflexivity|discriminate]|].
        apply IH in E; [|auto]. destruct E as [(rest & E) F]. split; [exists rest; exact E|]. intro S0. destruct (F S0) as (_ & Q & _). lia.
      * destruct tapes as [|t tapes]; [injection E as <- <- <-; split; [eexists; reflexivity|discriminate]|].
        apply IH in E; [|right; lia]. destruct E as [(rest & E) F]. split; [exists rest; exact E|]. intro S0. destruct (F S0) as (F1 & F2 & F3 & F4).
        split; [exact F1|]. split; [exact F2|].
        replace (count - S iter) with (S (count - S (S iter))) by lia. cbn [firstn concat length app]. split; [exact F3|lia].
      * injection E as <- <- <-. split; [eexists; reflexivity|]. intros _. split; [reflexivity|]. split; [lia|].
        replace (count - S iter) with 0 by lia. cbn [firstn concat app]. rewrite app_nil_r. split; [reflexivity|lia].
    + set (n := min (max 1 (min k (bufsize bs))) (length (x :: tape))) in *. set (t := x :: tape) in *.
      destruct (BUFSIZE <? n); [discriminate|].
      destruct (in_write ws (firstn n t) out) as [[[ws' lft] out1] fl] eqn:W. apply in_write_ok in W.
      destruct lft as [|y lft].
      * apply IH in E; [|exact C]. rewrite app_nil_r in W. subst out1.
        assert (Q : forall z, (out ++ firstn n t) ++ skipn n t ++ z = out ++ t ++ z).
        { intro z. rewrite <- app_assoc. f_equal. rewrite app_assoc, firstn_skipn. reflexivity. }
        rewrite !Q in E. exact E.
      * injection E as <- <- <-. split; [|destruct fl; discriminate]. exists (skipn n t ++ concat tapes).
        rewrite app_assoc, W, <- app_assoc. f_equal. rewrite app_assoc, firstn_skipn. reflexivity.
Qed.

(** At every moment what was sent, then what is in the buffer, is the beginning of the media
    put end to end; when the program ends, exactly the announced number of media was sent. *)
Theorem C54_input : forall rs ws bs count tapes st out pending, split_input rs ws bs count tapes = Ok (st, out, pending) ->
  (exists rest, out ++ pending ++ rest = concat tapes) /\
  (st = Finished -> pending = [] /\ 0 < count <= length tapes /\ out = concat (firstn count tapes)).
Proof.
  intros rs ws bs count tapes st out p E. unfold split_input in E. destruct tapes as [|t tapes].
  - injection E as <- <- <-. split; [exists []; reflexivity|discriminate].
  - apply in_loop_ok in E; [|destruct count; [auto|right; lia]]. destruct E as [E F]. split; [exact E|].
    intro S0. destruct (F S0) as (F1 & F2 & F3 & F4). split; [exact F1|]. split; [cbn [length]; lia|].
    rewrite F3. destruct count; [lia|]. cbn [app firstn concat]. replace (S count - 1) with count by lia. reflexivity.
Qed.

(** What split_output wrote, split_input gives back. *)
Theorem C54_roundtrip : forall rs ws bs inp m p r rs' ws' bs' out q,
  split_output rs ws bs inp = (Finished, m, p, r) ->
  split_input rs' ws' bs' (S (length (old m))) (old m ++ [cur m]) = Ok (Finished, out, q) -> out = inp.
Proof.
  intros rs ws bs inp m p r rs' ws' bs' out q E F. apply C54_output in E. destruct E as (_ & E & _).
  apply C54_input in F. destruct F as [_ F]. destruct (F eq_refl) as (_ & _ & ->).
  rewrite firstn_all2 by (rewrite app_length; cbn; lia). rewrite <- (E eq_refl). unfold recorded. rewrite concat_app. cbn. rewrite app_nil_r. reflexivity.
Qed.

(** The buffer of split_input is not overrun with -b at most 102400 (or without -b), and is
    with a larger one. *)
Theorem C54_input_safe : forall rs ws bs count tapes, bs <= BUFSIZE -> split_input rs ws bs count tapes <> Err UB.
Proof.
  intros rs ws bs count tapes B. unfold split_input. destruct tapes as [|t tapes]; [discriminate|].
  generalize 0 as iter, t as tape, (@nil N) as out. clear t. revert ws tapes. induction rs as [|a rs IH]; intros ws tapes iter tape out; cbn [in_loop]; [discriminate|].
  destruct a as [k| |]; [|apply IH|apply IH]. destruct tape as [|x tape].
  - destruct ((count =? 0) || (S iter <? count)); [|discriminate]. destruct tapes as [|t tapes]; [discriminate|apply IH].
  - assert (Z : bufsize bs <= BUFSIZE) by (unfold bufsize; destruct (bs =? 0); lia).
    assert (P : 1 <= BUFSIZE) by (unfold BUFSIZE; lia).
    destruct (Nat.ltb_spec BUFSIZE (min (max 1 (min k (bufsize bs))) (length (x :: tape)))) as [C|C]; [exfalso; lia|].
    destruct (in_write _ _ _) as [[[ws' lft] out1] fl]. destruct lft; [apply IH|discriminate].
Qed.
Theorem C54_input_overflow_refuted : forall bs t tapes count rs ws, BUFSIZE < bs -> BUFSIZE < length t ->
  split_input (RGot bs :: rs) ws bs count (t :: tapes) = Err UB.
Proof.
  intros bs t tapes count rs ws B L. unfold split_input. cbn [in_loop]. destruct t as [|x t]; [exfalso; cbn [length] in L; lia|].
  assert (Z : bufsize bs = bs) by (unfold bufsize; destruct (Nat.eqb_spec bs 0); [lia|reflexivity]). rewrite Z.
  destruct (Nat.ltb_spec BUFSIZE (min (max 1 (min bs bs)) (length (x :: t)))) as [C|C]; [reflexivity|exfalso; lia].
Qed.

(** ** The program does come to its end *)
Lemma in_loop_finishes tapes : forall bs iter tape out,
  in_loop (repeat (RGot 1) (length (tape ++ concat tapes) + S (length tapes))) (repeat (WTook 1) (length (tape ++ concat tapes)))
    bs (S iter + length tapes) iter tape tapes out = Ok (Finished, out ++ tape ++ concat tapes, []).
Proof.
  induction tapes as [|t tapes IH]; intros bs iter tape; induction tape as [|x tape IHt]; intro out.
  - cbn [app concat length Nat.add repeat in_loop].
    replace ((S (iter + 0) =? 0) || (S iter <? S (iter + 0))) with false
      by (symmetry; apply orb_false_iff; split; [reflexivity|apply Nat.ltb_ge; lia]). rewrite app_nil_r. reflexivity.
  - cbn [app concat length repeat Nat.add in_loop].
    replace (min (max 1 (min 1 (bufsize bs))) (S (length tape))) with 1 by lia.
    replace (BUFSIZE <? 1) with false by (symmetry; apply Nat.ltb_ge; unfold BUFSIZE; lia).
    cbn [firstn skipn in_write]. specialize (IHt (out ++ [x])). cbn [length concat] in IHt |- *.
    destruct (repeat (WTook 1) (length (tape ++ []))) eqn:R; cbn [in_write]; rewrite ?R in IHt; cbn [Nat.add] in IHt |- *; rewrite IHt, <- app_assoc; reflexivity.
  - cbn [app concat length repeat in_loop].
    replace ((S iter + S (length tapes) =? 0) || (S iter <? S iter + S (length tapes))) with true
      by (symmetry; apply orb_true_iff; right; apply Nat.ltb_lt; lia).
    replace (length (t ++ concat tapes) + S (S (length tapes))) with (S (length (t ++ concat tapes) + S (length tapes))) by lia.
    cbn [repeat in_loop].
    replace ((S iter + S (length tapes) =? 0) || (S iter <? S iter + S (length tapes))) with true
      by (symmetry; apply orb_true_iff; right; apply Nat.ltb_lt; lia).
    replace (S iter + S (length tapes)) with (S (S iter) + length tapes) by lia. apply IH.
  - specialize (IHt (out ++ [x])). set (u := t :: tapes) in *. clearbody u. cbn [app length repeat Nat.add in_loop].
    replace (min (max 1 (min 1 (bufsize bs))) (S (length tape))) with 1 by lia.
    replace (BUFSIZE <? 1) with false by (symmetry; apply Nat.ltb_ge; unfold BUFSIZE; lia).
    cbn [firstn skipn in_write].
    destruct (repeat (WTook 1) (length (tape ++ concat u))) eqn:R; cbn [in_write]; rewrite ?R in IHt; cbn [Nat.add] in IHt |- *; rewrite IHt, <- app_assoc; reflexivity.
Qed.

Theorem C54_input_finishes : forall tapes bs, tapes <> [] ->
  exists rs ws, split_input rs ws bs (length tapes) tapes = Ok (Finished, concat tapes, []).
Proof.
  intros [|t tapes] bs H; [congruence|].
  exists (repeat (RGot 1) (length (t ++ concat tapes) + S (length tapes))), (repeat (WTook 1) (length (t ++ concat tapes))).
  unfold split_input. exact (in_loop_finishes tapes bs 0 t []).
Qed.

(** ** Instances: ten bytes on media of four *)
Definition ex_in : list N := [1; 2; 3; 4; 5; 6; 7; 8; 9; 10]%N.
Definition ex_ws := [WTook 3; WNospc; WTook 1; WNospc; WFail; WTook 2; WAgain; WTook 2; WNospc; WNospc; WTook 1; WTook 1]%N.
Definition ex_run := split_output [RGot 3; RAgain; RGot 3; RGot 100; RGot 9] ex_ws 0 ex_in.
Example C54_ex1 : exists c, ex_run = (Finished, {| old := [[1; 2; 3; 4]; [5; 6; 7; 8]]%N; cur := [9; 10]%N; calls := c |}, [], []).
Proof. eexists. vm_compute. reflexivity. Qed.
Example C54_ex2 : match ex_run with (_, m, _, _) => honest 4 m end.
Proof.
  vm_compute. intros u a w H. repeat (destruct H as [H|H]; [injection H as <- <- <-; vm_compute; try lia; exact I|]). destruct H.
Qed.
Example C54_ex3 : split_input [RGot 3; RGot 5; RGot 5; RGot 9; RGot 5; RGot 1; RFail; RGot 1; RGot 1] [WTook 2; WTook 1; WAgain; WTook 1; WTook 9; WTook 1; WTook 7] 0 3
   [[1; 2; 3; 4]; [5; 6; 7; 8]; [9; 10]]%N = Ok (Finished, ex_in, []).
Proof. vm_compute. reflexivity. Qed.

Print Assumptions C54_output.
Print Assumptions C54_media_full.
Print Assumptions C54_input.
Print Assumptions C54_roundtrip.
Print Assumptions C54_input_safe.
Print Assumptions C54_input_overflow_refuted.
Print Assumptions C54_input_finishes.
