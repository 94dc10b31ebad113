(** * HashProof: lemmas about writing a slice and its hash file *)
From Coq Require Import List.
From Verif Require Import Base HashModel HashSpec.
Local Open Scope nat_scope.

Lemma prefix_refl l : prefix l l.
Proof. exists []. apply app_nil_r. Qed.
Lemma prefix_nil l : prefix [] l.
Proof. exists l. reflexivity. Qed.
Lemma prefix_app_l a b c : prefix b c -> prefix (a ++ b) (a ++ c).
Proof. intros [q H]. exists q. rewrite <- app_assoc, H. reflexivity. Qed.
Lemma prefix_weak a b c : prefix a b -> prefix a (b ++ c).
Proof. intros [q H]. exists (q ++ c). rewrite app_assoc, H. reflexivity. Qed.

Lemma wloop_spec step : forall cs data cs' w x,
  wloop step cs data = (cs', w, x) ->
  prefix w data /\ (w = data -> x = None \/ data = data) /\ length cs' <= length cs /\
  (length w < length data -> x = None -> length cs' < length cs).
Proof.
  induction cs as [|c cs IH]; intros data cs' w x H.
  - destruct data; cbn in H; inversion H; subst; repeat split; auto using prefix_refl; try (cbn; lia).
  - destruct data as [|b data].
    + cbn in H. inversion H; subst. repeat split; auto using prefix_refl; cbn; lia.
    + destruct c; cbn [wloop] in H.
      * set (k := Nat.min n (Nat.min step (length (b :: data)))) in *.
        destruct (wloop step cs (skipn k (b :: data))) as [[cs1 w1] x1] eqn:E.
        inversion H; subst. destruct (IH _ _ _ _ E) as (P & _ & L & Q).
        repeat split; auto.
        -- rewrite <- (firstn_skipn k (b :: data)) at 2. apply prefix_app_l. exact P.
        -- cbn; lia.
        -- intros _ _. cbn. lia.
      * destruct (IH _ _ _ _ H) as (P & _ & L & Q). repeat split; auto; cbn [length]; try lia.
      * inversion H; subst. repeat split; auto using prefix_nil; cbn; lia.
      * inversion H; subst. repeat split; auto using prefix_nil; cbn; try lia; try discriminate.
      * inversion H; subst. repeat split; auto using prefix_nil; cbn; try lia; try discriminate.
Qed.

Lemma prefix_skip w data : prefix w data -> data = w ++ skipn (length w) data.
Proof. intros [q H]. subst. now rewrite skipn_app_exact. Qed.

(** What one write request does to a file. *)
Definition write_post (f f' : fl) (data : list byte) (x : option werr) : Prop :=
  closed f' = closed f /\
  match x with
  | None => full f' = full f /\ content f' = content f ++ (if full f then [] else data)
  | Some Wabort => full f = false /\ full f' = true /\ exists p, prefix p data /\ content f' = content f ++ p
  | Some y => y <> Wfuel /\ full f' = full f /\ full f = false /\ exists p, prefix p data /\ content f' = content f ++ p
  end.

Lemma gloop_spec step : forall fuel e f data e' f' x,
  length (calls e) < fuel ->
  gloop fuel step e f data = (e', f', x) -> write_post f f' data x.
Proof.
  induction fuel as [|fuel IH]; intros e f data e' f' x Hf H; [lia|].
  cbn [gloop] in H. destruct data as [|b data].
  - inversion H; subst. split; [reflexivity|]. split; [reflexivity|]. destruct (full f'); now rewrite app_nil_r.
  - remember (b :: data) as D eqn:HD.
    assert (HD0 : D <> []) by (subst; discriminate).
    assert (H' : (if full f then (e, f, None)
      else
        match local_write step e f D with
        | (e1, f1, inr x) => (e1, f1, Some x)
        | (e1, f1, inl n) =>
          if n <? length D then
            let e2 := {| calls := calls e1; answers := tl (answers e1); cancels := cancels e1 |} in
            if hd true (answers e1) then gloop fuel step e2 f1 (skipn n D)
            else (e2, {| content := content f1; full := true; closed := closed f1 |}, Some Wabort)
          else (e1, f1, None)
        end) = (e', f', x)) by (subst D; exact H).
    clear H. destruct (full f) eqn:Ff.
    + inversion H'; subst. split; [reflexivity|]. split; [reflexivity|]. rewrite Ff. now rewrite app_nil_r.
    + unfold local_write in H'. destruct (hd false (cancels e)).
      * inversion H'; subst x f'. split; [reflexivity|]. split; [discriminate|]. split; [reflexivity|].
        split; [assumption|]. exists []. split; [apply prefix_nil|]. now rewrite app_nil_r.
      * cbn [calls answers cancels] in H'.
        destruct (wloop step (calls e) D) as [[cs w] y] eqn:E.
        destruct (wloop_spec _ _ _ _ _ _ E) as (P & _ & L & Q).
        destruct y as [y|].
        -- assert (Hy : y = Whard \/ y = Wrange).
           { clear -E. revert D w cs E. induction (calls e) as [|c l IHl]; intros D w cs E.
             - destruct D; cbn in E; inversion E.
             - destruct D as [|b D]; [cbn in E; inversion E|].
               destruct c; cbn [wloop] in E.
               + destruct (wloop step l _) as [[c1 w1] y1] eqn:E1. inversion E; subst. eapply IHl, E1.
               + eapply IHl, E.
               + inversion E.
               + inversion E; auto.
               + inversion E; auto. }
           inversion H'; subst x f'. split; [reflexivity|]. cbn [content full].
           destruct Hy; subst y; (split; [discriminate|]; split; [reflexivity|]; split; [assumption|]; exists w; split; [assumption|reflexivity]).
        -- cbn [content full closed answers] in H'.
           destruct (length w <? length D) eqn:LT.
           ++ apply Nat.ltb_lt in LT. specialize (Q LT eq_refl).
              destruct (hd true (answers e)).
              ** apply IH in H'; [|cbn [calls]; lia].
                 destruct H' as [C1 H']. split; [exact C1|]. cbn [content full closed] in *.
                 destruct x as [x|].
                 --- destruct x; cbn in *.
                     +++ destruct H' as (A & B & p & Pp & Cp). split; [assumption|]. split; [assumption|].
                         exists (w ++ p). split; [rewrite (prefix_skip w D P); apply prefix_app_l, Pp | now rewrite Cp, app_assoc].
                     +++ destruct H' as (Z & A & B & p & Pp & Cp). split; [assumption|]. split; [assumption|]. split; [assumption|].
                         exists (w ++ p). split; [rewrite (prefix_skip w D P); apply prefix_app_l, Pp | now rewrite Cp, app_assoc].
                     +++ destruct H' as (Z & A & B & p & Pp & Cp). split; [assumption|]. split; [assumption|]. split; [assumption|].
                         exists (w ++ p). split; [rewrite (prefix_skip w D P); apply prefix_app_l, Pp | now rewrite Cp, app_assoc].
                     +++ destruct H' as (Z & A & B & p & Pp & Cp). split; [assumption|]. split; [assumption|]. split; [assumption|].
                         exists (w ++ p). split; [rewrite (prefix_skip w D P); apply prefix_app_l, Pp | now rewrite Cp, app_assoc].
                     +++ destruct H' as (Z & A & B & p & Pp & Cp). split; [assumption|]. split; [assumption|]. split; [assumption|].
                         exists (w ++ p). split; [rewrite (prefix_skip w D P); apply prefix_app_l, Pp | now rewrite Cp, app_assoc].
                     +++ destruct H' as (Z & _). now contradiction Z.
                 --- destruct H' as [A B]. split; [assumption|]. rewrite Ff in *. rewrite B, <- app_assoc. f_equal.
                     symmetry. apply prefix_skip, P.
              ** inversion H'; subst x f'. split; [reflexivity|]. cbn [content full].
                 split; [assumption|]. split; [reflexivity|]. exists w. split; [assumption|reflexivity].
           ++ apply Nat.ltb_ge in LT. inversion H'; subst x f'. split; [reflexivity|]. cbn [content full].
              split; [reflexivity|]. rewrite Ff.
              f_equal. destruct P as [q P]. rewrite <- P in LT. rewrite app_length in LT. destruct q; [|cbn in LT; lia].
              now rewrite app_nil_r in P.
Qed.

Lemma file_write_spec step e f data e' f' x :
  file_write step e f data = (e', f', x) ->
  (closed f = true /\ f' = f /\ x = Some Wbug) \/ (closed f = false /\ write_post f f' data x).
Proof.
  unfold file_write. destruct (closed f) eqn:C; intro H.
  - inversion H; subst; auto.
  - right. split; [reflexivity|]. eapply gloop_spec; [|exact H]. lia.
Qed.

(** ** Hexadecimal *)
Lemma digit_ok v : (v < 16)%N -> hex_digit (digit_char v) v.
Proof.
  intro H. unfold digit_char, hex_digit. destruct (9 <? v)%N eqn:E.
  - apply N.ltb_lt in E. right. lia.
  - apply N.ltb_ge in E. left. lia.
Qed.

Lemma char_hexa x : is_byte x ->
  exists c1 c2 v1 v2, char_to_hexa x = [c1; c2] /\ hex_digit c1 v1 /\ hex_digit c2 v2 /\ x = (16 * v1 + v2)%N.
Proof.
  intro H. unfold is_byte in H. unfold char_to_hexa.
  destruct (N.eq_dec x 0) as [->|N0].
  - exists 48%N, 48%N, 0%N, 0%N. repeat split; try (left; lia).
  - destruct (N.eq_dec (x / 16) 0) as [Z|Z].
    + assert (x < 16)%N by (rewrite (N.div_mod x 16) by lia; rewrite Z; lia).
      assert (D : decomposition 8 x = [x]).
      { cbn [decomposition]. destruct (N.eqb_spec x 0); [contradiction|].
        rewrite Z. cbn [N.eqb]. f_equal. apply N.mod_small. lia. }
      rewrite D. exists 48%N, (digit_char x), 0%N, x. cbn. repeat split.
      * left. lia.
      * apply digit_ok. lia.
    + assert (D : decomposition 8 x = [x mod 16; x / 16]%N).
      { cbn [decomposition]. destruct (N.eqb_spec x 0); [contradiction|].
        destruct (N.eqb_spec (x / 16) 0); [contradiction|].
        assert (x / 16 < 16)%N by (apply N.div_lt_upper_bound; lia).
        assert (Q : (x / 16 / 16 = 0)%N) by (apply N.div_small; lia).
        rewrite Q. cbn [N.eqb]. do 2 f_equal. apply N.mod_small. lia. }
      rewrite D. exists (digit_char (x / 16)), (digit_char (x mod 16)), (x / 16)%N, (x mod 16)%N.
      split; [reflexivity|]. split; [|split].
      * apply digit_ok. apply N.div_lt_upper_bound; lia.
      * apply digit_ok. apply N.mod_lt. lia.
      * apply N.div_mod. lia.
Qed.

Lemma hexa_ok s : bytes_ok s -> hex_of (string_to_hexa s) s.
Proof.
  induction s as [|x s IH]; intro H; [constructor|].
  inversion H; subst. cbn [string_to_hexa].
  destruct (char_hexa x) as (c1 & c2 & v1 & v2 & E & X1 & X2 & V); [assumption|].
  rewrite E. cbn [app]. rewrite V. constructor; auto.
Qed.
