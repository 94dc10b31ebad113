(** * Property C16: ranges of integers. *)
From Verif Require Import Base DeciModel DeciProof RangeModel.
Open Scope N_scope.

(** specification: the integers in a list of segments *)
Definition covers (p : range) (x : N) : Prop := exists s, In s p /\ low s <= x /\ x <= high s.
(** the caller gives its bounds in order *)
Definition seg_ok (s : segment) : Prop := low s <= high s.

Lemma covers_cons : forall s p x, covers (s :: p) x <-> (low s <= x /\ x <= high s) \/ covers p x.
Proof.
  intros s p x. unfold covers. cbn [In]. split.
  - intros (t & [->|H] & B); eauto.
  - intros [H|(t & H & B)]; eauto.
Qed.
Lemma covers_nil : forall x, covers [] x <-> False.
Proof. intro x. split; [intros (s & [] & _)|tauto]. Qed.
Ltac dseg := repeat match goal with
  | |- context [?a <? ?b] => destruct (N.ltb_spec a b)
  | |- context [?a <=? ?b] => destruct (N.leb_spec a b)
  end; cbn [andb negb].

(** merging two segments that touch gives their union, without failure *)
Lemma merge_spec : forall a b, seg_ok a -> seg_ok b -> seg_overlaps a b = true ->
  seg_merge a b = Ok (Seg (N.min (low a) (low b)) (N.max (high a) (high b))).
Proof.
  intros [la ha] [lb hb] Ha Hb H. unfold seg_ok, seg_merge, seg_overlaps, seg_lt, seg_le, seg_contains in *. cbn [low high] in *.
  revert H. dseg; intro Q; try discriminate; try (f_equal; f_equal; lia); exfalso; lia.
Qed.
Lemma overlaps_spec : forall a b, seg_overlaps a b = true <-> (low b <= high a + 1 /\ low a <= high b + 1).
Proof.
  intros [la ha] [lb hb]. unfold seg_overlaps, seg_lt. cbn [low high]. dseg; split; intros; try discriminate; try reflexivity; try (split; lia); exfalso; lia.
Qed.
Lemma merge_covers : forall a b x, seg_ok a -> seg_ok b -> seg_overlaps a b = true ->
  (N.min (low a) (low b) <= x /\ x <= N.max (high a) (high b)) <-> ((low a <= x /\ x <= high a) \/ (low b <= x /\ x <= high b)).
Proof.
  intros a b x Ha Hb H. apply overlaps_spec in H. unfold seg_ok in *. lia.
Qed.
Lemma not_lt_overlaps : forall a b, seg_lt a b = false -> seg_lt b a = false -> seg_overlaps a b = true.
Proof. intros a b A B. unfold seg_overlaps. rewrite A, B. reflexivity. Qed.

Lemma insert_spec : forall p s, Forall seg_ok p -> seg_ok s ->
  exists p', range_insert p s = Ok p' /\ Forall seg_ok p' /\ forall x, covers p' x <-> covers p x \/ (low s <= x /\ x <= high s).
Proof.
  induction p as [|it r IH]; intros s Hp Hs; cbn [range_insert].
  - eexists. split; [reflexivity|]. split; [auto|]. intro x. rewrite covers_cons, !covers_nil. tauto.
  - inversion Hp as [|? ? Hit Hr]; subst. destruct (seg_lt it s) eqn:L1.
    + destruct (IH s Hr Hs) as (p' & -> & Ok' & C). cbn [bind]. eexists. split; [reflexivity|]. split; [auto|].
      intro x. rewrite !covers_cons, C. tauto.
    + destruct (seg_lt s it) eqn:L2.
      * eexists. split; [reflexivity|]. split; [auto|]. intro x. rewrite !covers_cons. tauto.
      * pose proof (not_lt_overlaps it s L1 L2) as O. rewrite O. cbn [negb]. rewrite merge_spec by auto. cbn [bind].
        set (m := Seg (N.min (low it) (low s)) (N.max (high it) (high s))).
        assert (Hm : seg_ok m) by (unfold seg_ok in *; subst m; cbn; lia).
        assert (Cm : forall x, (low m <= x /\ x <= high m) <-> ((low it <= x /\ x <= high it) \/ (low s <= x /\ x <= high s)))
          by (intro x; apply merge_covers; auto).
        destruct r as [|nx r].
        -- eexists. split; [reflexivity|]. split; [auto|]. intro x. rewrite !covers_cons, Cm, covers_nil. tauto.
        -- inversion Hr as [|? ? Hn Hr']; subst. destruct (seg_overlaps m nx) eqn:O2.
           ++ rewrite merge_spec by auto. cbn [bind]. eexists. split; [reflexivity|]. split.
              { constructor; auto. unfold seg_ok in *. cbn [low high] in *. lia. }
              intro x. rewrite !covers_cons. cbn [low high] in *. rewrite (merge_covers m nx) by auto. rewrite Cm. tauto.
           ++ eexists. split; [reflexivity|]. split; [auto|]. intro x. rewrite !covers_cons, Cm. tauto.
Qed.

(** A history of a range: a sequence of += of other ranges, themselves obtained by additions. *)
Inductive rexpr := REmpty | RSeg (l h : N) | RAdd (a b : rexpr).
Fixpoint eval (e : rexpr) : res range :=
  match e with
  | REmpty => Ok range_empty
  | RSeg l h => Ok (range_of l h)
  | RAdd a b => let* x := eval a in let* y := eval b in range_add x y
  end.
Fixpoint denotes (e : rexpr) (x : N) : Prop :=
  match e with
  | REmpty => False
  | RSeg l h => l <= x /\ x <= h
  | RAdd a b => denotes a x \/ denotes b x
  end.
Fixpoint in_order (e : rexpr) : Prop :=
  match e with REmpty => True | RSeg l h => l <= h | RAdd a b => in_order a /\ in_order b end.

Lemma add_spec : forall q p, Forall seg_ok p -> Forall seg_ok q ->
  exists r, range_add p q = Ok r /\ Forall seg_ok r /\ forall x, covers r x <-> covers p x \/ covers q x.
Proof.
  induction q as [|s q IH]; intros p Hp Hq; cbn [range_add].
  - exists p. split; [reflexivity|]. split; [auto|]. intro x. rewrite covers_nil. tauto.
  - inversion Hq; subst. destruct (insert_spec p s) as (p' & -> & Hp' & C); auto. cbn [bind].
    destruct (IH p' Hp') as (r & -> & Hr & D); auto. exists r. split; [reflexivity|]. split; [auto|].
    intro x. rewrite D, C, covers_cons. tauto.
Qed.
(** Whatever the additions made, in whatever grouping, they succeed and the segments read back contain exactly the integers
    added. *)
Theorem C16_union : forall e, in_order e -> exists r, eval e = Ok r /\ forall x, covers r x <-> denotes e x.
Proof.
  intros e H. enough (exists r, eval e = Ok r /\ Forall seg_ok r /\ forall x, covers r x <-> denotes e x) as (r & A & _ & B) by eauto.
  induction e as [|l h|a IHa b IHb]; cbn [eval denotes in_order] in *.
  - eexists. split; [reflexivity|]. split; [constructor|]. apply covers_nil.
  - eexists. split; [reflexivity|]. split; [repeat constructor; exact H|]. intro x. unfold range_of. rewrite covers_cons, covers_nil. cbn. tauto.
  - destruct H as [Ha Hb]. destruct (IHa Ha) as (x & -> & Hx & Cx). destruct (IHb Hb) as (y & -> & Hy & Cy). cbn [bind].
    destruct (add_spec y x Hx Hy) as (r & E & Hr & C). exists r. split; [exact E|]. split; [auto|]. intro z. rewrite C, Cx, Cy. tauto.
Qed.
Print Assumptions C16_union.

(** canonical form: sorted, disjoint and not adjacent: two integers in two segments are never neighbours *)
Inductive canonical : range -> Prop :=
  | can_nil : canonical []
  | can_one : forall s, seg_ok s -> canonical [s]
  | can_cons : forall s t r, seg_ok s -> high s + 1 < low t -> canonical (t :: r) -> canonical (s :: t :: r).

(** the canonical form is not always reached: {1, 5, 10} += [0-20] displays as "0-20,10" *)
Theorem C16_canonical_refuted : exists e r, in_order e /\ eval e = Ok r /\ ~ canonical r /\
  range_display r = Ok [48; 45; 50; 48; 44; 49; 48].
Proof.
  exists (RAdd (RAdd (RAdd (RSeg 1 1) (RSeg 5 5)) (RSeg 10 10)) (RSeg 0 20)), [Seg 0 20; Seg 10 10].
  split; [cbn; lia|]. split; [vm_compute; reflexivity|]. split; [|vm_compute; reflexivity].
  intro H. inversion H; subst. cbn in *. lia.
Qed.
Print Assumptions C16_canonical_refuted.

Lemma canonical_ok : forall r, canonical r -> Forall seg_ok r.
Proof. induction 1; constructor; auto. Qed.
Lemma canonical_tail : forall s r, canonical (s :: r) -> canonical r.
Proof. intros s r H. inversion H; subst; [constructor|auto]. Qed.
Lemma canonical_cons : forall s r, seg_ok s -> canonical r -> (forall t, In t r -> high s + 1 < low t) -> canonical (s :: r).
Proof. intros s r Hs Hr H. destruct r; constructor; auto. apply H. left. reflexivity. Qed.
Lemma canonical_low : forall s r t, canonical (s :: r) -> In t r -> high s + 1 < low t.
Proof.
  intros s r. revert s. induction r as [|u r IH]; intros s t H Hi; [destruct Hi|].
  inversion H as [| |? ? ? Hs Hl Hc]; subst. destruct Hi as [<-|Hi]; [exact Hl|].
  pose proof (IH u t Hc Hi). assert (Q : seg_ok u) by (apply canonical_ok in Hc; inversion Hc; auto); unfold seg_ok in Q; lia.
Qed.
(** It is kept when what is added touches at most two of the segments already there: adding one integer at a time, or
    segments in increasing order, are such cases. Otherwise it is lost, see the next theorem. *)
Theorem C16_canonical_kept : forall p s, canonical p -> low s <= high s ->
  (forall a b c rest pre, p = pre ++ a :: b :: c :: rest -> ~ (low s <= high a + 1 /\ low c <= high s + 1)) ->
  exists p', range_insert p s = Ok p' /\ canonical p'.
Proof.
  induction p as [|it r IH]; intros s Hp Hs H; cbn [range_insert].
  - eexists. split; [reflexivity|]. constructor. exact Hs.
  - assert (Hit : seg_ok it) by (inversion Hp; auto).
    destruct (seg_lt it s) eqn:L1.
    + destruct (IH s) as (p' & E & C).
      * eapply canonical_tail; eauto.
      * auto.
      * intros a b c rest pre Ep. apply (H a b c rest (it :: pre)). rewrite Ep. reflexivity.
      * rewrite E. cbn [bind]. eexists. split; [reflexivity|]. apply canonical_cons; auto.
        (* every segment of p' starts at s or at a segment of r *)
        intros t Ht. unfold seg_lt in L1. apply N.ltb_lt in L1.
        destruct (insert_spec r s) as (p2 & E2 & O2 & C2).
        { apply canonical_ok. eapply canonical_tail; eauto. } { exact Hs. }
        rewrite E in E2. injection E2 as <-. rewrite Forall_forall in O2. specialize (O2 t Ht).
        assert (Q : covers p' (low t)) by (exists t; unfold seg_ok in O2; split; [auto|]; lia).
        apply C2 in Q. destruct Q as [(u & Hu & Q1 & Q2)|[Q1 Q2]]; [|lia].
        pose proof (canonical_low it r u Hp Hu). lia.
    + destruct (seg_lt s it) eqn:L2.
      * eexists. split; [reflexivity|]. constructor; auto. apply N.ltb_lt. exact L2.
      * pose proof (not_lt_overlaps it s L1 L2) as O. rewrite O. cbn [negb]. rewrite merge_spec by auto. cbn [bind].
        set (m := Seg (N.min (low it) (low s)) (N.max (high it) (high s))).
        assert (Hm : seg_ok m) by (unfold seg_ok in *; subst m; cbn; lia).
        apply overlaps_spec in O.
        destruct r as [|nx r].
        -- eexists. split; [reflexivity|]. constructor. exact Hm.
        -- assert (Hn : canonical (nx :: r)) by (eapply canonical_tail; eauto).
           assert (Okn : seg_ok nx) by (inversion Hn; auto).
           destruct (seg_overlaps m nx) eqn:O2.
           ++ rewrite merge_spec by auto. cbn [bind]. eexists. split; [reflexivity|].
              apply canonical_cons.
              ** unfold seg_ok in *. cbn [low high] in *. lia.
              ** eapply canonical_tail; eauto.
              ** intros t Ht. cbn [high]. destruct r as [|c r]; [destruct Ht|].
                 specialize (H it nx c r [] eq_refl). cbn [low high] in *.
                 pose proof (canonical_low nx (c :: r) c Hn ltac:(left; reflexivity)).
                 assert (low c <= low t).
                 { destruct Ht as [<-|Ht]; [lia|]. pose proof (canonical_tail _ _ Hn) as Hc. pose proof (canonical_low c r t Hc Ht).
                   assert (seg_ok c) by (inversion Hc; auto). unfold seg_ok in *. lia. }
                 pose proof (canonical_low it (nx :: c :: r) nx Hp ltac:(left; reflexivity)). unfold seg_ok in *. subst m. cbn [low high] in *. lia.
           ++ eexists. split; [reflexivity|]. constructor; auto.
              assert (~ (low nx <= high m + 1 /\ low m <= high nx + 1)) by (rewrite <- overlaps_spec; congruence).
              pose proof (canonical_low it (nx :: r) nx Hp ltac:(left; reflexivity)). unfold seg_ok in *. subst m. cbn [low high] in *. lia.
Qed.
Print Assumptions C16_canonical_kept.

(** and only then: the boundary is exact *)
Lemma canonical_suffix : forall pre r, canonical (pre ++ r) -> canonical r.
Proof. induction pre as [|a pre IH]; intros r H; [exact H|]. apply IH. eapply canonical_tail. exact H. Qed.
Lemma three_touched : forall it n n2 rest s, canonical (it :: n :: n2 :: rest) -> seg_ok s -> low s <= high it + 1 -> low n2 <= high s + 1 ->
  exists p', range_insert (it :: n :: n2 :: rest) s = Ok p' /\ ~ canonical p'.
Proof.
  intros it n n2 rest s C Hs H1 H2.
  pose proof (canonical_ok _ C) as Ok3. inversion Ok3 as [|? ? Oi Ok2]; subst. inversion Ok2 as [|? ? On Ok1]; subst. inversion Ok1 as [|? ? On2 _]; subst.
  pose proof (canonical_low it _ n C ltac:(left; reflexivity)) as L1.
  pose proof (canonical_low n _ n2 (canonical_tail _ _ C) ltac:(left; reflexivity)) as L2.
  unfold seg_ok in *. cbn [range_insert].
  destruct (seg_lt it s) eqn:E1; [unfold seg_lt in E1; apply N.ltb_lt in E1; lia|].
  destruct (seg_lt s it) eqn:E2; [unfold seg_lt in E2; apply N.ltb_lt in E2; lia|].
  pose proof (not_lt_overlaps it s E1 E2) as O. rewrite O. cbn [negb]. rewrite merge_spec by (auto; unfold seg_ok; lia). cbn [bind].
  set (m := Seg (N.min (low it) (low s)) (N.max (high it) (high s))).
  assert (O2 : seg_overlaps m n = true) by (apply overlaps_spec; subst m; cbn [low high]; lia).
  rewrite O2. rewrite merge_spec by (auto; unfold seg_ok; subst m; cbn [low high]; lia). cbn [bind].
  eexists. split; [reflexivity|]. intro Q. apply canonical_low with (t := n2) in Q; [|left; reflexivity]. cbn [high] in Q. subst m. cbn [high] in Q. lia.
Qed.
Theorem C16_canonical_lost : forall p s a b c rest pre, canonical p -> low s <= high s -> p = pre ++ a :: b :: c :: rest ->
  low s <= high a + 1 -> low c <= high s + 1 -> exists p', range_insert p s = Ok p' /\ ~ canonical p'.
Proof.
  intros p s a b c rest pre C Hs -> H1 H2. revert C. induction pre as [|it pre IH]; intro C.
  - cbn [app] in *. apply three_touched; auto.
  - change ((it :: pre) ++ a :: b :: c :: rest) with (it :: (pre ++ a :: b :: c :: rest)) in *.
    assert (Lc : high it + 1 < low c) by (apply canonical_low with (pre ++ a :: b :: c :: rest); [exact C|apply in_or_app; right; right; right; left; reflexivity]).
    destruct (seg_lt it s) eqn:E1.
    + cbn [range_insert]. rewrite E1. destruct (IH (canonical_tail _ _ C)) as (p' & E & Q). rewrite E. cbn [bind].
      eexists. split; [reflexivity|]. intro R. apply Q. eapply canonical_tail. exact R.
    + unfold seg_lt in E1. apply N.ltb_ge in E1.
      assert (exists n n2 r2, pre ++ a :: b :: c :: rest = n :: n2 :: r2 /\ low n2 <= low c) as (n & n2 & r2 & E & L).
      { destruct pre as [|n [|n2 pre]].
        - exists a, b, (c :: rest). split; [reflexivity|]. pose proof (canonical_tail _ _ C) as C2. pose proof (canonical_tail _ _ C2) as C3.
          pose proof (canonical_low b _ c C3 ltac:(left; reflexivity)). assert (seg_ok b) by (apply canonical_ok in C3; inversion C3; auto). unfold seg_ok in *. lia.
        - exists n, a, (b :: c :: rest). split; [reflexivity|]. pose proof (canonical_tail _ _ (canonical_tail _ _ C)) as C3. cbn [app] in C3.
          pose proof (canonical_low a _ c C3 ltac:(right; left; reflexivity)). assert (seg_ok a) by (apply canonical_ok in C3; inversion C3; auto). unfold seg_ok in *. lia.
        - exists n, n2, (pre ++ a :: b :: c :: rest). split; [reflexivity|]. pose proof (canonical_tail _ _ (canonical_tail _ _ C)) as C3.
          change ((n2 :: pre) ++ a :: b :: c :: rest) with (n2 :: (pre ++ a :: b :: c :: rest)) in C3.
          assert (seg_ok n2) by (apply canonical_ok in C3; inversion C3; auto).
          pose proof (canonical_low n2 _ c C3 ltac:(apply in_or_app; right; right; right; left; reflexivity)). unfold seg_ok in *. lia. }
      rewrite E in *. apply three_touched; auto. lia.
Qed.
Print Assumptions C16_canonical_lost.
(** adding integers one by one, in any order *)
Theorem C16_integers_canonical : forall xs, exists r,
  eval (fold_left (fun e x => RAdd e (RSeg x x)) xs REmpty) = Ok r /\ canonical r /\ forall x, covers r x <-> In x xs.
Proof.
  intro xs. 
  assert (G : forall xs e p, eval e = Ok p -> canonical p -> exists r,
    eval (fold_left (fun e x => RAdd e (RSeg x x)) xs e) = Ok r /\ canonical r /\ forall x, covers r x <-> covers p x \/ In x xs).
  { clear. induction xs as [|x xs IH]; intros e p E C; cbn [fold_left].
    - exists p. split; [exact E|]. split; [exact C|]. intro y. cbn [In]. tauto.
    - destruct (C16_canonical_kept p (Seg x x)) as (p' & E' & C').
      + exact C. + cbn. lia.
      + intros a b c rest pre -> [Q1 Q2]. cbn [low high] in *.
        assert (Cab : canonical (a :: b :: c :: rest)).
        { clear - C. induction pre; [exact C|]. apply IHpre. eapply canonical_tail. exact C. }
        pose proof (canonical_low a (b :: c :: rest) b Cab ltac:(left; reflexivity)).
        pose proof (canonical_tail _ _ Cab) as Cb. pose proof (canonical_low b (c :: rest) c Cb ltac:(left; reflexivity)).
        assert (seg_ok b) by (inversion Cb; auto). unfold seg_ok in *. lia.
      + destruct (IH (RAdd e (RSeg x x)) p') as (r & Er & Cr & D).
        * cbn [eval]. rewrite E. cbn [bind range_add range_of]. unfold range_of. cbn [range_add]. rewrite E'. reflexivity.
        * exact C'.
        * exists r. split; [exact Er|]. split; [exact Cr|]. intro y. rewrite D.
          destruct (insert_spec p (Seg x x) (canonical_ok p C)) as (p2 & E2 & _ & C2); [unfold seg_ok; cbn; lia|].
          rewrite E' in E2. injection E2 as <-. rewrite C2. cbn [low high In]. split; [intros [[?|?]|?]|intros [?|[?|?]]]; auto; first [right; left; lia|left; right; lia]. }
  destruct (G xs REmpty [] eq_refl can_nil) as (r & E & C & D). exists r. split; [exact E|]. split; [exact C|].
  intro x. rewrite D, covers_nil. tauto.
Qed.
Print Assumptions C16_integers_canonical.

(** What is displayed identifies the segments: two different lists of segments are never shown alike. *)
Definition is_dig (c : N) := 48 <= c /\ c <= 57.
Lemma split_sep : forall a b c d x y, Forall is_dig a -> Forall is_dig c -> ~ is_dig x -> ~ is_dig y ->
  a ++ x :: b = c ++ y :: d -> a = c /\ x = y /\ b = d.
Proof.
  induction a as [|u a IH]; intros b c d x y Ha Hc Hx Hy E.
  - destruct c as [|v c]; cbn in E; injection E as E1 E2; [auto|]. exfalso. inversion Hc; subst. tauto.
  - destruct c as [|v c]; cbn in E; injection E as E1 E2.
    + exfalso. inversion Ha; subst. tauto.
    + inversion Ha; inversion Hc; subst. destruct (IH b c d x y) as (-> & -> & ->); auto.
Qed.
Lemma digits_of : forall n, exists s, int_to_string n = Ok s /\ s <> [] /\ Forall is_dig s /\ str_value s = n.
Proof. intro n. destruct (int_to_string_spec n) as (s & E & (C1 & C2 & _) & V). eauto. Qed.
(** a display, followed by nothing or by a comma and the rest, is read in one way *)
Lemma seg_display_shape : forall s, seg_ok s -> exists d, seg_display s = Ok d /\
  forall t d', seg_ok t -> seg_display t = Ok d' -> forall u u', (u = [] \/ exists v, u = 44 :: v) -> (u' = [] \/ exists v, u' = 44 :: v) ->
    d ++ u = d' ++ u' -> s = t /\ u = u'.
Proof.
  assert (K44 : ~ is_dig 44) by (unfold is_dig; lia). assert (K45 : ~ is_dig 45) by (unfold is_dig; lia).
  (* normal form: digits ++ tail, the tail starts with a non digit or is empty *)
  assert (N0 : forall (a c u u' : list N), Forall is_dig a -> Forall is_dig c -> (u = [] \/ exists x v, u = x :: v /\ ~ is_dig x) ->
     (u' = [] \/ exists x v, u' = x :: v /\ ~ is_dig x) -> a ++ u = c ++ u' -> a = c /\ u = u').
  { intros a c u u' Ha Hc Hu Hu' E. 
    assert (Z : a ++ u ++ [44] = c ++ u' ++ [44]) by (rewrite !app_assoc, E; reflexivity).
    destruct Hu as [->|(x & v & -> & Hx)]; destruct Hu' as [->|(x' & v' & -> & Hx')]; cbn [app] in Z.
    - destruct (split_sep a [] c [] 44 44) as (-> & _); auto.
    - destruct (split_sep a [] c (v' ++ [44]) 44 x') as (_ & _ & Q); auto. apply (f_equal (@length N)) in Q. rewrite app_length in Q. cbn in Q. lia.
    - destruct (split_sep a (v ++ [44]) c [] x 44) as (_ & _ & Q); auto. apply (f_equal (@length N)) in Q. rewrite app_length in Q. cbn in Q. lia.
    - destruct (split_sep a (v ++ [44]) c (v' ++ [44]) x x') as (-> & -> & Q); auto. apply app_inj_tail in Q. destruct Q as [-> _]. auto. }
  assert (S0 : forall s, seg_ok s -> exists a t, Forall is_dig a /\ str_value a = low s /\ seg_display s = Ok (a ++ t) /\
     ((t = [] /\ low s = high s) \/ (low s <> high s /\ exists b, t = 45 :: b /\ Forall is_dig b /\ str_value b = high s))).
  { intros [l h] H. unfold seg_display. cbn [low high] in *. destruct (digits_of l) as (a & -> & A1 & A2 & A3). cbn [bind].
    destruct (N.eqb_spec l h) as [->|Ne].
    - exists a, []. rewrite app_nil_r. auto 10.
    - destruct (digits_of h) as (b & -> & B1 & B2 & B3). cbn [bind]. exists a, (45 :: b). split; [auto|]. split; [auto|]. split; [reflexivity|].
      right. split; [auto|]. exists b. auto. }
  assert (T0 : forall (t u : list N), t = [] \/ (exists b, t = 45 :: b) -> (u = [] \/ exists v, u = 44 :: v) -> (t ++ u = [] \/ exists x v, t ++ u = x :: v /\ ~ is_dig x)).
  { intros t u [->|(b & ->)] [->|(v & ->)]; cbn [app]; eauto 6. }
  intros s Hs. destruct (S0 s Hs) as (a & t & A1 & A2 & A3 & A4). exists (a ++ t). split; [exact A3|].
  intros s' d' Hs' E' u u' Hu Hu' E. destruct (S0 s' Hs') as (a' & t' & B1 & B2 & B3 & B4). rewrite E' in B3. injection B3 as ->.
  rewrite <- !app_assoc in E. apply N0 in E; auto.
  - destruct E as [-> E]. destruct s as [l h], s' as [l' h']. cbn [low high] in *.
    destruct A4 as [(-> & A4)|(A4 & b & -> & A5 & A6)]; destruct B4 as [(-> & B4)|(B4 & b' & -> & B5 & B6)]; cbn [app] in E.
    + subst. auto.
    + exfalso. subst u. destruct Hu as [Hu|(v & Hu)]; discriminate.
    + exfalso. subst u'. destruct Hu' as [Hu'|(v & Hu')]; discriminate.
    + injection E as E. apply N0 in E; auto.
      * destruct E as [-> ->]. subst. auto.
      * destruct Hu as [->|(v & ->)]; eauto.
      * destruct Hu' as [->|(v & ->)]; eauto.
  - apply T0; auto. destruct A4 as [(-> & _)|(_ & b & -> & _)]; eauto.
  - apply T0; auto. destruct B4 as [(-> & _)|(_ & b & -> & _)]; eauto.
Qed.
Theorem C16_display_faithful : forall p q d, Forall seg_ok p -> Forall seg_ok q ->
  range_display p = Ok d -> range_display q = Ok d -> p = q.
Proof.
  assert (N0 : forall s r d, seg_ok s -> range_display (s :: r) = Ok d -> exists a u, seg_display s = Ok a /\ a <> [] /\ d = a ++ u /\
     (r = [] /\ u = [] \/ exists e, r <> [] /\ range_display r = Ok e /\ u = 44 :: e)).
  { intros s r d Hs H. cbn [range_display] in H. destruct (seg_display_shape s Hs) as (a & E & _). rewrite E in H. cbn [bind] in H.
    assert (a <> []).
    { unfold seg_display in E. destruct (digits_of (low s)) as (x & X1 & X2 & _). rewrite X1 in E. cbn [bind] in E. destruct (low s =? high s); [congruence|].
      destruct (int_to_string (high s)); [|discriminate]. cbn [bind] in E. injection E as <-. destruct x; [congruence|discriminate]. }
    destruct r as [|t r].
    - injection H as <-. exists a, []. rewrite app_nil_r. auto 10.
    - destruct (range_display (t :: r)) as [e|] eqn:Er; [|discriminate]. cbn [bind] in H. injection H as <-.
      exists a, (44 :: e). split; [auto|]. split; [auto|]. split; [reflexivity|]. right. exists e. split; [discriminate|auto]. }
  induction p as [|s p IH]; intros q d Hp Hq Ep Eq.
  - destruct q as [|t q]; auto. cbn in Ep. injection Ep as <-. inversion Hq; subst.
    destruct (N0 t q [] ltac:(auto) Eq) as (a & u & _ & Ha & E & _). symmetry in E. apply app_eq_nil in E. tauto.
  - inversion Hp as [|? ? Hs Hp']; subst. destruct q as [|t q].
    + cbn in Eq. injection Eq as <-. destruct (N0 s p [] Hs Ep) as (a & u & _ & Ha & E & _). symmetry in E. apply app_eq_nil in E. tauto.
    + inversion Hq as [|? ? Ht Hq']; subst. destruct (N0 s p d Hs Ep) as (a & u & Ea & _ & E & R). destruct (N0 t q d Ht Eq) as (a' & u' & Ea' & _ & E' & R').
      subst d. destruct (seg_display_shape s Hs) as (x & Ex & F). rewrite Ea in Ex. injection Ex as <-.
      destruct (F t a' Ht Ea' u u') as [-> ->]; auto.
      * destruct R as [(_ & ->)|(e & _ & _ & ->)]; eauto.
      * destruct R' as [(_ & ->)|(e & _ & _ & ->)]; eauto.
      * f_equal. destruct R as [(-> & Hu)|(e & Hr & Er & Hu)]; destruct R' as [(-> & Hu')|(e' & Hr' & Er' & Hu')]; subst; auto; try discriminate.
        injection Hu' as <-. eapply IH; eauto.
Qed.
Print Assumptions C16_display_faithful.

Example C16_instance : (* {3-5} += {1-2} += {9} : "1-5,9" *)
  eval (RAdd (RAdd (RSeg 3 5) (RSeg 1 2)) (RSeg 9 9)) = Ok [Seg 1 5; Seg 9 9] /\ range_display [Seg 1 5; Seg 9 9] = Ok [49; 45; 53; 44; 57] /\
  in_order (RAdd (RAdd (RSeg 3 5) (RSeg 1 2)) (RSeg 9 9)).
Proof. vm_compute. repeat split; discriminate. Qed.
