(** * Lemmas about file listings: the order, the sorted list, the binary search, the cutting in lines. *)
From Coq Require Import Sorted.
From Verif Require Import Base PathModel PropPath ListingModel.
Open Scope nat_scope.

(** ** the order *)
Definition rank (c : N) : N := if (c =? SLASH)%N then 0%N else N.succ (schar c).
Lemma schar_inj : forall x y, schar x = schar y -> x = y.
Proof.
  intros x y. unfold schar. destruct (N.ltb_spec x 128); destruct (N.ltb_spec y 128); destruct (N.ltb_spec x 256); destruct (N.ltb_spec y 256); lia.
Qed.
Lemma rank_inj : forall x y, rank x = rank y -> x = y.
Proof.
  intros x y. unfold rank. destruct (N.eqb_spec x SLASH); destruct (N.eqb_spec y SLASH); try congruence; try lia.
  intro H. apply schar_inj. lia.
Qed.
Lemma lexle_cons : forall x y a b, lexle (x :: a) (y :: b) = if (x =? y)%N then lexle a b else (rank x <? rank y)%N.
Proof.
  intros x y a b. cbn [lexle]. unfold rank. destruct (N.eqb_spec x SLASH) as [->|X].
  - destruct (N.eqb_spec y SLASH) as [->|Y]; [rewrite N.eqb_refl; reflexivity|].
    replace (SLASH =? y)%N with false by (symmetry; apply N.eqb_neq; auto). symmetry. apply N.ltb_lt. lia.
  - destruct (N.eqb_spec y SLASH) as [->|Y].
    + replace (x =? SLASH)%N with false by (symmetry; apply N.eqb_neq; auto). symmetry. apply N.ltb_ge. lia.
    + destruct (N.eqb_spec x y); auto. destruct (N.ltb_spec (schar x) (schar y)); symmetry; [apply N.ltb_lt|apply N.ltb_ge]; lia.
Qed.
Lemma lexle_refl : forall a, lexle a a = true.
Proof. induction a; auto. rewrite lexle_cons, N.eqb_refl. auto. Qed.
Lemma lexle_total : forall a b, lexle a b = false -> lexle b a = true.
Proof.
  induction a as [|x a IH]; intros [|y b] H; try discriminate; auto. rewrite lexle_cons in *. rewrite (N.eqb_sym y x).
  destruct (N.eqb_spec x y); auto. apply N.ltb_lt. apply N.ltb_ge in H. assert (rank x <> rank y) by (intro E; apply rank_inj in E; auto). lia.
Qed.
Lemma lexle_antisym : forall a b, lexle a b = true -> lexle b a = true -> a = b.
Proof.
  induction a as [|x a IH]; intros [|y b] H1 H2; try discriminate; auto. rewrite lexle_cons in *. rewrite (N.eqb_sym y x) in H2.
  destruct (N.eqb_spec x y); [subst; f_equal; auto|]. apply N.ltb_lt in H1, H2. lia.
Qed.
Lemma lexle_trans : forall a b c, lexle a b = true -> lexle b c = true -> lexle a c = true.
Proof.
  induction a as [|x a IH]; intros [|y b] [|z c] H1 H2; try discriminate; auto. rewrite lexle_cons in *.
  destruct (N.eqb_spec x y) as [->|]; destruct (N.eqb_spec y z) as [->|].
  - eauto.
  - auto.
  - replace (x =? z)%N with false by (symmetry; apply N.eqb_neq; auto). auto.
  - apply N.ltb_lt in H1, H2. destruct (N.eqb_spec x z) as [->|]; [lia|]. apply N.ltb_lt. lia.
Qed.
(** what stands between a directory and something below it is below that directory *)
Lemma between : forall D s t, lexle D s = true -> lexle s (D ++ SLASH :: t) = true -> s = D \/ exists t', s = D ++ SLASH :: t'.
Proof.
  induction D as [|x D IH]; intros s t H1 H2.
  - destruct s as [|c s]; [auto|right]. cbn [app] in *. rewrite lexle_cons in H2. destruct (N.eqb_spec c SLASH) as [->|C]; [exists s; reflexivity|].
    apply N.ltb_lt in H2. unfold rank in H2 at 2. rewrite N.eqb_refl in H2. lia.
  - destruct s as [|c s]; [discriminate|]. cbn [app] in H2. rewrite lexle_cons in *. rewrite (N.eqb_sym c x) in H2.
    destruct (N.eqb_spec x c) as [->|C]; [|apply N.ltb_lt in H1, H2; lia].
    destruct (IH _ _ H1 H2) as [->|(t' & ->)]; [auto|right; exists t'; reflexivity].
Qed.
Lemma lexle_below : forall D t, lexle D (D ++ t) = true.
Proof. induction D; intro t; auto. cbn [app]. rewrite lexle_cons, N.eqb_refl. auto. Qed.

(** ** sort and unique *)
Definition slt (a b : str) : Prop := lexle b a = false.
Lemma slt_le : forall a b, slt a b -> lexle a b = true.
Proof. intros. apply lexle_total. auto. Qed.
Lemma slt_irrefl : forall a, ~ slt a a.
Proof. unfold slt. intros a H. rewrite lexle_refl in H. discriminate. Qed.
Lemma le_cases : forall a b, lexle a b = true -> a = b \/ slt a b.
Proof. intros a b H. unfold slt. destruct (lexle b a) eqn:E; [left; apply lexle_antisym; auto|auto]. Qed.
Lemma slt_trans : forall a b c, slt a b -> slt b c -> slt a c.
Proof.
  intros a b c H1 H2. unfold slt. destruct (lexle c a) eqn:E; auto. exfalso. apply slt_le in H1.
  unfold slt in H2. rewrite (lexle_trans _ _ _ E H1) in H2. discriminate.
Qed.
Lemma insert_in : forall x l y, In y (insert x l) <-> y = x \/ In y l.
Proof.
  induction l as [|z l IH]; intro y; cbn [insert]; [cbn; intuition|]. destruct (lexle x z); cbn [In]; [intuition|]. rewrite IH. intuition.
Qed.
Definition lele (a b : str) : Prop := lexle a b = true.
Lemma insert_sorted : forall x l, StronglySorted lele l -> StronglySorted lele (insert x l).
Proof.
  induction l as [|z l IH]; intro H; cbn [insert]; [repeat constructor|]. inversion H as [|? ? H1 H2]; subst. destruct (lexle x z) eqn:E.
  - constructor; auto. constructor; auto. eapply Forall_impl; [|exact H2]. intros a Ha. eapply lexle_trans; eauto.
  - constructor; auto. apply Forall_forall. intros y Hy. apply insert_in in Hy as [->|Hy]; [apply lexle_total; auto|].
    rewrite Forall_forall in H2. auto.
Qed.
Lemma sort_in : forall l y, In y (sort_list l) <-> In y l.
Proof. induction l as [|x l IH]; intro y; cbn; [reflexivity|]. unfold sort_list in IH. rewrite insert_in, IH. intuition. Qed.
Lemma sort_sorted : forall l, StronglySorted lele (sort_list l).
Proof. induction l; cbn; [constructor|]. apply insert_sorted. auto. Qed.
Lemma unique_cons : forall x y r, unique (x :: y :: r) = if str_eqb x y then unique (y :: r) else x :: unique (y :: r).
Proof. reflexivity. Qed.
Lemma unique_in : forall l y, In y (unique l) <-> In y l.
Proof.
  induction l as [|x [|z r] IH]; intro y; [reflexivity|reflexivity|]. rewrite unique_cons. destruct (str_eqb x z) eqn:E.
  - apply str_eqb_eq in E. subst. rewrite IH. cbn. intuition.
  - cbn [In]. rewrite IH. cbn [In]. reflexivity.
Qed.
Lemma unique_sorted : forall l, StronglySorted lele l -> StronglySorted slt (unique l).
Proof.
  induction l as [|x [|z r] IH]; intro H; [constructor|repeat constructor|]. rewrite unique_cons. inversion H as [|? ? H1 H2]; subst.
  destruct (str_eqb x z) eqn:E; [auto|]. constructor; auto. apply Forall_forall. intros y Hy. apply (proj1 (unique_in _ _)) in Hy.
  assert (Nz : slt x z).
  { inversion H2; subst. destruct (le_cases x z) as [->|]; auto. exfalso.
    assert (str_eqb z z = true) by (apply str_eqb_eq; auto). congruence. }
  destruct Hy as [<-|Hy]; auto. inversion H1 as [|? ? _ H3]; subst. rewrite Forall_forall in H3. specialize (H3 _ Hy).
  unfold slt. destruct (lexle y x) eqn:Q; auto. exfalso. unfold slt in Nz. rewrite (lexle_trans z y x H3 Q) in Nz. discriminate.
Qed.
Lemma sorted_nth : forall l : list str, StronglySorted slt l -> forall i j, i < j -> j < length l -> slt (nth i l []) (nth j l []).
Proof.
  induction 1 as [|x l H IH F]; intros i j Hij Hj; [cbn in Hj; lia|]. destruct j as [|j]; [lia|]. cbn [length] in Hj.
  destruct i as [|i]; cbn [nth].
  - rewrite Forall_forall in F. apply F. apply nth_In. lia.
  - apply IH; lia.
Qed.

(** ** the binary search *)
Lemma bsearch_spec : forall (l : list str) (t : str), forall fuel mn mx, mx - mn <= fuel -> mn <= mx -> mx < length l ->
  (mn = 0 \/ lexle (nth mn l []) t = true) -> (mx = length l - 1 \/ slt t (nth mx l [])) ->
  let '(a, b) := bsearch fuel l t mn mx in
  a <= b /\ b <= S a /\ b < length l /\ (a = 0 \/ lexle (nth a l []) t = true) /\ (b = length l - 1 \/ slt t (nth b l [])) /\ (mn < mx -> a < b).
Proof.
  intros l t. induction fuel as [|k IH]; intros mn mx Hf Hm Hx Ha Hb; cbn [bsearch]; cbn zeta; [repeat split; auto; lia|].
  destruct (Nat.ltb_spec 1 (mx - mn)) as [G|G].
  2: { repeat split; auto; lia. }
  assert (T : mn < (mn + mx) / 2 < mx) by lia. set (m := (mn + mx) / 2) in *. clearbody m.
  destruct (lexle (nth m l []) t) eqn:E.
  - specialize (IH m mx). destruct (bsearch k l t m mx) as [a b]. assert (Q : mx - m <= k) by lia. specialize (IH Q ltac:(lia) ltac:(lia) (or_intror E) Hb).
    destruct IH as (I1 & I2 & I3 & I4 & I5 & I6). do 5 (split; [assumption|]). intros _. apply I6. lia.
  - specialize (IH mn m). destruct (bsearch k l t mn m) as [a b]. assert (Q : m - mn <= k) by lia. specialize (IH Q ltac:(lia) ltac:(lia) Ha (or_intror E)).
    destruct IH as (I1 & I2 & I3 & I4 & I5 & I6). do 5 (split; [assumption|]). intros _. apply I6. lia.
Qed.
(** what is_covered looks at: [mx] is the first entry that is not lower than the target, or the last one; everything before is
    lower *)
Lemma search_spec : forall (l : list str) (t : str), l <> [] -> StronglySorted slt l ->
  let '(mn, mx0) := bsearch (length l) l t 0 (length l - 1) in
  let mx := if (mn =? 0) && lexle t (nth mn l []) then mn else mx0 in
  mx < length l /\ mn < length l /\
  ((str_eqb (nth mx l []) t || str_eqb (nth mn l []) t = true) <-> In t l) /\
  (~ In t l -> (forall i, i < mx -> slt (nth i l []) t) /\ (mx = length l - 1 \/ slt t (nth mx l []))).
Proof.
  intros l t Hl S. assert (L : 0 < length l) by (destruct l; [congruence|cbn; lia]).
  pose proof (bsearch_spec l t (length l) 0 (length l - 1) ltac:(lia) ltac:(lia) ltac:(lia) (or_introl eq_refl) (or_introl eq_refl)) as B.
  destruct (bsearch (length l) l t 0 (length l - 1)) as [mn mx]. destruct B as (B1 & B2 & B3 & B4 & B5 & B6). cbn zeta.
  set (mx' := if (mn =? 0) && lexle t (nth mn l []) then mn else mx).
  assert (M : (mx' = mn /\ mn = 0 /\ lexle t (nth 0 l []) = true) \/ (mx' = mx /\ (mn = 0 -> slt (nth 0 l []) t))).
  { unfold mx'. destruct (Nat.eqb_spec mn 0) as [->|Z]; cbn [andb]; [|right; split; auto; lia].
    destruct (lexle t (nth 0 l [])) eqn:E; [left; auto|right; auto]. }
  clearbody mx'.
  assert (IN : In t l -> nth mx' l [] = t \/ nth mn l [] = t).
  { intro I. apply In_nth with (d := []) in I as (i & Hi & Ei). 
    destruct M as [(-> & -> & M)|(-> & M)].
    - left. destruct (le_cases _ _ M) as [E|E]; auto. exfalso. destruct i as [|i]; [rewrite Ei in E; apply (slt_irrefl _ E)|].
      pose proof (sorted_nth l S 0 (Datatypes.S i) ltac:(lia) Hi) as Q. rewrite Ei in Q. apply (slt_irrefl t). eapply slt_trans; eauto.
    - destruct (Nat.lt_trichotomy i mn) as [G|[->|G]]; [|auto|].
      + exfalso. pose proof (sorted_nth l S i mn G ltac:(lia)) as Q. rewrite Ei in Q. destruct B4 as [->|B4]; [lia|].
        unfold slt in Q. congruence.
      + assert (mx <= i) by lia. destruct (Nat.eq_dec i mx) as [->|]; auto. exfalso.
        pose proof (sorted_nth l S mx i ltac:(lia) Hi) as Q. rewrite Ei in Q. destruct B5 as [B5|B5]; [lia|].
        apply (slt_irrefl t). eapply slt_trans; eauto. }
  split; [destruct M as [(-> & _)|(-> & _)]; lia|]. split; [lia|]. split.
  - rewrite orb_true_iff, !str_eqb_eq. split; [|exact IN]. intros [<-|<-]; apply nth_In; [destruct M as [(-> & _)|(-> & _)]; lia|lia].
  - intro NI. assert (NE : forall i, i < length l -> nth i l [] <> t) by (intros i Hi E; apply NI; rewrite <- E; apply nth_In; auto).
    destruct M as [(-> & -> & M)|(-> & M)].
    + split; [intros; lia|]. right. destruct (le_cases _ _ M) as [E|E]; [exfalso; apply (NE 0); [lia|auto]|exact E].
    + split; [|exact B5]. intros i Hi. assert (Q : slt (nth mn l []) t).
      { destruct (Nat.eq_dec mn 0) as [->|Z]; [auto|]. destruct B4 as [|B4]; [lia|]. destruct (le_cases _ _ B4) as [E|]; auto. exfalso. apply (NE mn); auto. lia. }
      destruct (Nat.eq_dec i mn) as [->|]; auto. eapply slt_trans; [apply (sorted_nth l S i mn); lia|auto].
Qed.

(** the directories leading to a listed entry: it is enough to look at one entry *)
Lemma below_spec : forall (l : list str) (t : str) mx, StronglySorted slt l -> mx < length l ->
  (forall i, i < mx -> slt (nth i l []) t) -> (mx = length l - 1 \/ slt t (nth mx l [])) -> ~ In t l ->
  (exists e r, In e l /\ e = t ++ SLASH :: r) <-> exists r, nth mx l [] = t ++ SLASH :: r.
Proof.
  intros l t mx S Hm H1 H2 NI. split.
  - intros (e & r & I & E). apply In_nth with (d := []) in I as (i & Hi & Ei).
    assert (mx <= i).
    { destruct (Nat.le_gt_cases mx i) as [|G]; auto. exfalso. specialize (H1 i G). rewrite Ei, E in H1. unfold slt in H1. rewrite lexle_below in H1. discriminate. }
    destruct (Nat.eq_dec i mx) as [->|]; [exists r; congruence|].
    destruct H2 as [H2|H2]; [lia|]. pose proof (sorted_nth l S mx i ltac:(lia) Hi) as Q. rewrite Ei, E in Q.
    destruct (between t (nth mx l []) r (slt_le _ _ H2) (slt_le _ _ Q)) as [Z|Z]; [|exact Z].
    exfalso. apply NI. rewrite <- Z. apply nth_In. auto.
  - intros (r & E). exists (nth mx l []), r. split; auto. apply nth_In. auto.
Qed.

(** ** cutting in lines with the default ends of line *)
Definition LF : N := 10%N.
Definition CR : N := 13%N.
Definition dst (r : bool) : eols := ([mk_ip [LF] 0 false 0 false; mk_ip [CR; LF] (if r then 1 else 0) false 0 false], 0).
Lemma eol_default : forall r c, eol_reached c (dst r) =
  if (c =? LF)%N then Ok (dst false, Some (if r then 2 else 1, 0)) else Ok (dst (negb r && (c =? CR)%N), None).
Proof.
  intros r c. unfold eol_reached, dst. cbn [fst snd match_all]. unfold ip_match at 1. cbn [e_byp e_ref e_pos nth_error e_larger e_passed].
  rewrite (N.eqb_sym LF c). destruct (N.eqb_spec c LF) as [->|C].
  - destruct r; reflexivity.
  - cbn [bind]. unfold ip_match. cbn [e_byp e_ref e_pos nth_error e_larger e_passed]. destruct r.
    + cbn [nth_error]. rewrite (N.eqb_sym LF c). replace (c =? LF)%N with false by (symmetry; apply N.eqb_neq; auto). reflexivity.
    + cbn [nth_error]. rewrite (N.eqb_sym CR c). destruct (c =? CR)%N; reflexivity.
Qed.
(** the same, byte after byte: state of the cutter, bytes of the current line, lines found *)
Definition bst : Type := bool * str * list str.
Definition bstep (up : str -> str) (s : bst) (c : N) : res bst :=
  let '(r, entry, lines) := s in
  if (c =? LF)%N then
    let len := if r then 2 else 1 in
    if length (entry ++ [c]) <=? len then Err Ebug
    else let e := up (drop_last len (entry ++ [c])) in Ok (false, [], if nonempty e then e :: lines else lines)
  else Ok (negb r && (c =? CR)%N, entry ++ [c], lines).
Fixpoint bfold (up : str -> str) (bytes : str) (s : bst) : res bst :=
  match bytes with [] => Ok s | c :: r => let* s := bstep up s c in bfold up r s end.
Lemma bfold_app : forall up a b s, bfold up (a ++ b) s = let* s := bfold up a s in bfold up b s.
Proof. induction a as [|c a IH]; intros b s; [reflexivity|]. cbn [app bfold]. destruct (bstep up s c); cbn [bind]; auto. Qed.

(** the scanning loop stops at the next LF *)
Lemma scan_default : forall (bytes : str) r up (entry : str) lines,
  (exists (pre post : str) (r' r'' : bool), bytes = pre ++ LF :: post /\ scan (dst r) bytes = Ok (dst r', length pre, Some (if r'' then 2 else 1, 0)) /\ r' = false /\
     bfold up pre (r, entry, lines) = Ok (r'', entry ++ pre, lines)) \/
  (exists r', scan (dst r) bytes = Ok (dst r', length bytes, None) /\ bfold up bytes (r, entry, lines) = Ok (r', entry ++ bytes, lines)).
Proof.
  induction bytes as [|c bytes IH]; intros r up entry lines.
  - right. exists r. cbn. rewrite app_nil_r. auto.
  - cbn [scan]. rewrite eol_default. destruct (N.eqb_spec c LF) as [->|C].
    + left. exists [], bytes, false, r. cbn. rewrite app_nil_r. auto.
    + cbn [bind bfold bstep]. destruct (N.eqb_spec c LF); [contradiction|]. cbn [bind].
      destruct (IH (negb r && (c =? CR)%N) up (entry ++ [c]) lines) as [(pre & post & r' & r'' & E1 & E2 & E3 & E4)|(r' & E2 & E3)].
      * left. exists (c :: pre), post, r', r''. rewrite E2. cbn [bind length bfold bstep]. destruct (N.eqb_spec c LF); [contradiction|]. cbn [bind].
        split; [rewrite E1; reflexivity|]. split; [reflexivity|]. split; [exact E3|]. etransitivity; [exact E4|]. rewrite <- app_assoc. reflexivity.
      * right. exists r'. rewrite E2. cbn [bind length]. split; [reflexivity|]. etransitivity; [exact E3|]. rewrite <- app_assoc. reflexivity.
Qed.
Lemma slice_mid : forall (a b : str), slice (a ++ b) (length a) (length (a ++ b)) = b.
Proof. intros. unfold slice. rewrite firstn_all. apply skipn_app_exact. Qed.
Lemma slice_pre : forall (a b c : str), slice (a ++ b ++ c) (length a) (length a + length b) = b.
Proof.
  intros. unfold slice. rewrite app_assoc. rewrite <- app_length. rewrite firstn_app_exact. apply skipn_app_exact.
Qed.
(** a whole buffer *)
Lemma turns_default : forall up (buf : str) fuel (done todo : str) r (entry : str) lines, buf = done ++ todo -> length todo < fuel -> todo <> [] ->
  match bfold up todo (r, entry, lines) with
  | Ok (r', entry', lines') => exists beg, turns fuel up buf (mk_rst (dst r) (length done) (length done) entry [] 0 0 lines) =
      Ok (mk_rst (dst r') (length buf) beg entry' [] 0 0 lines')
  | Err e => turns fuel up buf (mk_rst (dst r) (length done) (length done) entry [] 0 0 lines) = Err e
  end.
Proof.
  intros up buf. induction fuel as [|k IH]; intros done todo r entry lines Eb Hk Ht; [lia|]. cbn [turns].
  unfold turn. cbn [r_refill nonempty r_e r_curs r_beg r_entry r_nc r_fc r_lines].
  replace (skipn (length done) buf) with todo by (rewrite Eb; symmetry; apply skipn_app_exact).
  destruct (scan_default todo r up entry lines) as [(pre & post & r' & r'' & E1 & E2 & E3 & E4)|(r' & E2 & E3)].
  - rewrite E2. subst r'. cbn [bind Nat.leb]. rewrite Nat.sub_0_r.
    replace ((if r'' then 2 else 1) =? 0) with false by (destruct r''; reflexivity). cbn [bind r_entry].
    rewrite E1. rewrite bfold_app, E4. cbn [bind bfold bstep]. rewrite N.eqb_refl.
    replace (slice buf (length done) (S (length done + length pre))) with (pre ++ [LF]).
    2: { rewrite Eb, E1. replace (pre ++ LF :: post) with ((pre ++ [LF]) ++ post) by (rewrite <- app_assoc; reflexivity).
         rewrite <- (slice_pre done (pre ++ [LF]) post) at 1. f_equal. rewrite app_length. cbn [length]. lia. }
    replace (0 <? (if r'' then 2 else 1)) with true by (destruct r''; reflexivity). rewrite Nat.add_0_r, app_assoc.
    destruct (Nat.leb_spec (length ((entry ++ pre) ++ [LF])) (if r'' then 2 else 1)) as [G|G]; [reflexivity|]. change (0 <? 0) with false. cbn [bind r_curs r_refill r_nc length r_entry r_e r_beg r_fc r_lines].
    change (0 <? 0) with false. rewrite orb_false_r.
    assert (LB : length buf = length done + length pre + S (length post)) by (rewrite Eb, E1, !app_length; cbn [length]; lia).
    destruct (Nat.ltb_spec (S (length done + length pre)) (length buf)) as [G2|G2].
    + specialize (IH (done ++ pre ++ [LF]) post false [] (if nonempty (up (drop_last (if r'' then 2 else 1) ((entry ++ pre) ++ [LF]))) then up (drop_last (if r'' then 2 else 1) ((entry ++ pre) ++ [LF])) :: lines else lines)).
      replace (length (done ++ pre ++ [LF])) with (S (length done + length pre)) in IH by (rewrite !app_length; cbn [length]; lia).
      apply IH.
      * rewrite Eb, E1, <- !app_assoc. reflexivity.
      * rewrite E1, app_length in Hk. cbn [length] in Hk. lia.
      * intros ->. cbn [length] in LB. lia.
    + assert (post = []) by (destruct post; [auto|cbn [length] in LB; lia]). subst post. cbn [bfold].
      exists (length done). f_equal. f_equal. cbn [length] in LB. lia.
  - rewrite E2. cbn [bind r_entry]. change (0 <? 0) with false. rewrite E3.
    replace (slice buf (length done) (length done + length todo)) with todo.
    2: { rewrite Eb, <- app_length. symmetry. apply slice_mid. }
    assert (LB : length done + length todo = length buf) by (rewrite Eb, app_length; reflexivity).
    cbn [bind r_curs r_refill r_nc length]. rewrite LB. rewrite !Nat.ltb_irrefl. cbn [orb]. exists (length done). reflexivity.
Qed.
Lemma read_bufs_default : forall up bufs r entry lines, Forall (fun b => b <> []) bufs ->
  read_bufs up bufs (dst r) entry lines =
  let* '(_, e, ls) := bfold up (concat bufs) (r, entry, lines) in Ok (rev (if nonempty e then e :: ls else ls)).
Proof.
  intros up. induction bufs as [|b bufs IH]; intros r entry lines H; [reflexivity|]. inversion H; subst. cbn [read_bufs concat]. rewrite bfold_app.
  pose proof (turns_default up b (2 * length b + 2) [] b r entry lines eq_refl ltac:(lia) H2) as T. cbn [length] in T.
  destruct (bfold up b (r, entry, lines)) as [[[r' e'] l']|x]; cbn [bind].
  - destruct T as (beg & ->). cbn [bind r_e r_entry r_lines]. apply IH. auto.
  - rewrite T. reflexivity.
Qed.
