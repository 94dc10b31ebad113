(** * FilterProof2: each option matches what it says *)
From Coq Require Import List.
From Verif Require Import Base PathModel PropPath MaskModel PropMask FilterModel FilterSpec FilterProof.
Local Open Scope nat_scope.

(** ** A relative text added to the root *)
Lemma reduce_loop_plain : forall rest left, Forall (fun w => w <> dotdot) rest -> reduce_loop left rest = rev left ++ rest.
Proof.
  induction rest as [|it r IH]; intros left H; cbn [reduce_loop]; [rewrite app_nil_r; reflexivity|].
  inversion H as [|? ? H1 H2]; subst. destruct (str_eqb_spec it dotdot) as [|Ne]; [congruence|]. cbn [andb].
  destruct left as [|prev left]; rewrite IH by auto; cbn [rev]; rewrite <- ?app_assoc; reflexivity.
Qed.
Notation nodot := (filter (fun w => negb (str_eqb w dot))).
Lemma nodot_dotdot l : Forall (fun w => w <> dotdot) l -> Forall (fun w => w <> dotdot) (nodot l).
Proof. intro H. apply Forall_forall. intros x Hx. apply filter_In in Hx. rewrite Forall_forall in H. apply H, Hx. Qed.
Lemma nodot_twice l : nodot (nodot l) = nodot l.
Proof. induction l as [|a l IH]; [reflexivity|]. cbn [filter]. destruct (negb (str_eqb a dot)) eqn:E; [|exact IH]. cbn [filter]. rewrite E, IH. reflexivity. Qed.
Lemma reduce_plain rel l : Forall (fun w => w <> dotdot) l -> reduce rel l = match nodot l with [] => if rel then [dot] else [] | _ => nodot l end.
Proof.
  intro H. unfold reduce. pose proof (reduce_loop_plain _ [] (nodot_dotdot l H)) as R. cbn [rev app] in R. rewrite R.
  destruct (nodot l); destruct rel; reflexivity.
Qed.
Lemma proper_nodot l : Forall proper l -> nodot l = l.
Proof.
  induction 1 as [|w l H _ IH]; [reflexivity|]. cbn [filter]. destruct H as [(_ & H & _) _].
  destruct (str_eqb_spec w dot); [congruence|]. cbn [negb]. rewrite IH. reflexivity.
Qed.
Lemma nodot_proper s : Forall (fun w => w <> dotdot) (words s) -> Forall proper (nodot (words s)).
Proof.
  intro H. apply Forall_forall. intros w Hw. apply filter_In in Hw. destruct Hw as [Hw Hd].
  pose proof (words_ok s) as W. rewrite Forall_forall in W, H. destruct (W w Hw) as [W1 W2].
  split; [|exact W2]. split; [exact W1|]. split; [|apply H, Hw]. intros ->. rewrite str_eqb_refl in Hd. discriminate.
Qed.

Lemma plus_ok root s : Forall proper root -> good_text s ->
  plus (Path root false false) s = Ok (Path (root ++ nodot (words s)) false false).
Proof.
  intros HR (H1 & H2 & H3 & H4). unfold plus. destruct s as [|c r]; [congruence|]. cbn [hd] in H2.
  destruct (make_split c r) as (p & E & ->). rewrite E. cbn [bind].
  destruct (N.eqb_spec c SLASH) as [|Nc]; [congruence|]. cbn [negb]. rewrite path_split_plain by exact H3.
  unfold path_add. cbn [relative negb dirs undisclosed orb].
  assert (D : nodot (reduce true (words (c :: r))) = nodot (words (c :: r))).
  { rewrite reduce_plain by exact H4. destruct (nodot (words (c :: r))) eqn:Q; [reflexivity|]. rewrite <- Q. apply nodot_twice. }
  rewrite D. rewrite reduce_plain.
  - rewrite filter_app, proper_nodot, nodot_twice by exact HR. destruct (root ++ nodot (words (c :: r))) eqn:Q; rewrite ?Q; reflexivity.
  - apply Forall_app. split; [eapply Forall_impl; [|exact HR]; intros w [(_ & _ & W) _]; exact W|]. apply nodot_dotdot, H4.
Qed.

Lemma proper_comp l : Forall proper l -> Forall comp l.
Proof. intro H. eapply Forall_impl; [|exact H]. intros w [(W & _) S]. split; assumption. Qed.
Lemma target_proper root o : Forall proper root -> good_text (text o) -> Forall proper (target root o).
Proof. intros HR (_ & _ & _ & H). unfold target. apply Forall_app. split; [exact HR|apply nodot_proper, H]. Qed.
Lemma display_abs q : display (Path q false false) = string_of q.
Proof. reflexivity. Qed.
Lemma testable_abs q : Forall proper q -> testable (Path q false false).
Proof. intro H. split; [apply proper_comp, H|discriminate]. Qed.

Section option.
Variable L : library.
Hypothesis HU : good_up L.

Lemma simple_ok g o x : let m := simple_mask L g (case_sensit o) in
  exists b, is_covered m x = Ok b /\ (b = true <-> glob_matches L o g (as_string x)).
Proof. unfold simple_mask, glob_matches. destruct (case_sensit o); cbn [is_covered]; eexists; (split; [reflexivity|reflexivity]). Qed.

(** ** Names *)
Lemma name_ok root o s : good_name L o -> okm (SStr s) (make_name L root) (fun o => name_matches L o s) o.
Proof.
  intro G. unfold okm, make_name, name_matches. destruct (glob_exp o) eqn:GE.
  - destruct (simple_ok (text o) o (SStr s)) as (b & E & P). eauto.
  - specialize (G GE). unfold regular_mask. destruct (rgx L (case_sensit o) (text o)) as [f|]; [|congruence].
    exists (MLeaf f), (f s). split; [reflexivity|]. split; [reflexivity|]. split; [eauto|]. intros (f' & E & M). congruence.
Qed.

(** ** Paths *)
Lemma include_ok ordered root o q : included o = true -> good_path L ordered root o -> Forall proper root -> Forall proper q ->
  okm (SPath (Path q false false)) (make_include_path L (Path root false false)) (fun o => includes L root o q) o.
Proof.
  intros IO G HR HQ. unfold okm, make_include_path, includes, good_path in *. destruct (file_listing o).
  - destruct G as (f & E & A & _). rewrite IO in E. unfold mask_list. rewrite E. cbn [bind]. destruct (A q HQ) as (b & B).
    exists (MFile f), b. split; [reflexivity|]. cbn [is_covered as_string]. rewrite display_abs. split; [exact B|]. split.
    + intros ->. exists f. auto.
    + intros (f' & E' & B'). congruence.
  - rewrite IO in G. rewrite (plus_ok root (text o) HR G). cbn [bind]. fold (target root o).
    pose proof (testable_abs _ (target_proper root o HR G)) as T1. pose proof (testable_abs q HQ) as T2.
    unfold simple_path_mask, leads_to. destruct (case_sensit o).
    + exists (MSimplePath (Path (target root o) false false)), (is_subdir_of (Path q false false) (Path (target root o) false false) || is_subdir_of (Path (target root o) false false) (Path q false false)).
      split; [reflexivity|]. split; [reflexivity|]. rewrite orb_true_iff, leads_dec, leads_dec by auto. unfold leads. cbn [relative dirs]. intuition.
    + exists (MSimplePathNC (up L) (Path (target root o) false false)), (is_subdir_nocase (up L) (Path q false false) (Path (target root o) false false) || is_subdir_nocase (up L) (Path (target root o) false false) (Path q false false)).
      split; [reflexivity|]. split; [reflexivity|]. rewrite orb_true_iff, leads_nc_dec, leads_nc_dec by (auto; apply HU). unfold leads_nc. cbn [relative dirs]. intuition.
Qed.

Lemma exclude_unordered_ok ordered root o q : included o = false -> good_path L ordered root o -> Forall proper root -> Forall proper q ->
  okm (SPath (Path q false false)) (make_exclude_path_unordered L (Path root false false)) (fun o => excludes L false root o q) o.
Proof.
  intros IO G HR HQ. unfold okm, make_exclude_path_unordered, excludes, good_path in *. destruct (file_listing o).
  - destruct G as (f & E & A & _). rewrite IO in E. unfold mask_list. rewrite E. cbn [bind]. destruct (A q HQ) as (b & B).
    exists (MFile f), b. split; [reflexivity|]. cbn [is_covered as_string]. rewrite display_abs. split; [exact B|]. split.
    + intros ->. exists f. auto.
    + intros (f' & E' & B'). congruence.
  - rewrite IO in G. destruct (glob_exp o).
    + destruct G as [G _]. rewrite (plus_ok root (text o) HR G). cbn [bind]. fold (target root o). rewrite display_abs.
      destruct (simple_ok (string_of (target root o)) o (SPath (Path q false false))) as (b & E & P). cbn [as_string] in P. rewrite display_abs in P.
      exists (simple_mask L (string_of (target root o)) (case_sensit o)), b. split; [reflexivity|]. split; [exact E|]. rewrite P. intuition discriminate.
    + destruct G as (f & E & _). unfold regular_mask. rewrite display_abs, E. exists (MLeaf f), (f (string_of q)). split; [reflexivity|]. split; [reflexivity|].
      split; [eauto|]. intros (f' & E' & M). congruence.
Qed.

Lemma up_split s u v : map (up L) s = u ++ SLASH :: v -> exists u' v', s = u' ++ SLASH :: v' /\ map (up L) u' = u.
Proof.
  intro H. apply map_eq_app in H. destruct H as (u' & w & -> & E1 & E2). destruct w as [|c v']; [discriminate|].
  injection E2 as E2 _. apply (proj1 (proj1 HU c)) in E2. subst c. eauto.
Qed.

Lemma exclude_ordered_ok root o q : included o = false -> good_path L true root o -> Forall proper root -> Forall proper q ->
  okm (SPath (Path q false false)) (make_exclude_path_ordered L (Path root false false)) (fun o => excludes L true root o q) o.
Proof.
  intros IO G HR HQ. unfold okm, make_exclude_path_ordered, excludes, good_path in *. destruct (file_listing o).
  - destruct G as (f & E & A & _). rewrite IO in E. unfold mask_list. rewrite E. cbn [bind]. destruct (A q HQ) as (b & B).
    exists (MFile f), b. split; [reflexivity|]. cbn [is_covered as_string]. rewrite display_abs. split; [exact B|]. split.
    + intros ->. exists f. auto.
    + intros (f' & E' & B'). congruence.
  - rewrite IO in G. destruct (glob_exp o).
    + destruct G as [G GL]. specialize (GL eq_refl). rewrite (plus_ok root (text o) HR G). cbn [bind]. fold (target root o). rewrite display_abs.
      set (g := string_of (target root o)) in *. set (x := SPath (Path q false false)).
      destruct (simple_ok g o x) as (b1 & E1 & P1). destruct (simple_ok (g ++ [47; 42]%N) o x) as (b2 & E2 & P2).
      change (as_string x) with (string_of q) in P1, P2.
      assert (P2' : b2 = true <-> exists u v, string_of q = u ++ SLASH :: v /\ glob_matches L o g u).
      { rewrite P2. unfold glob_matches. destruct (case_sensit o).
        - apply GL.
        - rewrite map_app. cbn [map]. change 47%N with SLASH. rewrite (proj2 (proj1 HU SLASH) eq_refl), (proj2 HU). rewrite (GL (map (up L) (string_of q))). split.
          + intros (u & v & E & M). apply up_split in E. destruct E as (u' & v' & E & Eu). exists u', v'. split; [exact E|]. congruence.
          + intros (u & v & -> & M). exists (map (up L) u), (map (up L) v). split; [|exact M]. rewrite map_app. cbn [map]. rewrite (proj2 (proj1 HU SLASH) eq_refl). reflexivity. }
      exists (MOr [simple_mask L g (case_sensit o); simple_mask L (g ++ [47; 42]%N) (case_sensit o)]), (b1 || b2).
      split; [reflexivity|]. split.
      * rewrite cov_or. cbn [any_cov]. rewrite E1. cbn [bind]. destruct b1; [reflexivity|]. rewrite E2. destruct b2; reflexivity.
      * rewrite orb_true_iff, P1, P2'. intuition.
    + destruct G as (f & E & _). unfold regular_mask. rewrite display_abs, E. exists (MLeaf f), (f (string_of q)). split; [reflexivity|]. split; [reflexivity|].
      split; [eauto|]. intros (f' & E' & M). congruence.
Qed.

(** ** Including options take what leads to what they take *)
Lemma string_app p r : r <> [] -> exists v, string_of (p ++ r) = string_of p ++ SLASH :: v \/ (p = [] /\ string_of (p ++ r) = SLASH :: v).
Proof.
  intro H. destruct p as [|w p]; [exists (join r); right; auto|]. exists (join r). left. unfold string_of.
  rewrite join_app by (auto; discriminate). reflexivity.
Qed.
Lemma includes_up ordered root o p r : included o = true -> good_path L ordered root o -> Forall proper (p ++ r) -> includes L root o (p ++ r) -> includes L root o p.
Proof.
  intros IO G HQ. unfold includes, good_path in *. destruct (file_listing o).
  - destruct G as (f & E & _ & C). rewrite IO in E. intros (f' & E' & M). assert (f' = f) by congruence. subst f'. exists f. split; [exact E|]. eapply C; eauto.
  - clear G HQ. unfold leads_to. destruct (case_sensit o); intros [(t & H)|(t & H)].
    + left. exists (r ++ t). rewrite app_assoc. exact H.
    + apply app_eq_app in H. destruct H as (l & [[-> ->]|[-> ->]]); [right|left]; eexists; reflexivity.
    + left. rewrite map_app in H. eexists. rewrite app_assoc. exact H.
    + rewrite map_app in H. apply app_eq_app in H. destruct H as (l & [[H1 H2]|[H1 H2]]); [right|left]; eexists; eassumption.
Qed.
(** ** In ordered mode excluding options exclude what is below, but for listings *)
Lemma excludes_down root o p r : included o = false -> file_listing o = false -> p <> [] -> Forall proper r -> good_path L true root o -> excludes L true root o p -> excludes L true root o (p ++ r).
Proof.
  intros IO FL NP PR G. unfold excludes, good_path in *. rewrite FL, IO in *. destruct r as [|w r]; [rewrite app_nil_r; auto|].
  assert (E : string_of (p ++ w :: r) = string_of p ++ SLASH :: join (w :: r)).
  { unfold string_of. rewrite join_app by (auto; discriminate). reflexivity. }
  set (v := join (w :: r)) in *. assert (NV : v <> []).
  { unfold v. inversion PR as [|? ? [(Nw & _) _] _]; subst. destruct w; [congruence|]. cbn [join]. destruct r; discriminate. }
  rewrite E. destruct (glob_exp o).
  - intros [M|(_ & u & v' & Eq & M)]; right; (split; [reflexivity|]).
    + eauto.
    + exists u, (v' ++ SLASH :: v). split; [|exact M]. rewrite Eq, <- app_assoc. reflexivity.
  - destruct G as (f & Ef & C). intros (f' & E' & M). assert (f' = f) by congruence. subst f'. exists f. split; [exact Ef|]. apply C; auto.
Qed.
End option.

(** ** Walking *)
Lemma walked_ok sub : forall q at_, (forall k, 1 <= k <= length q -> exists b, is_covered sub (SPath (Path (at_ ++ firstn k q) false false)) = Ok b) ->
  exists b, walked sub at_ q = Ok b /\ (b = true <-> forall k, 1 <= k <= length q -> is_covered sub (SPath (Path (at_ ++ firstn k q) false false)) = Ok true).
Proof.
  induction q as [|n q IH]; intros at_ H; cbn [walked].
  - exists true. split; [reflexivity|]. split; [|reflexivity]. cbn [length]. intros _ k Hk. lia.
  - destruct (H 1) as (b & E); [cbn [length]; lia|]. cbn [firstn] in E. change (n :: firstn 0 q) with [n] in E. rewrite E. cbn [bind]. destruct b.
    + destruct (IH (at_ ++ [n])) as (c & W & P).
      { intros k Hk. specialize (H (S k)). cbn [length firstn] in H. rewrite <- app_assoc. apply H. lia. }
      exists c. split; [exact W|]. rewrite P. split; intros Q k Hk.
      * destruct k as [|[|k]]; [lia|exact E|]. specialize (Q (S k)). rewrite <- app_assoc in Q. apply Q. cbn [length] in Hk. lia.
      * specialize (Q (S k)). cbn [length firstn] in Q. rewrite <- app_assoc. apply Q. lia.
    + exists false. split; [reflexivity|]. split; [discriminate|]. intro Q. specialize (Q 1). cbn [length firstn] in Q. rewrite E in Q. discriminate Q. lia.
Qed.
