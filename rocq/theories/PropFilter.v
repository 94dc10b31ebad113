(** * PropFilter: C57, what the selection options take

    For every command line, every file expression library and every path: what dar walks through
    and takes is what the manual (dar.1, "File selection in brief") says of -X -I -P -g -] -[ -am
    -an -acase -ag -ar, for names, paths, Extended Attributes, compression, hooks and signatures.
    The words used are defined in FilterSpec. *)
From Coq Require Import List.
From Verif Require Import Base PathModel PropPath MaskModel PropMask FilterModel FilterSpec FilterProof FilterProof2.
Local Open Scope nat_scope.

(** ** How the options are recorded *)
Definition of_kind (k : kind) (r : rec) : list pre_mask :=
  match k with KName => names r | KPath => paths r | KEa => eas r | KCompr => comprs r | KHook => hooks r | KDelta => deltas r end.
(** what an option gives for a kind of mask *)
Inductive gives : kind -> arg -> bool -> str -> bool -> Prop :=
| g_select k i s : gives k (Select k i s) i s false
| g_file i s : gives KPath (FromFile i s) i s true.
(** the mode set by the last option of its sort, true at first *)
Definition mode (set : bool -> arg) (l : list arg) (b : bool) : Prop :=
  (exists u v, l = u ++ set b :: v /\ forall b', ~ In (set b') v) \/ (b = true /\ forall b', ~ In (set b') l).
(** [l1] holds n options for that kind of mask *)
Inductive count (k : kind) : list arg -> nat -> Prop :=
| c_nil : count k [] 0
| c_in l n a i s f : gives k a i s f -> count k l n -> count k (l ++ [a]) (S n)
| c_out l n a : (forall i s f, ~ gives k a i s f) -> count k l n -> count k (l ++ [a]) n.

Lemma fold_snoc l a : read_args (l ++ [a]) = read_arg (read_args l) a.
Proof. unfold read_args. rewrite fold_left_app. reflexivity. Qed.
Lemma mode_snoc_other set l a b : (forall c, a <> set c) -> mode set l b -> mode set (l ++ [a]) b.
Proof.
  intros H [(u & v & -> & P)|[-> P]].
  - left. exists u, (v ++ [a]). rewrite <- app_assoc. split; [reflexivity|]. intros b' Q. apply in_app_iff in Q. destruct Q as [Q|[Q|[]]]; [exact (P _ Q)|exact (H _ Q)].
  - right. split; [reflexivity|]. intros b' Q. apply in_app_iff in Q. destruct Q as [Q|[Q|[]]]; [exact (P _ Q)|exact (H _ Q)].
Qed.
Lemma mode_snoc_set set l b : mode set (l ++ [set b]) b.
Proof. left. exists l, []. split; [reflexivity|]. intros b' []. Qed.
Lemma mode_case l : mode Case l (cur_case (read_args l)).
Proof.
  induction l as [|a l IH] using rev_ind; [right; split; [reflexivity|intros b' []]|]. rewrite fold_snoc.
  destruct a as [k i s|i s|b|b|]; cbn [read_arg cur_case push]; try (apply mode_snoc_other; [discriminate|exact IH]). apply mode_snoc_set.
Qed.
Lemma mode_glob l : mode Glob l (cur_glob (read_args l)).
Proof.
  induction l as [|a l IH] using rev_ind; [right; split; [reflexivity|intros b' []]|]. rewrite fold_snoc.
  destruct a as [k i s|i s|b|b|]; cbn [read_arg cur_glob push]; try (apply mode_snoc_other; [discriminate|exact IH]). apply mode_snoc_set.
Qed.
Lemma mode_unique set l b c : (forall x y, set x = set y -> x = y) -> mode set l b -> mode set l c -> b = c.
Proof.
  intros INJ [(u & v & -> & P)|[-> P]] [(u' & v' & E & Q)|[-> Q]]; auto.
  - apply app_eq_app in E. destruct E as (w & [[E1 E2]|[E1 E2]]).
    + destruct w as [|z w]; cbn in E2; injection E2 as E2 E3; [symmetry; apply INJ, E2|]. exfalso. apply (Q b). rewrite E3. apply in_app_iff. right. left. reflexivity.
    + destruct w as [|z w]; cbn in E2; injection E2 as E2 E3; [apply INJ, E2|]. exfalso. apply (P c). rewrite E3. apply in_app_iff. right. left. reflexivity.
  - exfalso. apply (Q b). apply in_app_iff. right. left. reflexivity.
  - exfalso. subst l. apply (P c). apply in_app_iff. right. left. reflexivity.
Qed.
Lemma gives_push k a i s f r : gives k a i s f ->
  of_kind k (read_arg r a) = of_kind k r ++ [{| included := i; text := s; case_sensit := cur_case r; file_listing := f; glob_exp := cur_glob r |}].
Proof. intros []; [destruct k0|]; reflexivity. Qed.
Lemma gives_not k a r : (forall i s f, ~ gives k a i s f) -> of_kind k (read_arg r a) = of_kind k r.
Proof.
  intro H. destruct a as [k' i s|i s|b|b|].
  - destruct k, k'; try reflexivity; exfalso; eapply H; constructor.
  - destruct k; try reflexivity. exfalso; eapply H; constructor.
  - destruct k; reflexivity.
  - destruct k; reflexivity.
  - destruct k; reflexivity.
Qed.
Lemma gives_dec k a : (exists i s f, gives k a i s f) \/ (forall i s f, ~ gives k a i s f).
Proof.
  destruct a as [k' i s|i s|b|b|]; [| |right; intros i s f H; inversion H..].
  - destruct k, k'; try (left; do 3 eexists; constructor); right; intros i' s' f' H; inversion H.
  - destruct k; try (left; do 3 eexists; constructor); right; intros i' s' f' H; inversion H.
Qed.
Lemma count_len k l : count k l (length (of_kind k (read_args l))).
Proof.
  induction l as [|a l IH] using rev_ind; [destruct k; constructor|]. rewrite fold_snoc. destruct (gives_dec k a) as [(i & s & f & G)|G].
  - rewrite (gives_push _ _ _ _ _ _ G), app_length, Nat.add_comm. econstructor; eauto.
  - rewrite (gives_not _ _ _ G). constructor; auto.
Qed.
Lemma count_unique k l n m : count k l n -> count k l m -> n = m.
Proof.
  intro H. revert m. induction H as [|l n a i s f G H IH|l n a G H IH]; intros m H'; inversion H' as [E|l' n' a' i' s' f' G' H1 E|l' n' a' G' H1 E]; auto;
    try (now destruct l); try (now destruct l'); apply app_inj_tail in E; destruct E as [-> ->]; auto; exfalso; [eapply G', G|eapply G, G'].
Qed.

(** The n-th mask of a kind is the n-th option given for it, with the case sensitivity and the sort
    of expressions in force where the option stands. *)
Theorem C57_options : forall l k n o,
  nth_error (of_kind k (read_args l)) n = Some o <->
  exists l1 a l2, l = l1 ++ a :: l2 /\ count k l1 n /\ gives k a (included o) (text o) (file_listing o) /\
    mode Case l1 (case_sensit o) /\ mode Glob l1 (glob_exp o).
Proof.
  induction l as [|a l IH] using rev_ind; intros k n o.
  - split; [destruct k, n; discriminate|]. intros (l1 & a & l2 & E & _). now destruct l1.
  - rewrite fold_snoc.
    assert (OLD : forall l1 a' l2, l ++ [a] = l1 ++ a' :: l2 -> (l2 = [] /\ l = l1 /\ a = a') \/ exists l3, l2 = l3 ++ [a] /\ l = l1 ++ a' :: l3) by (intros; apply split_snoc; assumption).
    destruct (gives_dec k a) as [(i & s & f & G)|G].
    + rewrite (gives_push _ _ _ _ _ _ G). set (o0 := {| included := i; text := s; case_sensit := _; file_listing := f; glob_exp := _ |}). split.
      * intro H. destruct (Nat.lt_ge_cases n (length (of_kind k (read_args l)))) as [Lt|Ge].
        -- rewrite nth_error_app1 in H by exact Lt. apply IH in H. destruct H as (l1 & a' & l2 & -> & R). exists l1, a', (l2 ++ [a]). rewrite <- app_assoc. auto.
        -- rewrite nth_error_app2 in H by exact Ge. destruct (n - length (of_kind k (read_args l))) as [|d] eqn:D; [|cbn in H; now destruct d].
           injection H as <-. exists l, a, []. split; [reflexivity|]. split; [replace n with (length (of_kind k (read_args l))) by lia; apply count_len|].
           split; [exact G|]. split; [apply mode_case|apply mode_glob].
      * intros (l1 & a' & l2 & E & C & G' & M1 & M2). destruct (OLD _ _ _ E) as [(-> & <- & <-)|(l3 & -> & ->)].
        -- pose proof (count_unique _ _ _ _ C (count_len k l)) as ->. rewrite nth_error_app2, Nat.sub_diag by reflexivity. cbn. f_equal.
           assert (Q1 : case_sensit o = cur_case (read_args l)) by (apply (mode_unique Case l); [congruence|exact M1|apply mode_case]).
           assert (Q2 : glob_exp o = cur_glob (read_args l)) by (apply (mode_unique Glob l); [congruence|exact M2|apply mode_glob]).
           assert (Q3 : i = included o /\ s = text o /\ f = file_listing o) by (inversion G; subst; inversion G'; subst; auto).
           destruct Q3 as (-> & -> & ->). unfold o0. rewrite <- Q1, <- Q2. destruct o; reflexivity.
        -- assert (H : nth_error (of_kind k (read_args (l1 ++ a' :: l3))) n = Some o) by (apply IH; eauto 8).
           rewrite nth_error_app1; [exact H|]. apply nth_error_Some. congruence.
    + rewrite (gives_not _ _ _ G), IH. split; intros (l1 & a' & l2 & E & C & G' & R).
      * exists l1, a', (l2 ++ [a]). rewrite E, <- app_assoc. auto.
      * destruct (OLD _ _ _ E) as [(-> & <- & <-)|(l3 & -> & ->)]; [exfalso; eapply G, G'|]. eauto 8.
Qed.
(** -am stands anywhere *)
Theorem C57_ordered_option : forall l, ordered_filters (read_args l) = true <-> In Ordered l.
Proof.
  induction l as [|a l IH] using rev_ind; [split; [discriminate|intros []]|]. rewrite fold_snoc, in_app_iff, <- IH.
  destruct a; cbn [read_arg push ordered_filters In]; (split; [auto|]); (intros [H|[H|[]]]; [exact H|discriminate]) || auto.
Qed.

(** ** Names: files, Extended Attributes, what to compress *)
Section names.
Variable L : library.
Lemma name_ok' root s l : Forall (good_name L) l ->
  Forall (ok (SStr s) (make_name L root) (make_name L root) (fun o => name_matches L o s) (fun o => name_matches L o s)) l.
Proof. intro H. eapply Forall_impl; [|exact H]. intros o G. unfold ok. destruct (included o); apply name_ok, G. Qed.
Definition by_names (r : rec) (l : list pre_mask) (s : str) : Prop :=
  if ordered_filters r then by_ordered_method (fun o => name_matches L o s) (fun o => name_matches L o s) l
  else by_normal_method (fun o => name_matches L o s) (fun o => name_matches L o s) l.
Lemma name_mask_ok r l root s : Forall (good_name L) l -> exists m b, name_mask L r l root = Ok m /\ is_covered m (SStr s) = Ok b /\ (b = true <-> by_names r l s).
Proof.
  intro H. unfold name_mask, by_names. destruct (ordered_filters r).
  - apply ordered_ok with (mki := make_name L root) (mke := make_name L root); [apply name_ok', H|reflexivity..].
  - apply unordered_ok with (mki := make_name L root) (mke := make_name L root); [apply name_ok', H|reflexivity..].
Qed.
End names.
Theorem C57_names : forall L r root s,
  (Forall (good_name L) (names r) -> exists m b, selection L r root = Ok m /\ is_covered m (SStr s) = Ok b /\ (b = true <-> by_names L r (names r) s)) /\
  (Forall (good_name L) (eas r) -> exists m b, ea_mask L r root = Ok m /\ is_covered m (SStr s) = Ok b /\ (b = true <-> by_names L r (eas r) s)) /\
  (Forall (good_name L) (comprs r) -> exists m b, compress_mask L r root = Ok m /\ is_covered m (SStr s) = Ok b /\ (b = true <-> by_names L r (comprs r) s)).
Proof. intros L r root s. repeat split; apply name_mask_ok. Qed.

(** ** Hooks and signatures *)
Definition hook_matches (L : library) (root q : list str) (o : pre_mask) : Prop :=
  if glob_exp o then glob_matches L o (string_of (target root o)) (string_of q)
  else exists f, rgx L (case_sensit o) (build_regex (string_of root) (text o)) = Some f /\ f (string_of q) = true.
Definition good_hook (L : library) (root : list str) (o : pre_mask) : Prop :=
  file_listing o = false /\ (if glob_exp o then good_text (text o) else rgx L (case_sensit o) (build_regex (string_of root) (text o)) <> None).
Definition by_hooks (L : library) (root q : list str) (r : rec) (l : list pre_mask) : Prop :=
  if ordered_filters r then by_ordered_method (hook_matches L root q) (hook_matches L root q) l
  else by_normal_method (hook_matches L root q) (hook_matches L root q) l.
Lemma hook_ok L root o q : good_hook L root o -> Forall proper root ->
  okm (SPath (Path q false false)) (make_exclude_path_unordered L (Path root false false)) (hook_matches L root q) o.
Proof.
  intros [FL G] HR. unfold okm, make_exclude_path_unordered, hook_matches. rewrite FL. destruct (glob_exp o).
  - rewrite (plus_ok root (text o) HR G). cbn [bind]. fold (target root o). rewrite display_abs.
    destruct (simple_ok L (string_of (target root o)) o (SPath (Path q false false))) as (b & E & P). cbn [as_string] in P. rewrite display_abs in P.
    exists (simple_mask L (string_of (target root o)) (case_sensit o)), b. auto.
  - unfold regular_mask. rewrite display_abs. destruct (rgx L (case_sensit o) (build_regex (string_of root) (text o))) as [f|]; [|congruence].
    exists (MLeaf f), (f (string_of q)). split; [reflexivity|]. split; [reflexivity|]. split; [eauto|]. intros (f' & E' & M). congruence.
Qed.
Lemma hook_ok' L root q l : Forall (good_hook L root) l -> Forall proper root ->
  Forall (ok (SPath (Path q false false)) (make_exclude_path_unordered L (Path root false false)) (make_exclude_path_unordered L (Path root false false)) (hook_matches L root q) (hook_matches L root q)) l.
Proof. intros H HR. eapply Forall_impl; [|exact H]. intros o G. unfold ok. destruct (included o); apply hook_ok; auto. Qed.
Theorem C57_hooks : forall L r root q, Forall proper root ->
  (Forall (good_hook L root) (hooks r) -> exists m b, hook_mask L r (Path root false false) = Ok m /\
     is_covered m (SPath (Path q false false)) = Ok b /\ (b = true <-> by_hooks L root q r (hooks r))) /\
  (Forall (good_hook L root) (deltas r) -> exists m b, delta_mask L r (Path root false false) = Ok m /\
     is_covered m (SPath (Path q false false)) = Ok b /\ (b = true <-> by_hooks L root q r (deltas r))).
Proof.
  intros L r root q HR. split; intro H; unfold hook_mask, delta_mask, by_hooks; destruct (ordered_filters r).
  all: try (apply ordered_ok with (mki := make_exclude_path_unordered L (Path root false false)) (mke := make_exclude_path_unordered L (Path root false false)); [apply hook_ok'; auto|reflexivity..]).
  all: apply unordered_ok with (mki := make_exclude_path_unordered L (Path root false false)) (mke := make_exclude_path_unordered L (Path root false false)); [apply hook_ok'; auto|reflexivity..].
Qed.

(** ** Paths *)
Section paths.
Variable L : library.
Hypothesis HU : good_up L.
Lemma paths_ok ordered root l q : Forall (good_path L ordered root) l -> Forall proper root -> Forall proper q ->
  Forall (ok (SPath (Path q false false)) (make_include_path L (Path root false false))
    ((if ordered then make_exclude_path_ordered else make_exclude_path_unordered) L (Path root false false)) (fun o => includes L root o q) (fun o => excludes L ordered root o q)) l.
Proof.
  intros H HR HQ. eapply Forall_impl; [|exact H]. intros o G. unfold ok. destruct (included o) eqn:IO.
  - eapply include_ok; eauto.
  - destruct ordered; [eapply exclude_ordered_ok; eauto|eapply exclude_unordered_ok; eauto].
Qed.
Definition by_paths (r : rec) (root q : list str) : Prop :=
  if ordered_filters r then by_ordered_method (fun o => includes L root o q) (fun o => excludes L true root o q) (paths r)
  else by_normal_method (fun o => includes L root o q) (fun o => excludes L false root o q) (paths r).
Lemma subtree_ok r root q : Forall (good_path L (ordered_filters r) root) (paths r) -> Forall proper root -> Forall proper q ->
  exists m b, subtree L r (Path root false false) = Ok m /\ is_covered m (SPath (Path q false false)) = Ok b /\ (b = true <-> by_paths r root q).
Proof.
  intros H HR HQ. pose proof (paths_ok _ _ _ q H HR HQ) as K. unfold subtree, by_paths. destruct (ordered_filters r).
  - eapply ordered_ok; [exact K|reflexivity..].
  - eapply unordered_ok; [exact K|reflexivity..].
Qed.
Lemma subtree_all r root : Forall (good_path L (ordered_filters r) root) (paths r) -> Forall proper root ->
  exists m, subtree L r (Path root false false) = Ok m /\ forall q, Forall proper q -> exists b, is_covered m (SPath (Path q false false)) = Ok b /\ (b = true <-> by_paths r root q).
Proof.
  intros H HR. destruct (subtree_ok r root [] H HR (Forall_nil _)) as (m & _ & E & _). exists m. split; [exact E|]. intros q HQ.
  destruct (subtree_ok r root q H HR HQ) as (m' & b & E' & R). exists b. assert (m' = m) by congruence. subst m'. exact R.
Qed.
Lemma firstn_pre {A} (q p s : list A) : q = p ++ s -> p = firstn (length p) q.
Proof. intros ->. rewrite firstn_app, Nat.sub_diag, firstn_all. cbn. rewrite app_nil_r. reflexivity. Qed.
Lemma walked_all r root q : Forall (good_path L (ordered_filters r) root) (paths r) -> Forall proper root -> Forall proper q ->
  exists m b, subtree L r (Path root false false) = Ok m /\ walked m root q = Ok b /\
    (b = true <-> forall p s, q = p ++ s -> p <> [] -> by_paths r root (root ++ p)).
Proof.
  intros H HR HQ. destruct (subtree_all r root H HR) as (m & E & C).
  assert (P : forall k, Forall proper (root ++ firstn k q)).
  { intro k. apply Forall_app. split; [exact HR|]. rewrite <- (firstn_skipn k q) in HQ. apply Forall_app in HQ. apply HQ. }
  destruct (walked_ok m q root) as (b & W & B).
  { intros k _. destruct (C _ (P k)) as (b & Cb & _). eauto. }
  exists m, b. split; [exact E|]. split; [exact W|]. rewrite B. split.
  - intros Q p s Eq Np. pose proof (firstn_pre _ _ _ Eq) as F. specialize (Q (length p)).
    destruct (C _ (P (length p))) as (c & Cc & K). rewrite <- F in *. apply K. assert (Ok c = Ok true) as X; [|congruence]. rewrite <- Cc. apply Q.
    subst q. rewrite app_length. destruct p; [congruence|]. cbn [length]. lia.
  - intros Q k Hk. destruct (C _ (P k)) as (c & Cc & K). rewrite Cc. f_equal. apply K. apply (Q _ (skipn k q)); [symmetry; apply firstn_skipn|].
    intro Z. apply (f_equal (@length _)) in Z. rewrite firstn_length in Z. cbn in Z. lia.
Qed.
End paths.

(** The normal method: an entry is walked to when no -P or -] excludes it nor a directory it is in,
    and one -g or -[ takes it, when there is one. *)
Theorem C57_normal_paths : forall L r root q, good_up L -> ordered_filters r = false ->
  Forall (good_path L false root) (paths r) -> Forall proper root -> Forall proper q -> q <> [] ->
  exists m b, subtree L r (Path root false false) = Ok m /\ walked m root q = Ok b /\
  (b = true <->
    (forall o, In o (paths r) -> included o = false -> forall p s, q = p ++ s -> p <> [] -> ~ excludes L false root o (root ++ p)) /\
    ((forall o, In o (paths r) -> included o = false) \/ (exists o, In o (paths r) /\ included o = true /\ includes L root o (root ++ q)))).
Proof.
  intros L r root q HU HO HG HR HQ NQ. destruct (walked_all L HU r root q) as (m & b & E & W & B); auto; [rewrite HO; exact HG|].
  exists m, b. split; [exact E|]. split; [exact W|]. rewrite B. unfold by_paths. rewrite HO. unfold by_normal_method. split.
  - intro H. split.
    + intros o A I p s Eq Np. destruct (H p s Eq Np) as [_ X]. apply X; auto.
    + destruct (H q [] (eq_sym (app_nil_r q)) NQ) as [X _]. exact X.
  - intros [X Y] p s Eq Np. split.
    + destruct Y as [Y|(o & A & I & M)]; [auto|]. right. exists o. split; [exact A|]. split; [exact I|]. rewrite Forall_forall in HG.
      subst q. rewrite app_assoc in M. eapply includes_up; [exact I|exact (HG o A)| |exact M]. rewrite <- app_assoc. apply Forall_app. auto.
    + intros o A I. eapply X; eauto.
Qed.

(** The ordered method: the last option that matches decides, for the entry and each directory it is in. *)
Theorem C57_ordered_paths : forall L r root q, good_up L -> ordered_filters r = true ->
  Forall (good_path L true root) (paths r) -> Forall proper root -> Forall proper q ->
  exists m b, subtree L r (Path root false false) = Ok m /\ walked m root q = Ok b /\
  (b = true <-> forall p s, q = p ++ s -> p <> [] ->
    by_ordered_method (fun o => includes L root o (root ++ p)) (fun o => excludes L true root o (root ++ p)) (paths r)).
Proof.
  intros L r root q HU HO HG HR HQ. destruct (walked_all L HU r root q) as (m & b & E & W & B); auto; [rewrite HO; exact HG|].
  exists m, b. split; [exact E|]. split; [exact W|]. rewrite B. unfold by_paths. rewrite HO. reflexivity.
Qed.
(** Without -] what is decided for the entry is enough: no directory it is in hides it. *)
Theorem C57_ordered_no_pruning : forall L r root q, good_up L -> ordered_filters r = true ->
  Forall (good_path L true root) (paths r) -> (forall o, In o (paths r) -> included o = false -> file_listing o = false) ->
  Forall proper root -> Forall proper q -> q <> [] ->
  exists m b, subtree L r (Path root false false) = Ok m /\ walked m root q = Ok b /\
  (b = true <-> by_ordered_method (fun o => includes L root o (root ++ q)) (fun o => excludes L true root o (root ++ q)) (paths r)).
Proof.
  intros L r root q HU HO HG HF HR HQ NQ. destruct (C57_ordered_paths L r root q HU HO HG HR HQ) as (m & b & E & W & B).
  exists m, b. split; [exact E|]. split; [exact W|]. rewrite B. split.
  - intro H. apply (H q []); [symmetry; apply app_nil_r|exact NQ].
  - intros H p s Eq Np. rewrite Forall_forall in HG. subst q. rewrite app_assoc in H.
    assert (PP : Forall proper ((root ++ p) ++ s)) by (rewrite <- app_assoc; apply Forall_app; auto).
    assert (NP : root ++ p <> []) by (intro Z; apply app_eq_nil in Z; tauto).
    assert (DOWN : forall o, In o (paths r) -> included o = false -> ~ excludes L true root o ((root ++ p) ++ s) -> ~ excludes L true root o (root ++ p)).
    { intros o A I X Y. apply X. apply excludes_down; auto. apply Forall_app in HQ. apply HQ. }
    destruct H as [(l1 & o & l2 & El & I & M & X)|(X & K)].
    + left. exists l1, o, l2. assert (A : In o (paths r)) by (rewrite El; apply in_app_iff; right; left; reflexivity).
      split; [exact El|]. split; [exact I|]. split.
      * eapply includes_up; [exact I|exact (HG o A)|exact PP|exact M].
      * intros o' A' I'. apply DOWN; auto. rewrite El. apply in_app_iff. right. right. exact A'.
    + right. split; [|exact K]. intros o A I. apply DOWN; auto.
Qed.

(** An entry is taken when it is walked to and, directories aside, its name is covered. *)
Theorem C57_taken : forall L r root q n d, good_up L -> Forall (good_path L (ordered_filters r) root) (paths r) -> Forall (good_name L) (names r) ->
  Forall proper root -> Forall proper (q ++ [n]) ->
  exists sub sel w b, subtree L r (Path root false false) = Ok sub /\ selection L r (Path root false false) = Ok sel /\
    walked sub root (q ++ [n]) = Ok w /\ taken sub sel root (q ++ [n]) d = Ok b /\
    (b = true <-> w = true /\ (d = true \/ by_names L r (names r) n)).
Proof.
  intros L r root q n d HU HG HN HR HQ. destruct (walked_all L HU r root (q ++ [n]) HG HR HQ) as (m & w & E & W & _).
  destruct (proj1 (C57_names L r (Path root false false) n) HN) as (sel & c & ES & CS & PS).
  exists m, sel, w. unfold taken. rewrite W. cbn [bind]. rewrite last_last, CS.
  destruct w; [destruct d; [exists true|exists c]|exists false]; repeat (split; [solve [auto]|]); rewrite <- ?PS; intuition discriminate.
Qed.

(** A path without wildcard, given to -P alone, is excluded with all that is below and nothing else, in both modes. *)
Theorem C57_exclude_literal : forall L r root q o, good_up L -> paths r = [o] -> included o = false -> file_listing o = false ->
  glob_exp o = true -> case_sensit o = true -> good_path L (ordered_filters r) root o ->
  (forall s, fnm L (string_of (target root o)) s = true <-> s = string_of (target root o)) ->
  Forall proper root -> Forall proper q -> target root o <> root ->
  exists m b, subtree L r (Path root false false) = Ok m /\ walked m root q = Ok b /\
    (b = true <-> ~ exists s, root ++ q = target root o ++ s).
Proof.
  intros L r root q o HU EP IO FL GE CS G LIT HR HQ NT.
  assert (HT : Forall proper (target root o)). { unfold good_path in G. rewrite FL, IO, GE in G. apply target_proper; [exact HR|apply G]. }
  assert (INJ : forall a b, Forall proper a -> Forall proper b -> string_of a = string_of b -> a = b).
  { intros a b Ha Hb E. injection E as E. rewrite <- (words_join a), <- (words_join b), E by (apply proper_comp; auto). reflexivity. }
  assert (TOP : ~ exists s, root ++ [] = target root o ++ s).
  { intros (s & Z). rewrite app_nil_r in Z. unfold target in *. rewrite <- app_assoc in Z.
    apply (f_equal (@length _)) in Z. rewrite !app_length in Z. apply NT. destruct (filter _ _); [apply app_nil_r|cbn in Z; lia]. }
  assert (HG : Forall (good_path L (ordered_filters r) root) (paths r)) by (rewrite EP; auto).
  destruct q as [|n q0].
  { destruct (walked_all L HU r root [] HG HR (Forall_nil _)) as (m & b & E & W & B). exists m, b. split; [exact E|]. split; [exact W|].
    injection W as <-. split; [intros _; exact TOP|reflexivity]. }
  set (q := n :: q0) in *. assert (NQ : q <> []) by discriminate.
  destruct (ordered_filters r) eqn:OR.
  - destruct (C57_ordered_no_pruning L r root q HU OR) as (m & b & E & W & B); auto; [rewrite EP; intros o' [<-|[]] _; exact FL|].
    exists m, b. split; [exact E|]. split; [exact W|]. rewrite B, EP.
    rewrite (chosen_exc1 (fun o => includes L root o (root ++ q)) (fun o => excludes L true root o (root ++ q)) o IO).
    assert (HP : Forall proper (root ++ q)) by (apply Forall_app; auto).
    assert (K : excludes L true root o (root ++ q) <-> exists s, root ++ q = target root o ++ s); [|rewrite K; reflexivity].
    unfold excludes, glob_matches. rewrite FL, GE, CS, LIT. split.
    + intros [Z|(_ & u & v & Z & M)].
      * exists []. rewrite app_nil_r. apply INJ; auto.
      * rewrite LIT in M. subst u. unfold string_of in Z. injection Z as Z. exists (words v).
        rewrite <- (words_join (root ++ q)), Z, words_app, words_join by (apply proper_comp; auto). reflexivity.
    + intros (s & Z). rewrite Z. destruct s as [|w s]; [left; rewrite app_nil_r; reflexivity|]. right. split; [reflexivity|].
      destruct (string_app (target root o) (w :: s)) as (v & [Q|[Q _]]); [discriminate| |].
      * exists (string_of (target root o)), v. split; [exact Q|]. apply LIT. reflexivity.
      * exfalso. unfold target in NT, Q. apply app_eq_nil in Q. destruct Q as [-> Q]. rewrite Q in NT. apply NT. reflexivity.
  - destruct (C57_normal_paths L r root q HU OR HG HR HQ NQ) as (m & b & E & W & B). exists m, b. split; [exact E|]. split; [exact W|]. rewrite B, EP.
    assert (X : forall p, Forall proper p -> excludes L false root o p <-> p = target root o).
    { intros p Hp. unfold excludes, glob_matches. rewrite FL, GE, CS, LIT. split; [|intros ->; auto]. intros [Z|[Z _]]; [apply INJ; auto|discriminate]. }
    split.
    + intros [H _] (s & Z). unfold target in Z, NT. set (t := filter _ _) in *. rewrite <- app_assoc in Z. apply app_inv_head in Z.
      apply (H o (or_introl eq_refl) IO t s Z); [intros ->; apply NT, app_nil_r|]. apply X; [|reflexivity]. exact HT.
    + intro H. split.
      * intros o' [<-|[]] _ p s Z Np Y. apply X in Y; [|rewrite Z in HQ; apply Forall_app in HQ; apply Forall_app; split; [exact HR|apply HQ]].
        apply H. exists s. rewrite Z, app_assoc, Y. reflexivity.
      * left. intros o' [<-|[]]. exact IO.
Qed.

(** A path given to -g alone: taken are what leads to it and what is below it. *)
Theorem C57_include_path : forall L r root q o, good_up L -> paths r = [o] -> included o = true -> file_listing o = false ->
  case_sensit o = true -> good_text (text o) -> Forall proper root -> Forall proper q -> q <> [] ->
  exists m b, subtree L r (Path root false false) = Ok m /\ walked m root q = Ok b /\
    (b = true <-> exists s, root ++ q = target root o ++ s \/ target root o = (root ++ q) ++ s).
Proof.
  intros L r root q o HU EP IO FL CS G HR HQ NQ.
  assert (GP : forall d, Forall (good_path L d root) (paths r)) by (intro d; rewrite EP; constructor; [unfold good_path; rewrite FL, IO; exact G|constructor]).
  assert (I : includes L root o (root ++ q) <-> exists s, root ++ q = target root o ++ s \/ target root o = (root ++ q) ++ s).
  { unfold includes, leads_to. rewrite FL, CS. split; [intros [(s & Z)|(s & Z)]|intros (s & [Z|Z])]; eauto. }
  destruct (ordered_filters r) eqn:OR.
  - destruct (C57_ordered_no_pruning L r root q HU OR (GP _)) as (m & b & E & W & B); auto; [rewrite EP; intros o' [<-|[]]; congruence|].
    exists m, b. split; [exact E|]. split; [exact W|]. rewrite B, EP, <- I.
    apply (chosen_inc1 (fun o => includes L root o (root ++ q)) (fun o => excludes L true root o (root ++ q)) o IO).
  - destruct (C57_normal_paths L r root q HU OR (GP _) HR HQ NQ) as (m & b & E & W & B). exists m, b. split; [exact E|]. split; [exact W|]. rewrite B, EP, <- I. split.
    + intros [_ [Z|(o' & [<-|[]] & _ & M)]]; [|exact M]. specialize (Z o (or_introl eq_refl)). congruence.
    + intro M. split; [intros o' [<-|[]] Z; congruence|]. right. exists o. cbn. auto.
Qed.

(** ** The logic of the manual for the ordered method: "<prev_mask> or <mask>", "<prev_mask> and not <mask>" *)
Theorem C57_ordered_step : forall inc exc l o, l <> [] ->
  (by_ordered_method inc exc (l ++ [o]) <->
   if included o then by_ordered_method inc exc l \/ inc o else by_ordered_method inc exc l /\ ~ exc o).
Proof. intros inc exc l o NL. destruct (included o) eqn:I; [apply chosen_inc|apply chosen_exc]; auto. Qed.
Theorem C57_ordered_first : forall inc exc o, by_ordered_method inc exc [] /\
  (by_ordered_method inc exc [o] <-> if included o then inc o else ~ exc o).
Proof.
  intros inc exc o. split; [right; split; [intros o' []|auto]|]. destruct (included o) eqn:I; [apply chosen_inc1|apply chosen_exc1]; auto.
Qed.

(** ** A library to try the theorems on: globs with '*' only, regular expressions that are plain
    beginnings, listing files holding one line, their own name *)
Fixpoint gm (g s : str) : bool :=
  match g with
  | [] => match s with [] => true | _ => false end
  | c :: g' => if N.eqb c 42 then (fix any (s : str) : bool := gm g' s || match s with [] => false | _ :: r => any r end) s
    else match s with [] => false | d :: r => N.eqb c d && gm g' r end
  end.
Definition ascii_up (c : N) : N := if ((97 <=? c) && (c <=? 122))%N then (c - 32)%N else c.
Definition toy : library := {| up := ascii_up; fnm := gm; rgx := fun _ e => match e with [] => None | _ => Some (fun s => str_eqb (firstn (length e) s) e) end;
  lst := fun f _ prefix inc => let p := dirs prefix ++ [f] in
    Ok (fun s => Ok (str_eqb s (string_of p) || inc && existsb (fun k => str_eqb s (string_of (firstn k p))) (seq 0 (length p)))) |}.

Lemma gm_star g s : gm (42%N :: g) s = true <-> exists u v, s = u ++ v /\ gm g v = true.
Proof.
  cbn [gm N.eqb Pos.eqb]. induction s as [|c s IH].
  - rewrite orb_false_r. split; [intro H; exists [], []; auto|]. intros (u & v & E & M). symmetry in E. apply app_eq_nil in E. destruct E as [-> ->]. exact M.
  - rewrite orb_true_iff, IH. split.
    + intros [M|(u & v & -> & M)]; [exists [], (c :: s); auto|exists (c :: u), v; auto].
    + intros (u & v & E & M). destruct u as [|d u]; cbn in E; [left; subst; exact M|]. injection E as _ E. right. eauto.
Qed.
Lemma gm_other c g s : c <> 42%N -> (gm (c :: g) s = true <-> exists r, s = c :: r /\ gm g r = true).
Proof.
  intro H. cbn [gm]. destruct (N.eqb_spec c 42) as [|_]; [congruence|]. destruct s as [|d s]; [split; [discriminate|intros (r & E & _); discriminate]|].
  rewrite andb_true_iff, N.eqb_eq. split; [intros [<- M]; eauto|]. intros (r & E & M). injection E as -> ->. auto.
Qed.
Lemma gm_law g : glob_law toy g.
Proof.
  unfold glob_law. change (fnm toy) with gm. induction g as [|c g IH]; intro s.
  - change ([] ++ [47; 42]%N) with [47; 42]%N. rewrite gm_other by discriminate. split.
    + intros (r & -> & _). exists [], r. auto.
    + intros (u & v & -> & M). destruct u; [|discriminate]. exists v. split; [reflexivity|]. apply gm_star. exists v, []. rewrite app_nil_r. auto.
  - cbn [app]. destruct (N.eqb_spec c 42) as [->|Nc].
    + rewrite gm_star. split.
      * intros (u & v & -> & M). apply IH in M. destruct M as (a & b & -> & M). exists (u ++ a), b. rewrite app_assoc. split; [reflexivity|]. apply gm_star. eauto.
      * intros (u & v & -> & M). apply gm_star in M. destruct M as (a & b & -> & M). exists a, (b ++ SLASH :: v). rewrite <- app_assoc. split; [reflexivity|]. apply IH. eauto.
    + rewrite gm_other by exact Nc. split.
      * intros (r & -> & M). apply IH in M. destruct M as (u & v & -> & M). exists (c :: u), v. split; [reflexivity|]. apply gm_other; eauto.
      * intros (u & v & -> & M). apply gm_other in M; [|exact Nc]. destruct M as (r & -> & M). exists (r ++ SLASH :: v). split; [reflexivity|]. apply IH. eauto.
Qed.
Lemma gm_literal g : ~ In 42%N g -> forall s, gm g s = true <-> s = g.
Proof.
  induction g as [|c g IH]; intros H s.
  - cbn. destruct s; split; congruence.
  - rewrite gm_other by (intros ->; apply H; left; reflexivity). split.
    + intros (r & -> & M). f_equal. apply IH; [intro Q; apply H; right; exact Q|exact M].
    + intros ->. exists g. split; [reflexivity|]. apply IH; [intro Q; apply H; right; exact Q|reflexivity].
Qed.
Lemma toy_up : good_up toy.
Proof.
  split; [|reflexivity]. intro c. cbn [up toy]. unfold ascii_up, SLASH. destruct (97 <=? c)%N eqn:A, (c <=? 122)%N eqn:B; cbn [andb]; try reflexivity.
  apply N.leb_le in A, B. split; intro; lia.
Qed.
Lemma toy_listing root o : Forall proper root -> proper (text o) -> good_listing toy root o.
Proof.
  intros HR HT. eexists. split; [reflexivity|]. cbn [dirs]. set (p := root ++ [text o]).
  assert (HP : Forall proper p) by (apply Forall_app; auto).
  split; [eauto|]. intros -> a r Hq H. cbn [andb] in *. f_equal. injection H as H.
  assert (INJ : forall a b, Forall proper a -> Forall proper b -> str_eqb (string_of a) (string_of b) = true -> a = b).
  { intros x y Hx Hy E. destruct (str_eqb_spec (string_of x) (string_of y)) as [E'|]; [|discriminate]. injection E' as E'.
    rewrite <- (words_join x), <- (words_join y), E' by (apply proper_comp; auto). reflexivity. }
  assert (FP : forall k, Forall proper (firstn k p)) by (intro k; rewrite <- (firstn_skipn k p) in HP; apply Forall_app in HP; apply HP).
  assert (Z : exists k, a ++ r = firstn k p).
  { apply orb_true_iff in H. destruct H as [H|H].
    - exists (length p). rewrite firstn_all. apply INJ; auto.
    - apply existsb_exists in H. destruct H as (k & _ & H). exists k. apply INJ; auto. }
  destruct Z as (k & Z). assert (Q : a = firstn (length a) p).
  { assert (A : a = firstn (length a) (a ++ r)) by (rewrite firstn_app, Nat.sub_diag, firstn_all; cbn; rewrite app_nil_r; reflexivity).
    rewrite A at 1. rewrite Z, firstn_firstn. f_equal.
    apply (f_equal (@length _)) in Z. rewrite app_length, firstn_length in Z. lia. }
  apply orb_true_iff. destruct (Nat.lt_ge_cases (length a) (length p)) as [Lt|Ge].
  - right. apply existsb_exists. exists (length a). split; [apply in_seq; lia|]. rewrite <- Q. apply str_eqb_refl.
  - left. rewrite firstn_all2 in Q by exact Ge. rewrite <- Q. apply str_eqb_refl.
Qed.

(** [-R /r -an -X '*.o' -acase -P a -g b -I k.c] and with [-am] *)
Definition line1 : list arg :=
  [Case false; Select KName false [42; 46; 79]%N; Case true; Select KPath false [97]%N; Select KPath true [98]%N; Select KName true [107; 46; 99]%N].
Definition R : list str := [[114]%N].
Definition na : str := [97]%N. Definition nb : str := [98]%N. Definition nc : str := [99]%N. Definition nko : str := [107; 46; 111]%N.
Definition nkc : str := [107; 46; 99]%N.
Lemma proper_R : Forall proper R.
Proof. repeat constructor; try discriminate. intros [H|[]]. discriminate. Qed.
Example line1_good : forall d, Forall (good_path toy d R) (paths (read_args line1)) /\ Forall (good_name toy) (names (read_args line1)) /\
  paths (read_args line1) <> [] /\ names (read_args line1) <> [].
Proof.
  assert (U : forall c, ~ url_like [c]) by (intros c (a & b & E & _); destruct a as [|? [|? ?]]; discriminate).
  intro d. split; [|split; [|split; discriminate]].
  - constructor; [|constructor; [|constructor]].
    + split; [|intro; apply gm_law]. split; [discriminate|]. split; [discriminate|]. split; [apply U|]. repeat constructor; discriminate.
    + split; [discriminate|]. split; [discriminate|]. split; [apply U|]. repeat constructor; discriminate.
  - repeat constructor; discriminate.
Qed.
(** b/k.c is taken; b/k.o is not because of -X; nothing of a is, nor is c *)
Example line1_taken : exists sub sel, subtree toy (read_args line1) (Path R false false) = Ok sub /\ selection toy (read_args line1) (Path R false false) = Ok sel /\
  taken sub sel R [nb; nkc] false = Ok true /\ taken sub sel R [nb; nko] false = Ok false /\ taken sub sel R [na; nkc] false = Ok false /\
  taken sub sel R [nc] true = Ok false /\ taken sub sel R [nb] true = Ok true.
Proof. do 2 eexists. split; [reflexivity|]. split; [reflexivity|]. repeat split; vm_compute; reflexivity. Qed.
(** with -am, c is taken: the first option excludes; and b/k.o is not *)
Example line1_ordered : exists sub sel, subtree toy (read_args (Ordered :: line1)) (Path R false false) = Ok sub /\ selection toy (read_args (Ordered :: line1)) (Path R false false) = Ok sel /\
  taken sub sel R [nc; nkc] false = Ok true /\ taken sub sel R [nb; nko] false = Ok false /\ taken sub sel R [na; nkc] false = Ok false.
Proof. do 2 eexists. split; [reflexivity|]. split; [reflexivity|]. repeat split; vm_compute; reflexivity. Qed.
(** the hypotheses of C57_exclude_literal *)
Example literal_good : forall d, good_path toy d R {| included := false; text := na; case_sensit := true; file_listing := false; glob_exp := true |} /\
  (forall s, fnm toy (string_of (R ++ [na])) s = true <-> s = string_of (R ++ [na])).
Proof.
  intro d. split.
  - split; [|intro; apply gm_law]. repeat split; try discriminate; [|repeat constructor; discriminate].
    intros (a & b & E & _); destruct a as [|? [|? ?]]; discriminate.
  - apply gm_literal. cbn. intuition discriminate.
Qed.
Example listing_good : forall d i, good_path toy d R {| included := i; text := na; case_sensit := true; file_listing := true; glob_exp := true |}.
Proof. intros d i. apply toy_listing; [apply proper_R|]. repeat split; try discriminate. intros [H|[]]. discriminate. Qed.
Example hook_good : good_hook toy R {| included := true; text := na; case_sensit := false; file_listing := false; glob_exp := true |} /\
  good_hook toy R {| included := false; text := na; case_sensit := true; file_listing := false; glob_exp := false |}.
Proof.
  repeat split; try discriminate; [|repeat constructor; discriminate]. intros (a & b & E & _); destruct a as [|? [|? ?]]; discriminate.
Qed.

(** ** The manual says of -]: "If a directory is listed in the file, all its contents is excluded",
    and that it acts the same way as -P.  It does not in the ordered method, once a later -g leads
    through the directory: with [-am -] f -g a/b] where f lists a, a/c is taken; with
    [-am -P a -g a/b] it is not. *)
Theorem C57_exclude_file_ordered_refuted : exists sub sub',
  subtree toy (read_args [Ordered; FromFile false na; Select KPath true [97; 47; 98]%N]) (Path R false false) = Ok sub /\
  subtree toy (read_args [Ordered; Select KPath false na; Select KPath true [97; 47; 98]%N]) (Path R false false) = Ok sub' /\
  walked sub R [na; nc] = Ok true /\ walked sub' R [na; nc] = Ok false /\ walked sub R [na; nb] = Ok true /\ walked sub' R [na; nb] = Ok true.
Proof. do 2 eexists. split; [reflexivity|]. split; [reflexivity|]. repeat split; vm_compute; reflexivity. Qed.
(** without the later -g, or in the normal method, what is below a listed directory is not walked to *)
Theorem C57_exclude_file_pruned : forall L r root q o s, good_up L -> ordered_filters r = false ->
  Forall (good_path L false root) (paths r) -> In o (paths r) -> included o = false -> file_listing o = true ->
  Forall proper root -> Forall proper (q ++ s) -> q <> [] -> listed L root false o (root ++ q) ->
  exists m, subtree L r (Path root false false) = Ok m /\ walked m root (q ++ s) = Ok false.
Proof.
  intros L r root q o s HU HO HG A I FL HR HQ NQ LI. destruct (C57_normal_paths L r root (q ++ s) HU HO HG HR HQ) as (m & b & E & W & B).
  { intro Z. apply app_eq_nil in Z. tauto. }
  exists m. split; [exact E|]. destruct b; [exfalso|exact W]. destruct (proj1 B eq_refl) as [X _]. apply (X o A I q s eq_refl NQ). unfold excludes. rewrite FL. exact LI.
Qed.

Print Assumptions C57_options. Print Assumptions C57_ordered_option. Print Assumptions C57_names. Print Assumptions C57_hooks.
Print Assumptions C57_normal_paths. Print Assumptions C57_ordered_paths. Print Assumptions C57_ordered_no_pruning. Print Assumptions C57_taken.
Print Assumptions C57_exclude_literal. Print Assumptions C57_include_path. Print Assumptions C57_ordered_step. Print Assumptions C57_ordered_first.
Print Assumptions C57_exclude_file_ordered_refuted. Print Assumptions C57_exclude_file_pruned.
