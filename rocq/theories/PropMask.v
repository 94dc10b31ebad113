(** * Property C18: masks. *)
From Verif Require Import Base PathModel PropPath MaskModel.
Open Scope N_scope.

(** ** Specification: what a tree of masks selects *)
(** two paths are comparable: one leads to the other *)
Definition leads (p q : path) : Prop := relative p = relative q /\ exists r, dirs q = dirs p ++ r.
Definition leads_nc (up : N -> N) (p q : path) : Prop := relative p = relative q /\ exists r, map (map up) (dirs q) = map (map up) (dirs p) ++ r.
Inductive selects : mask -> subject -> Prop :=
  | s_bool : forall x, selects (MBool true) x
  | s_leaf : forall f x, f (as_string x) = true -> selects (MLeaf f) x
  | s_not : forall m x, rejects m x -> selects (MNot m) x
  | s_and : forall l x, (forall m, In m l -> selects m x) -> selects (MAnd l) x
  | s_or : forall l m x, In m l -> selects m x -> selects (MOr l) x
  | s_path_down : forall p q, leads p q -> selects (MSimplePath p) (SPath q)
  | s_path_up : forall p q, leads q p -> selects (MSimplePath p) (SPath q)
  | s_path_down_nc : forall up p q, leads_nc up p q -> selects (MSimplePathNC up p) (SPath q)
  | s_path_up_nc : forall up p q, leads_nc up q p -> selects (MSimplePathNC up p) (SPath q)
  | s_file : forall f x, f (as_string x) = Ok true -> selects (MFile f) x
  | s_same : forall x, selects (MSamePath (as_string x)) x
with rejects : mask -> subject -> Prop :=
  | r_bool : forall x, rejects (MBool false) x
  | r_leaf : forall f x, f (as_string x) = false -> rejects (MLeaf f) x
  | r_not : forall m x, selects m x -> rejects (MNot m) x
  | r_and : forall l m x, In m l -> rejects m x -> rejects (MAnd l) x
  | r_or : forall l x, (forall m, In m l -> rejects m x) -> rejects (MOr l) x
  | r_path : forall p q, ~ leads p q -> ~ leads q p -> rejects (MSimplePath p) (SPath q)
  | r_path_nc : forall up p q, ~ leads_nc up p q -> ~ leads_nc up q p -> rejects (MSimplePathNC up p) (SPath q)
  | r_file : forall f x, f (as_string x) = Ok false -> rejects (MFile f) x
  | r_same : forall s x, as_string x <> s -> rejects (MSamePath s) x.

(** usable trees: no empty list, no exclude_dir_mask (see the refutation), path masks applied to paths only, and paths on which
    the sub-directory test is right (C17_subdir) *)
Definition testable (p : path) : Prop := Forall comp (dirs p) /\ (relative p = true -> (1 < length (display p))%nat).
Fixpoint usable (m : mask) (x : subject) : Prop :=
  match m with
  | MBool _ | MLeaf _ | MSamePath _ => True
  | MNot m' => usable m' x
  | MAnd l | MOr l => l <> [] /\ (fix go l := match l with [] => True | m' :: r => usable m' x /\ go r end) l
  | MSimplePath p => testable p /\ match x with SPath q => testable q | SStr _ => False end
  | MSimplePathNC up p => (forall c, up c = SLASH <-> c = SLASH) /\ testable p /\ match x with SPath q => testable q | SStr _ => False end
  | MFile f => exists b, f (as_string x) = Ok b
  | MExcludeDir _ => False
  end.

Fixpoint mask_ind' (P : mask -> Prop)
  (hb : forall b, P (MBool b)) (hl : forall f, P (MLeaf f)) (hn : forall m, P m -> P (MNot m))
  (ha : forall l, Forall P l -> P (MAnd l)) (ho : forall l, Forall P l -> P (MOr l))
  (hp : forall p, P (MSimplePath p)) (hpn : forall up p, P (MSimplePathNC up p)) (hf : forall f, P (MFile f)) (hs : forall s, P (MSamePath s)) (he : forall s, P (MExcludeDir s)) (m : mask) : P m :=
  let rec := mask_ind' P hb hl hn ha ho hp hpn hf hs he in
  match m with
  | MBool b => hb b
  | MLeaf f => hl f
  | MNot m' => hn m' (rec m')
  | MAnd l => ha l ((fix go l : Forall P l := match l with [] => Forall_nil _ | m' :: r => Forall_cons _ (rec m') (go r) end) l)
  | MOr l => ho l ((fix go l : Forall P l := match l with [] => Forall_nil _ | m' :: r => Forall_cons _ (rec m') (go r) end) l)
  | MSimplePath p => hp p
  | MSimplePathNC up p => hpn up p
  | MFile f => hf f
  | MSamePath s => hs s
  | MExcludeDir s => he s
  end.

Lemma testable_rel : forall p, testable p -> relative p = true -> dirs p <> [].
Proof. intros p [_ H] R E. specialize (H R). unfold display in H. rewrite R, E in H. cbn in H. lia. Qed.
Lemma leads_dec : forall p q, testable p -> testable q -> is_subdir_of q p = true <-> leads p q.
Proof.
  intros p q Hp Hq. rewrite C17_subdir.
  - unfold leads. split; intros [A B]; (split; [congruence|exact B]).
  - apply Hq. - apply Hp. - apply testable_rel, Hq. - apply Hp.
Qed.

Lemma leads_nc_dec : forall up p q, (forall c, up c = SLASH <-> c = SLASH) -> testable p -> testable q -> is_subdir_nocase up q p = true <-> leads_nc up p q.
Proof.
  intros up p q Hup Hp Hq. rewrite C17_subdir_nocase.
  - unfold leads_nc. split; intros [A B]; (split; [congruence|exact B]).
  - exact Hup. - apply Hq. - apply Hp. - apply testable_rel, Hq. - apply Hp.
Qed.

Fixpoint all_cov (x : subject) (l : list mask) : res bool :=
  match l with [] => Ok true | m' :: r => let* b := is_covered m' x in if b then all_cov x r else Ok false end.
Fixpoint any_cov (x : subject) (l : list mask) : res bool :=
  match l with [] => Ok false | m' :: r => let* b := is_covered m' x in if b then Ok true else any_cov x r end.
Lemma cov_and : forall x m l, is_covered (MAnd (m :: l)) x = all_cov x (m :: l).
Proof.
  intros x m l. cbn [is_covered all_cov]. destruct (is_covered m x) as [[|]|e]; cbn [bind]; auto.
  induction l as [|m' l IH]; [reflexivity|]. cbn [all_cov]. destruct (is_covered m' x) as [[|]|e]; cbn [bind]; auto.
Qed.
Lemma cov_or : forall x m l, is_covered (MOr (m :: l)) x = any_cov x (m :: l).
Proof.
  intros x m l. cbn [is_covered any_cov]. destruct (is_covered m x) as [[|]|e]; cbn [bind]; auto.
  induction l as [|m' l IH]; [reflexivity|]. cbn [any_cov]. destruct (is_covered m' x) as [[|]|e]; cbn [bind]; auto.
Qed.
Definition answers (m : mask) (x : subject) : Prop :=
  exists b, is_covered m x = Ok b /\ (b = true <-> selects m x) /\ (b = false <-> rejects m x).
Lemma usable_list : forall x l, (fix go l := match l with [] => True | m' :: r => usable m' x /\ go r end) l -> Forall (fun m => usable m x) l.
Proof. induction l as [|m l IH]; intro H; constructor; [apply H|apply IH, H]. Qed.
Lemma all_spec : forall x l, Forall (fun m => answers m x) l ->
  exists b, all_cov x l = Ok b /\ (b = true <-> forall m, In m l -> selects m x) /\ (b = false <-> exists m, In m l /\ rejects m x).
Proof.
  intros x l H. induction H as [|m l (b & E & A & B) _ (c & F & C & D)]; cbn [all_cov].
  - exists true. split; [reflexivity|]. split; split; try discriminate; auto; [intros _ ? []|intros (? & [] & _)].
  - rewrite E. cbn [bind]. destruct b.
    + exists c. split; [exact F|]. split.
      * rewrite C. split; [intros H m' [<-|Hm]; [tauto|auto]|intros H m' Hm; apply H; right; auto].
      * rewrite D. split; [intros (y & Y1 & Y2); exists y; cbn; auto|]. intros (y & [<-|Y1] & Y2); [|eauto]. apply B in Y2. discriminate.
    + exists false. split; [reflexivity|]. split.
      * split; [discriminate|]. intro H. apply A. apply H. left. reflexivity.
      * split; [|reflexivity]. intros _. exists m. split; [left; reflexivity|tauto].
Qed.
Lemma any_spec : forall x l, Forall (fun m => answers m x) l ->
  exists b, any_cov x l = Ok b /\ (b = true <-> exists m, In m l /\ selects m x) /\ (b = false <-> forall m, In m l -> rejects m x).
Proof.
  intros x l H. induction H as [|m l (b & E & A & B) _ (c & F & C & D)]; cbn [any_cov].
  - exists false. split; [reflexivity|]. split; split; try discriminate; auto; [intros (? & [] & _)|intros _ ? []].
  - rewrite E. cbn [bind]. destruct b.
    + exists true. split; [reflexivity|]. split.
      * split; [|reflexivity]. intros _. exists m. split; [left; reflexivity|tauto].
      * split; [discriminate|]. intro H. apply B. apply H. left. reflexivity.
    + exists c. split; [exact F|]. split.
      * rewrite C. split; [intros (y & Y1 & Y2); exists y; cbn; auto|]. intros (y & [<-|Y1] & Y2); [|eauto]. apply A in Y2. discriminate.
      * rewrite D. split; [intros H m' [<-|Hm]; [tauto|auto]|intros H m' Hm; apply H; right; auto].
Qed.

(** Every usable tree of masks, of any shape and depth, answers, and answers true exactly for what it selects. *)
Theorem C18_masks_boolean : forall m x, usable m x ->
  exists b, is_covered m x = Ok b /\ (b = true <-> selects m x) /\ (b = false <-> rejects m x).
Proof.
  intros m x. change (usable m x -> answers m x). induction m as [b|f|m IH|l IH|l IH|p|up p|f|s|s] using mask_ind'; intro U; cbn [usable] in U.
  - exists b. split; [reflexivity|]. split; split; intro H; subst; try constructor; inversion H; reflexivity.
  - exists (f (as_string x)). split; [reflexivity|]. split; split; intro H; try (constructor; exact H); inversion H; subst; auto.
  - destruct (IH U) as (b & E & A & B). exists (negb b). cbn [is_covered]. rewrite E. split; [reflexivity|]. rewrite negb_true_iff, negb_false_iff.
    split; split; intro H; try (constructor; tauto); inversion H; tauto.
  - destruct U as [Hl U]. apply usable_list in U.
    assert (K : Forall (fun m => answers m x) l).
    { rewrite Forall_forall in *. auto. }
    destruct (all_spec x l K) as (b & E & A & B). exists b. split; [destruct l; [congruence|rewrite cov_and; exact E]|]. split.
    + rewrite A. split; intro H; [constructor; auto|inversion H; auto].
    + rewrite B. split; [intros (y & Y1 & Y2); econstructor; eauto|]. intro H. inversion H; subst. eauto.
  - destruct U as [Hl U]. apply usable_list in U.
    assert (K : Forall (fun m => answers m x) l).
    { rewrite Forall_forall in *. auto. }
    destruct (any_spec x l K) as (b & E & A & B). exists b. split; [destruct l; [congruence|rewrite cov_or; exact E]|]. split.
    + rewrite A. split; [intros (y & Y1 & Y2); econstructor; eauto|]. intro H. inversion H; subst. eauto.
    + rewrite B. split; intro H; [constructor; auto|inversion H; auto].
  - destruct U as [U1 U2]. destruct x as [s|q]; [contradiction|]. exists (is_subdir_of q p || is_subdir_of p q). split; [reflexivity|].
    pose proof (leads_dec p q U1 U2) as L1. pose proof (leads_dec q p U2 U1) as L2. rewrite orb_true_iff, orb_false_iff. split.
    + rewrite L1, L2. split; [intros [H|H]; [apply s_path_down|apply s_path_up]; exact H|]. intro H. inversion H; subst; auto.
    + rewrite <- !not_true_iff_false, L1, L2. split; [intros [H1 H2]; constructor; auto|]. intro H. inversion H; subst; auto.
  - destruct U as [Hup [U1 U2]]. destruct x as [s|q]; [contradiction|]. exists (is_subdir_nocase up q p || is_subdir_nocase up p q). split; [reflexivity|].
    pose proof (leads_nc_dec up p q Hup U1 U2) as L1. pose proof (leads_nc_dec up q p Hup U2 U1) as L2. rewrite orb_true_iff, orb_false_iff. split.
    + rewrite L1, L2. split; [intros [H|H]; [apply s_path_down_nc|apply s_path_up_nc]; exact H|]. intro H. inversion H; subst; auto.
    + rewrite <- !not_true_iff_false, L1, L2. split; [intros [H1 H2]; constructor; auto|]. intro H. inversion H; subst; auto.
  - destruct U as [b U]. exists b. cbn [is_covered]. rewrite U. split; [reflexivity|]. split; split; intro H; subst; try (constructor; congruence); inversion H; congruence.
  - exists (str_eqb (as_string x) s). split; [reflexivity|]. rewrite str_eqb_eq, str_eqb_neq. split; split; intro H.
    + subst s. constructor. + inversion H; subst; reflexivity. + constructor; auto. + inversion H; subst; auto.
  - contradiction.
Qed.
Print Assumptions C18_masks_boolean.
(** an empty list of masks is refused *)
Theorem C18_empty_refused : forall x, is_covered (MAnd []) x = Err Erange /\ is_covered (MOr []) x = Err Erange.
Proof. split; reflexivity. Qed.
(** exclude_dir_mask was meant to cover the paths at or below its directory: it covers every path, because the parameter of
    is_covered has the name of the field *)
Lemma subdir_self : forall p, is_subdir_of p p = true.
Proof.
  intro p. unfold is_subdir_of. rewrite Nat.leb_refl, firstn_all, str_eqb_refl.
  destruct (Nat.ltb_spec (length (display p)) (length (display p))); [lia|reflexivity].
Qed.
Theorem C18_exclude_dir_refuted : forall dir q, is_covered (MExcludeDir dir) (SPath q) = Ok true.
Proof. intros. cbn [is_covered]. rewrite subdir_self. reflexivity. Qed.
Print Assumptions C18_exclude_dir_refuted.
(** so a path that is not below the directory is covered *)
Example C18_exclude_dir_instance : exists dir d q, path_make dir false = Ok d /\ testable d /\ testable q /\ ~ leads d q /\
  is_covered (MExcludeDir dir) (SPath q) = Ok true.
Proof.
  exists [47; 97], (Path [[97]] false false), (Path [[98]] false false).
  split; [vm_compute; reflexivity|].
  assert (T : forall c, c <> SLASH -> testable (Path [[c]] false false)).
  { intros c Hc. split; [|discriminate]. repeat constructor; [discriminate|]. intros [Q|[]]. congruence. }
  split; [apply T; discriminate|]. split; [apply T; discriminate|]. split; [|reflexivity].
  intros [_ (r & E)]. discriminate.
Qed.
(** a tree mixing all operators *)
Example C18_instance : let d := Path [[97; 98]; [99; 100]] false false in
  usable (MAnd [MNot (MSamePath [47; 120]); MOr [MBool false; MSimplePath d]]) (SPath (Path [[97; 98]] false false)) /\
  is_covered (MAnd [MNot (MSamePath [47; 120]); MOr [MBool false; MSimplePath d]]) (SPath (Path [[97; 98]] false false)) = Ok true /\
  is_covered (MAnd [MNot (MSamePath [47; 120]); MOr [MBool false; MSimplePath d]]) (SPath (Path [[97; 120]] false false)) = Ok false.
Proof.
  split; [|split; vm_compute; reflexivity]. cbn [usable]. repeat split; try discriminate; repeat constructor; try discriminate;
    intro Q; cbn in Q; repeat (destruct Q as [Q|Q]; try discriminate); contradiction.
Qed.
