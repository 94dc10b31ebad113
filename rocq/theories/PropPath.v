(** * Property C17: paths. *)
From Verif Require Import Base PathModel.
Open Scope N_scope.

(** ** Specification *)
(** the words of a string: its maximal non-empty pieces without '/' *)
Fixpoint words_from (cur : str) (s : str) : list str :=
  match s with
  | [] => match cur with [] => [] | _ => [cur] end
  | c :: r => if c =? SLASH then match cur with [] => words_from [] r | _ => cur :: words_from [] r end else words_from (cur ++ [c]) r
  end.
Definition words (s : str) : list str := words_from [] s.
(** the place reached from a directory (given by the names from the root) by following a path *)
Fixpoint walk (at_ : list str) (ws : list str) : list str :=
  match ws with
  | [] => at_
  | w :: r => if str_eqb w [] || str_eqb w dot then walk at_ r else if str_eqb w dotdot then walk (removelast at_) r else walk (at_ ++ [w]) r
  end.
(** normal form: some "..", then names; or "." alone *)
Definition plain_name (w : str) : Prop := w <> [] /\ w <> dot /\ w <> dotdot.
Definition normal (ds : list str) : Prop :=
  ds = [dot] \/ exists k names, ds = repeat dotdot k ++ names /\ Forall plain_name names.
(** a string that starts like an URL, "scheme://": its scheme is kept as a special first component *)
Definition url_like (s : str) : Prop := exists scheme rest, s = scheme ++ COLON :: SLASH :: SLASH :: rest /\ ~ In SLASH scheme.
Definition strip_root (s : str) : str := if hd 0 s =? SLASH then tl s else s.

(** ** Proofs *)
Lemma str_eqb_eq : forall a b, str_eqb a b = true <-> a = b.
Proof.
  induction a as [|x a IH]; intros [|y b]; cbn [str_eqb]; try (split; [reflexivity || discriminate|congruence || discriminate]).
  rewrite andb_true_iff, N.eqb_eq, IH. split; [intros [-> ->]; reflexivity|intro E; injection E; auto].
Qed.
Lemma str_eqb_refl : forall a, str_eqb a a = true.
Proof. intro a. apply str_eqb_eq. reflexivity. Qed.
Lemma str_eqb_neq : forall a b, str_eqb a b = false <-> a <> b.
Proof. intros a b. rewrite <- str_eqb_eq. destruct (str_eqb a b); split; congruence. Qed.
Lemma str_eqb_spec : forall a b, reflect (a = b) (str_eqb a b).
Proof. intros a b. apply iff_reflect. symmetry. apply str_eqb_eq. Qed.

(** splitting *)
Definition noslash (w : str) : Prop := ~ In SLASH w.
Lemma noslash_nil : noslash [].
Proof. intros []. Qed.
Local Hint Resolve noslash_nil : core.
Lemma words_from_ok : forall s cur, noslash cur -> Forall (fun w => w <> [] /\ noslash w) (words_from cur s).
Proof.
  induction s as [|c r IH]; intros cur Hc; cbn [words_from].
  - destruct cur; constructor; auto. split; [discriminate|auto].
  - destruct (N.eqb_spec c SLASH) as [->|Ne].
    + destruct cur as [|x cur]; [apply IH; auto|]. constructor; [split; [discriminate|auto]|]. apply IH. auto.
    + apply IH. unfold noslash in *. rewrite in_app_iff. cbn. intros [H|[H|[]]]; auto.
Qed.
Lemma words_ok : forall s, Forall (fun w => w <> [] /\ noslash w) (words s).
Proof. intro s. apply words_from_ok. auto. Qed.

Lemma split_plain : forall agg rest cur acc, (acc <> [] \/ hd 0 agg = SLASH) ->
  split_loop agg rest cur acc = acc ++ words_from (rev cur) rest.
Proof.
  intros agg rest. induction rest as [|c r IH]; intros cur acc H; cbn [split_loop words_from].
  - destruct cur as [|x cur]; [cbn; rewrite app_nil_r; reflexivity|].
    destruct (rev (x :: cur)) eqn:E; [apply (f_equal (@length N)) in E; rewrite rev_length in E; discriminate|]. reflexivity.
  - destruct (N.eqb_spec c SLASH) as [->|Ne].
    + destruct cur as [|x cur]; [cbn [rev]; apply IH; auto|].
      assert (E : (if (x =? COLON) && negb (hd 0 agg =? SLASH) && (match acc with [] => true | _ => false end)
        then if (length (rev (x :: cur)) + 1 <? length agg)%nat then if nth (length (rev (x :: cur)) + 1) agg 0 =? SLASH then rev (x :: cur) ++ [SLASH] else rev (x :: cur) else rev (x :: cur)
        else rev (x :: cur)) = rev (x :: cur)).
      { destruct H as [H|H].
        - destruct acc; [congruence|]. rewrite andb_false_r. reflexivity.
        - rewrite H, N.eqb_refl. cbn [negb]. rewrite andb_false_r. reflexivity. }
      rewrite E. rewrite IH by (left; destruct acc; discriminate).
      destruct (rev (x :: cur)) eqn:Er; [apply (f_equal (@length N)) in Er; rewrite rev_length in Er; discriminate|].
      rewrite <- app_assoc. reflexivity.
    + rewrite IH by auto. cbn [rev]. reflexivity.
Qed.
(** the first word *)
Lemma split_first : forall agg pre rest, agg = pre ++ rest -> noslash pre -> hd 0 agg <> SLASH ->
  path_split agg = split_loop agg rest (rev pre) [].
Proof.
  intros agg pre rest E Hn Hh. unfold path_split.
  assert (G : forall pre cur acc, noslash pre -> split_loop agg (pre ++ rest) cur acc = split_loop agg rest (rev pre ++ cur) acc).
  { clear. induction pre as [|c pre IH]; intros cur acc H; [reflexivity|]. cbn [app split_loop].
    unfold noslash in H. cbn in H. destruct (N.eqb_spec c SLASH); [exfalso; auto|]. rewrite IH by (intro Q; auto). cbn [rev]. rewrite <- app_assoc. reflexivity. }
  rewrite E at 2. rewrite G by auto. rewrite app_nil_r. reflexivity.
Qed.
Lemma first_word : forall s, exists pre rest, s = pre ++ rest /\ noslash pre /\ (rest = [] \/ exists r, rest = SLASH :: r).
Proof.
  induction s as [|c s IH].
  - exists [], []. split; [reflexivity|]. split; auto.
  - destruct (N.eq_dec c SLASH) as [->|Ne].
    + exists [], (SLASH :: s). split; [reflexivity|]. split; [auto|]. right. eauto.
    + destruct IH as (pre & rest & -> & H1 & H2). exists (c :: pre), rest. split; [reflexivity|]. split; [|auto].
      unfold noslash in *. cbn. intros [Q|Q]; auto.
Qed.
Lemma words_app_first : forall pre r, noslash pre -> pre <> [] -> words (pre ++ SLASH :: r) = pre :: words r.
Proof.
  intros pre r H Hn. unfold words.
  assert (G : forall pre cur, noslash pre -> pre <> [] \/ cur <> [] -> words_from cur (pre ++ SLASH :: r) = (cur ++ pre) :: words_from [] r).
  { clear. induction pre as [|c pre IH]; intros cur H Hn; cbn [app words_from].
    - rewrite N.eqb_refl, app_nil_r. destruct cur; [destruct Hn; congruence|reflexivity].
    - unfold noslash in H. cbn in H. destruct (N.eqb_spec c SLASH); [exfalso; auto|].
      rewrite IH; [rewrite <- app_assoc; reflexivity|intro; auto|right; destruct cur; discriminate]. }
  rewrite G; auto.
Qed.
Lemma words_single : forall w, noslash w -> w <> [] -> words w = [w].
Proof.
  intros w H Hn. unfold words.
  assert (G : forall w cur, noslash w -> cur ++ w <> [] -> words_from cur w = [cur ++ w]).
  { clear. induction w as [|c w IH]; intros cur H Hn; cbn [words_from].
    - rewrite app_nil_r in *. destruct cur; [congruence|reflexivity].
    - unfold noslash in H. cbn in H. destruct (N.eqb_spec c SLASH); [exfalso; auto|].
      rewrite IH; [rewrite <- app_assoc; reflexivity|intro; auto|]. rewrite <- app_assoc. cbn. destruct cur; discriminate. }
  rewrite G; auto.
Qed.
Lemma path_split_cases : forall s, url_like s \/ path_split s = words s.
Proof.
  intros s. destruct (N.eq_dec (hd 0 s) SLASH) as [Hh|Hh].
  - right. unfold path_split. rewrite split_plain by auto. reflexivity.
  - destruct (first_word s) as (pre & rest & E & Hp & Hr). rewrite (split_first s pre rest E Hp Hh).
    destruct Hr as [->|(r & ->)].
    + right. rewrite app_nil_r in E. subst s. cbn [split_loop]. destruct pre as [|c pre]; [reflexivity|].
      rewrite words_single by (auto; discriminate).
      destruct (rev (c :: pre)) as [|x t] eqn:Er; [apply (f_equal (@length N)) in Er; rewrite rev_length in Er; discriminate|].
      rewrite <- Er, rev_involutive. reflexivity.
    + destruct pre as [|c0 pre0]; [exfalso; subst s; apply Hh; reflexivity|]. set (pre := c0 :: pre0) in *.
      rewrite E, words_app_first by (auto; discriminate). rewrite <- E. cbn [split_loop]. rewrite N.eqb_refl.
      destruct (rev pre) as [|x t] eqn:Er; [apply (f_equal (@length N)) in Er; rewrite rev_length in Er; discriminate|].
      rewrite <- Er, rev_involutive.
      assert (Q : url_like s \/ (if (x =? COLON) && negb (hd 0 s =? SLASH) && true
        then if (length pre + 1 <? length s)%nat then if nth (length pre + 1) s 0 =? SLASH then pre ++ [SLASH] else pre else pre else pre) = pre).
      { destruct (N.eqb_spec x COLON) as [->|]; [|right; reflexivity].
        destruct (hd 0 s =? SLASH); cbn [negb andb]; [right; reflexivity|].
        destruct (Nat.ltb_spec (length pre + 1) (length s)) as [L|L]; [|right; reflexivity].
        destruct (N.eqb_spec (nth (length pre + 1) s 0) SLASH) as [Es|]; [|right; reflexivity].
        left. exists (rev t). 
        rewrite E, app_nth2 in Es by lia. replace (length pre + 1 - length pre)%nat with 1%nat in Es by lia.
        destruct r as [|y r]; [rewrite E, app_length in L; cbn in L; lia|]. cbn in Es. subst y. exists r.
        assert (Ep : pre = rev t ++ [COLON]) by (rewrite <- (rev_involutive pre), Er; reflexivity).
        split; [rewrite E, Ep, <- app_assoc; reflexivity|]. unfold noslash in Hp. rewrite Ep, in_app_iff in Hp. tauto. }
      cbn [app]. destruct Q as [Q|Q]; [left; exact Q|]. right. rewrite Q. rewrite split_plain by (left; discriminate). reflexivity.
Qed.
Lemma path_split_plain : forall s, ~ url_like s -> path_split s = words s.
Proof. intros s H. destruct (path_split_cases s); tauto. Qed.
Lemma path_split_url : forall scheme rest, noslash scheme ->
  path_split (scheme ++ COLON :: SLASH :: SLASH :: rest) = (scheme ++ [COLON; SLASH]) :: words rest.
Proof.
  intros scheme rest H. set (s := scheme ++ COLON :: SLASH :: SLASH :: rest).
  assert (E : s = (scheme ++ [COLON]) ++ SLASH :: SLASH :: rest) by (unfold s; rewrite <- app_assoc; reflexivity).
  assert (Hp : noslash (scheme ++ [COLON])) by (unfold noslash in *; rewrite in_app_iff; cbn; intros [Q|[Q|[]]]; [auto|discriminate]).
  assert (Hh : hd 0 s <> SLASH) by (unfold s; destruct scheme as [|c sc]; cbn; [discriminate|intro Q; apply H; left; auto]).
  rewrite (split_first s _ _ E Hp Hh). rewrite rev_app_distr. cbn [rev app split_loop]. rewrite N.eqb_refl.
  change (COLON =? COLON) with true. destruct (N.eqb_spec (hd 0 s) SLASH); [contradiction|]. cbn [negb andb].
  rewrite rev_involutive.
  assert (L : (length (scheme ++ [COLON]) + 1 < length s)%nat) by (rewrite E, (app_length (scheme ++ [COLON])); cbn; lia).
  destruct (Nat.ltb_spec (length (scheme ++ [COLON]) + 1) (length s)); [|lia].
  assert (N1 : nth (length (scheme ++ [COLON]) + 1) s 0 = SLASH).
  { rewrite E, app_nth2 by lia. replace (length (scheme ++ [COLON]) + 1 - length (scheme ++ [COLON]))%nat with 1%nat by lia. reflexivity. }
  rewrite N1, N.eqb_refl. rewrite split_plain by (left; discriminate). rewrite <- app_assoc. reflexivity.
Qed.

(** reducing *)
Lemma walk_app : forall a b w, walk w (a ++ b) = walk (walk w a) b.
Proof.
  induction a as [|x a IH]; intros b w; [reflexivity|]. cbn [app walk]. destruct (str_eqb x [] || str_eqb x dot); [apply IH|].
  destruct (str_eqb x dotdot); apply IH.
Qed.
Lemma walk_filter : forall ws w, walk w (filter (fun x => negb (str_eqb x dot)) ws) = walk w ws.
Proof.
  induction ws as [|x ws IH]; intro w; [reflexivity|]. cbn [filter walk]. destruct (str_eqb x dot) eqn:E; cbn [negb].
  - rewrite orb_true_r. apply IH.
  - cbn [walk]. rewrite E, orb_false_r. destruct (str_eqb x []); [apply IH|]. destruct (str_eqb x dotdot); apply IH.
Qed.
Lemma removelast_snoc : forall (A : Type) (l : list A) x, removelast (l ++ [x]) = l.
Proof. intros A l x. rewrite removelast_app by discriminate. apply app_nil_r. Qed.
Lemma reduce_loop_walk : forall rest left w, Forall (fun x => x <> []) left -> Forall (fun x => x <> dot) left ->
  Forall (fun x => x <> []) rest -> Forall (fun x => x <> dot) rest ->
  walk w (reduce_loop left rest) = walk w (rev left ++ rest).
Proof.
  induction rest as [|it r IH]; intros left w L1 L2 R1 R2; cbn [reduce_loop].
  - rewrite app_nil_r. reflexivity.
  - inversion R1; subst. inversion R2; subst. destruct left as [|prev left].
    + replace (str_eqb it dotdot && negb (str_eqb it dotdot)) with false by (destruct (str_eqb it dotdot); reflexivity).
      rewrite IH; auto.
    + inversion L1; subst. inversion L2; subst. destruct (str_eqb_spec it dotdot) as [->|Ne]; cbn [andb].
      * destruct (str_eqb_spec prev dotdot) as [->|Np]; cbn [negb].
        -- rewrite IH; auto. cbn [rev]. rewrite <- !app_assoc. reflexivity.
        -- rewrite IH by auto. cbn [rev]. rewrite <- !app_assoc. cbn [app]. rewrite (walk_app (rev left) r), (walk_app (rev left) (prev :: dotdot :: r)). cbn [walk].
           destruct (str_eqb_spec prev []); [congruence|]. destruct (str_eqb_spec prev dot); [congruence|]. cbn [orb].
           destruct (str_eqb_spec prev dotdot); [congruence|]. cbn [walk]. change (str_eqb dotdot [] || str_eqb dotdot dot) with false.
           cbn iota. change (str_eqb dotdot dotdot) with true. cbn iota. rewrite removelast_snoc. reflexivity.
      * rewrite IH; auto. cbn [rev]. rewrite <- !app_assoc. reflexivity.
Qed.
(** the names seen so far, last first: names over some ".." *)
Definition stack_ok (left : list str) : Prop := exists k names, left = names ++ repeat dotdot k /\ Forall plain_name names.
Lemma repeat_snoc : forall (A : Type) (x : A) k, repeat x k ++ [x] = x :: repeat x k.
Proof. intros. symmetry. apply repeat_cons. Qed.
Lemma rev_repeat : forall (A : Type) (x : A) k, rev (repeat x k) = repeat x k.
Proof. induction k as [|k IH]; [reflexivity|]. cbn [repeat rev]. rewrite IH. apply repeat_snoc. Qed.
Lemma reduce_loop_normal : forall rest left, stack_ok left -> Forall (fun x => x <> [] /\ x <> dot) rest ->
  exists k names, reduce_loop left rest = repeat dotdot k ++ names /\ Forall plain_name names.
Proof.
  induction rest as [|it r IH]; intros left H R; cbn [reduce_loop].
  - destruct H as (k & names & -> & Hn). exists k, (rev names). rewrite rev_app_distr, rev_repeat. split; [reflexivity|]. apply Forall_rev. exact Hn.
  - inversion R as [|? ? [R1 R2] R3]; subst. destruct left as [|prev left].
    + replace (str_eqb it dotdot && negb (str_eqb it dotdot)) with false by (destruct (str_eqb it dotdot); reflexivity).
      apply IH; auto. destruct (str_eqb_spec it dotdot) as [->|Ne].
      * exists 1%nat, []. split; [reflexivity|constructor].
      * exists 0%nat, [it]. split; [reflexivity|]. repeat constructor; auto.
    + destruct H as (k & names & E & Hn). destruct (str_eqb_spec it dotdot) as [->|Ne]; cbn [andb].
      * destruct (str_eqb_spec prev dotdot) as [->|Np]; cbn [negb].
        -- apply IH; auto. exists (S k), names.
           destruct names as [|n names]; cbn [app] in E.
           ++ rewrite E. cbn. split; [reflexivity|constructor].
           ++ exfalso. injection E as <- E. inversion Hn as [|? ? (_ & _ & Q) _]; subst. congruence.
        -- apply IH; auto. destruct names as [|n names]; cbn [app] in E.
           ++ destruct k; cbn in E; [discriminate|]. injection E as -> E. congruence.
           ++ injection E as -> E. exists k, names. split; [exact E|]. inversion Hn; auto.
      * apply IH; auto. exists k, (it :: names). rewrite E. split; [reflexivity|]. constructor; auto. repeat split; auto.
Qed.
Lemma filter_nodot : forall ws, Forall (fun x => x <> []) ws ->
  Forall (fun x => x <> [] /\ x <> dot) (filter (fun x => negb (str_eqb x dot)) ws).
Proof.
  intros ws H. apply Forall_forall. intros x Hx. apply filter_In in Hx. destruct Hx as [Hx Hd]. rewrite Forall_forall in H.
  split; [auto|]. intros ->. rewrite str_eqb_refl in Hd. discriminate.
Qed.
Lemma reduce_walk : forall rel ws w, Forall (fun x => x <> []) ws -> walk w (reduce rel ws) = walk w ws.
Proof.
  intros rel ws w H. unfold reduce. pose proof (filter_nodot ws H) as F. rewrite <- (walk_filter ws w).
  set (d1 := filter (fun x => negb (str_eqb x dot)) ws) in *.
  assert (R : walk w (reduce_loop [] d1) = walk w d1).
  { rewrite reduce_loop_walk; try constructor; auto; eapply Forall_impl; try exact F; cbn; tauto. }
  destruct (rel && match d1 with [] => true | _ => false end) eqn:E.
  - destruct d1; [|rewrite andb_false_r in E; discriminate]. reflexivity.
  - destruct (rel && match reduce_loop [] d1 with [] => true | _ => false end) eqn:E2; [|exact R].
    destruct (reduce_loop [] d1); [|rewrite andb_false_r in E2; discriminate]. cbn in R. rewrite <- R. reflexivity.
Qed.
Lemma reduce_normal : forall rel ws, Forall (fun x => x <> []) ws -> normal (reduce rel ws) /\ (rel = true -> reduce rel ws <> []) /\ (rel = false -> ~ In dot (reduce rel ws)).
Proof.
  intros rel ws H. unfold reduce. pose proof (filter_nodot ws H) as F.
  set (d1 := filter (fun x => negb (str_eqb x dot)) ws) in *.
  destruct (reduce_loop_normal d1 []) as (k & names & E & Hn); [exists 0%nat, []; split; [reflexivity|constructor]|exact F|].
  assert (Nd : ~ In dot (reduce_loop [] d1)).
  { rewrite E, in_app_iff. intros [Q|Q]; [apply repeat_spec in Q; discriminate|]. rewrite Forall_forall in Hn. destruct (Hn _ Q) as (_ & Q1 & _). congruence. }
  destruct rel; cbn [andb].
  - destruct d1 as [|x d1]; [split; [left; reflexivity|split; [discriminate|discriminate]]|].
    destruct (reduce_loop [] (x :: d1)) as [|y l] eqn:El; [split; [left; reflexivity|split; [discriminate|discriminate]]|].
    split; [right; eauto|split; [discriminate|discriminate]].
  - split; [right; eauto|split; [discriminate|auto]].
Qed.

(** ** Construction from a string *)
(** Every non-empty string makes a path: absolute exactly when it starts with '/', in normal form, leading to the place its
    words lead to, from any starting directory. *)
Theorem C17_construct : forall s, s <> [] -> ~ url_like (strip_root s) ->
  exists p, path_make s false = Ok p /\ relative p = negb (hd 0 s =? SLASH) /\ normal (dirs p) /\
    (relative p = true -> dirs p <> []) /\ (relative p = false -> ~ In dot (dirs p)) /\
    (forall from, walk from (dirs p) = walk from (words s)).
Proof.
  intros s Hs Hu. destruct s as [|c r]; [congruence|]. unfold strip_root in Hu. cbn [hd tl] in Hu. unfold path_make.
  set (und := if str_eqb (c :: r) [SLASH] then false else false). assert (U : und = false) by (unfold und; destruct (str_eqb _ _); reflexivity).
  rewrite U. cbn [hd].
  assert (W : words (if negb (c =? SLASH) then c :: r else r) = words (c :: r)).
  { destruct (N.eqb_spec c SLASH) as [->|]; reflexivity. }
  assert (Hu' : ~ url_like (if negb (c =? SLASH) then c :: r else r)) by (destruct (c =? SLASH); exact Hu).
  rewrite path_split_plain by exact Hu'. rewrite W.
  assert (Ne : Forall (fun x => x <> []) (words (c :: r))) by (eapply Forall_impl; [|apply words_ok]; cbn; tauto).
  assert (Nr : negb (c =? SLASH) = true -> words (c :: r) <> []).
  { destruct (N.eqb_spec c SLASH) as [|Hc]; [discriminate|]. intros _. destruct (first_word (c :: r)) as (pre & rest & E & Hp & [->|(z & ->)]).
    - rewrite app_nil_r in E. rewrite E, words_single; [discriminate|auto|rewrite <- E; discriminate].
    - destruct pre as [|x pre]; [cbn in E; injection E as -> _; congruence|]. rewrite E, words_app_first; [discriminate|auto|discriminate]. }
  destruct (negb (c =? SLASH) && match words (c :: r) with [] => true | _ => false end) eqn:Ed.
  { exfalso. apply andb_true_iff in Ed. destruct Ed as [E1 E2]. specialize (Nr E1). destruct (words (c :: r)); congruence. }
  eexists. split; [reflexivity|]. cbn [relative dirs]. split; [reflexivity|].
  destruct (reduce_normal (negb (c =? SLASH)) (words (c :: r)) Ne) as (A & B & C).
  split; [exact A|]. split; [exact B|]. split; [exact C|]. intro from. apply reduce_walk. exact Ne.
Qed.
Print Assumptions C17_construct.
(** the empty string is refused *)
Theorem C17_empty_refused : forall u, path_make [] u = Err Erange.
Proof. reflexivity. Qed.
(** the URL form keeps "scheme:/" as first component *)
Theorem C17_construct_url : forall scheme rest, noslash scheme ->
  exists p, path_make (scheme ++ COLON :: SLASH :: SLASH :: rest) false = Ok p /\ relative p = true /\ normal (dirs p) /\
    forall from, walk from (dirs p) = walk from ((scheme ++ [COLON; SLASH]) :: words rest).
Proof.
  intros scheme rest H. unfold path_make.
  destruct (scheme ++ COLON :: SLASH :: SLASH :: rest) as [|c r] eqn:E; [destruct scheme; discriminate|].
  assert (Hc : c <> SLASH) by (destruct scheme as [|y sc]; cbn in E; injection E as Ec _; rewrite <- Ec; [discriminate|intros Q; apply H; left; auto]).
  set (und := if str_eqb (c :: r) [SLASH] then false else false). assert (U : und = false) by (unfold und; destruct (str_eqb _ _); reflexivity).
  rewrite U. destruct (N.eqb_spec c SLASH); [contradiction|]. cbn [negb andb]. rewrite <- E, path_split_url by auto.
  eexists. split; [reflexivity|]. cbn [relative dirs]. split; [reflexivity|].
  assert (Ne : Forall (fun x => x <> []) ((scheme ++ [COLON; SLASH]) :: words rest)).
  { constructor; [destruct scheme; discriminate|]. eapply Forall_impl; [|apply words_ok]; cbn; tauto. }
  split; [apply (reduce_normal true _ Ne)|]. intro from. apply reduce_walk. exact Ne.
Qed.

(** ** Displaying and reading back *)
Definition comp (w : str) : Prop := w <> [] /\ noslash w.
Lemma words_app : forall a t, words (a ++ SLASH :: t) = words a ++ words t.
Proof.
  intros a t. unfold words. generalize (@nil N) at 1 2 as cur. induction a as [|c a IH]; intro cur; cbn [app words_from].
  - rewrite N.eqb_refl. destruct cur; reflexivity.
  - destruct (N.eqb_spec c SLASH); [|apply IH]. destruct cur; rewrite IH; reflexivity.
Qed.
Lemma words_join : forall ds, Forall comp ds -> words (join ds) = ds.
Proof.
  induction ds as [|w ds IH]; intro H; [reflexivity|]. inversion H as [|? ? [H1 H2] H3]; subst. destruct ds as [|w' ds].
  - cbn [join]. apply words_single; auto.
  - change (join (w :: w' :: ds)) with (w ++ SLASH :: join (w' :: ds)). rewrite words_app, words_single, IH by auto. reflexivity.
Qed.
Lemma join_hd : forall w ds, comp w -> exists c t, join (w :: ds) = c :: t /\ c <> SLASH.
Proof.
  intros [|c w] ds [H1 H2]; [congruence|]. assert (c <> SLASH) by (intros ->; apply H2; left; reflexivity).
  destruct ds; cbn [join app]; eauto.
Qed.
Lemma no_double : forall ds, Forall comp ds -> forall a b, join ds <> a ++ SLASH :: SLASH :: b.
Proof.
  induction ds as [|w ds IH]; intros H a b E.
  - destruct a; discriminate.
  - inversion H as [|? ? [H1 H2] H3]; subst. destruct ds as [|w' ds].
    + cbn [join] in E. apply H2. rewrite E, in_app_iff. right. left. reflexivity.
    + change (join (w :: w' :: ds)) with (w ++ SLASH :: join (w' :: ds)) in E.
      destruct (join_hd w' ds ltac:(inversion H3; auto)) as (c & t & Ej & Hc).
      specialize (IH H3). clear H H1. revert a E. induction w as [|x w IHw]; intros a E; cbn [app] in E.
      * destruct a as [|y a].
        -- injection E as E2. change (join (w' :: ds) = SLASH :: b) in E2. rewrite Ej in E2. injection E2 as E2 _. congruence.
        -- injection E as E1 E2. apply (IH a b). exact E2.
      * destruct a as [|y a]; injection E as E1 E2.
        -- apply H2. left. exact E1.
        -- apply (IHw ltac:(intro Q; apply H2; right; exact Q) a). exact E2.
Qed.
Lemma join_not_url : forall ds, Forall comp ds -> ~ url_like (join ds).
Proof.
  intros ds H (scheme & rest & E & _). apply (no_double ds H (scheme ++ [COLON]) rest). rewrite E, <- app_assoc. reflexivity.
Qed.
Lemma reduce_loop_names : forall names left, Forall plain_name names -> reduce_loop left names = rev left ++ names.
Proof.
  induction names as [|n names IH]; intros left H; cbn [reduce_loop]; [rewrite app_nil_r; reflexivity|].
  inversion H as [|? ? (_ & _ & Q) H2]; subst. destruct (str_eqb_spec n dotdot); [congruence|]. cbn [andb].
  destruct left; rewrite IH by auto; cbn [rev]; rewrite <- ?app_assoc; reflexivity.
Qed.
Lemma reduce_loop_id : forall k j names, Forall plain_name names ->
  reduce_loop (repeat dotdot j) (repeat dotdot k ++ names) = repeat dotdot (j + k) ++ names.
Proof.
  induction k as [|k IH]; intros j names H; cbn [repeat app reduce_loop].
  - rewrite reduce_loop_names, rev_repeat, Nat.add_0_r by auto. reflexivity.
  - rewrite str_eqb_refl. cbn [negb andb]. replace (j + S k)%nat with (S j + k)%nat by lia.
    destruct j as [|j]; cbn [repeat].
    + exact (IH 1%nat names H).
    + rewrite str_eqb_refl. cbn [negb andb]. exact (IH (S (S j)) names H).
Qed.
Lemma normal_names_nodot : forall k names, Forall plain_name names ->
  filter (fun x => negb (str_eqb x dot)) (repeat dotdot k ++ names) = repeat dotdot k ++ names.
Proof.
  intros k names H. rewrite filter_app. f_equal.
  - induction k as [|k IH]; [reflexivity|]. cbn [repeat filter]. change (str_eqb dotdot dot) with false. cbn [negb]. rewrite IH. reflexivity.
  - induction H as [|n names (_ & Q & _) _ IH]; [reflexivity|]. cbn [filter]. destruct (str_eqb_spec n dot); [congruence|]. cbn [negb]. rewrite IH. reflexivity.
Qed.
Lemma reduce_id : forall rel ds, normal ds -> (rel = true -> ds <> []) -> (rel = false -> ~ In dot ds) -> reduce rel ds = ds.
Proof.
  intros rel ds [->|(k & names & -> & H)] Hr Ha.
  - destruct rel; [reflexivity|]. exfalso. apply Ha; [reflexivity|left; reflexivity].
  - unfold reduce. rewrite normal_names_nodot by auto. pose proof (reduce_loop_id k 0 names H) as Id. cbn [Nat.add repeat] in Id. rewrite Id.
    destruct rel; cbn [andb]; [|reflexivity]. specialize (Hr eq_refl). destruct (repeat dotdot k ++ names); [congruence|reflexivity].
Qed.
(** components of a path built from a string: plain words, but for the scheme of an URL *)
Definition comps (ds : list str) : Prop :=
  Forall comp ds \/ exists scheme r, noslash scheme /\ ds = (scheme ++ [COLON; SLASH]) :: r /\ Forall comp r.
Lemma comps_snoc : forall ds w, comps ds -> comp w -> comps (ds ++ [w]).
Proof.
  intros ds w [H|(sc & r & H1 & -> & H2)] Hw.
  - left. apply Forall_app. auto.
  - right. exists sc, (r ++ [w]). split; [auto|]. split; [reflexivity|]. apply Forall_app. auto.
Qed.
Lemma comps_init : forall ds w, comps (ds ++ [w]) -> comps ds.
Proof.
  intros ds w [H|(sc & r & H1 & E & H2)].
  - left. apply Forall_app in H. tauto.
  - destruct ds as [|x ds]; [left; constructor|]. cbn in E. injection E as -> E. right. exists sc, ds. split; [auto|]. split; [reflexivity|].
    rewrite <- E in H2. apply Forall_app in H2. tauto.
Qed.
Lemma reduce_loop_comps : forall rest left, comps (rev left) -> Forall comp rest -> comps (reduce_loop left rest).
Proof.
  induction rest as [|it r IH]; intros left Hl Hr; cbn [reduce_loop]; [exact Hl|]. inversion Hr; subst.
  destruct left as [|prev left].
  - replace (str_eqb it dotdot && negb (str_eqb it dotdot)) with false by (destruct (str_eqb it dotdot); reflexivity).
    apply IH; auto. left. repeat constructor; auto; apply H1.
  - destruct (str_eqb it dotdot && negb (str_eqb prev dotdot)).
    + apply IH; auto. eapply comps_init. exact Hl.
    + apply IH; auto. cbn [rev] in *. apply comps_snoc; auto.
Qed.
Lemma scheme_not : forall sc w, noslash w -> str_eqb (sc ++ [COLON; SLASH]) w = false.
Proof.
  intros sc w H. apply str_eqb_neq. intros <-. apply H. rewrite in_app_iff. right. right. left. reflexivity.
Qed.
Lemma noslash_dot : noslash dot. Proof. intros [Q|[]]. discriminate. Qed.
Lemma noslash_dotdot : noslash dotdot. Proof. intros [Q|[Q|[]]]; discriminate. Qed.
Lemma reduce_comps : forall rel ds, comps ds -> comps (reduce rel ds).
Proof.
  intros rel ds H. unfold reduce.
  assert (D : comps [dot]) by (left; repeat constructor; [discriminate|apply noslash_dot]).
  assert (G : comps (reduce_loop [] (filter (fun x => negb (str_eqb x dot)) ds))).
  { assert (F : forall l, Forall comp l -> Forall comp (filter (fun x => negb (str_eqb x dot)) l)).
    { intros l Hl. apply Forall_forall. intros x Hx. apply filter_In in Hx. rewrite Forall_forall in Hl. apply Hl. tauto. }
    destruct H as [H|(sc & r & H1 & -> & H2)].
    - apply reduce_loop_comps; [left; constructor|auto].
    - cbn [filter]. rewrite (scheme_not sc dot noslash_dot). cbn [negb reduce_loop]. rewrite (scheme_not sc dotdot noslash_dotdot). cbn [andb].
      apply reduce_loop_comps; [|auto]. right. exists sc, []. split; [auto|]. split; [reflexivity|constructor]. }
  destruct (rel && _); [exact D|]. destruct (rel && _); [exact D|exact G].
Qed.
Lemma words_comp : forall s, Forall comp (words s).
Proof. intro s. eapply Forall_impl; [|apply words_ok]. unfold comp. tauto. Qed.
Lemma split_comps : forall s, comps (path_split s) /\ (s <> [] -> hd 0 s <> SLASH -> path_split s <> []).
Proof.
  intro s. destruct (path_split_cases s) as [(sc & rest & -> & H)|E].
  - rewrite path_split_url by auto. split; [|discriminate]. right. exists sc, (words rest). split; [auto|]. split; [reflexivity|apply words_comp].
  - rewrite E. split; [left; apply words_comp|]. intros Hs Hh. destruct (first_word s) as (pre & r & -> & Hp & [->|(z & ->)]).
    + rewrite app_nil_r in *. rewrite words_single by auto. discriminate.
    + destruct pre as [|c pre]; [cbn in Hh; congruence|]. rewrite words_app_first by (auto; discriminate). discriminate.
Qed.
(** the paths built from a string *)
Definition wf (p : path) : Prop :=
  undisclosed p = false /\ comps (dirs p) /\ normal (dirs p) /\ (relative p = true -> dirs p <> []) /\ (relative p = false -> ~ In dot (dirs p)).
Lemma comps_ne : forall ds, comps ds -> Forall (fun x => x <> []) ds.
Proof.
  intros ds [H|(sc & r & _ & -> & H)].
  - eapply Forall_impl; [|exact H]. unfold comp. tauto.
  - constructor; [destruct sc; discriminate|]. eapply Forall_impl; [|exact H]. unfold comp. tauto.
Qed.
Lemma make_split : forall c r, exists p, path_make (c :: r) false = Ok p /\
  p = Path (reduce (negb (c =? SLASH)) (path_split (if c =? SLASH then r else c :: r))) (negb (c =? SLASH)) false.
Proof.
  intros c r. unfold path_make.
  set (und := if str_eqb (c :: r) [SLASH] then false else false). assert (U : und = false) by (unfold und; destruct (str_eqb _ _); reflexivity).
  rewrite U. destruct (N.eqb_spec c SLASH) as [->|Hc]; cbn [negb andb].
  - eauto.
  - destruct (split_comps (c :: r)) as [_ H]. destruct (path_split (c :: r)) eqn:E; [exfalso; apply H; auto; discriminate|]. eauto.
Qed.
Lemma make_wf : forall s p, path_make s false = Ok p -> wf p.
Proof.
  intros s p H. destruct s as [|c r]; [discriminate|]. destruct (make_split c r) as (q & E & ->). rewrite H in E. injection E as ->.
  destruct (split_comps (if c =? SLASH then r else c :: r)) as [C _].
  destruct (reduce_normal (negb (c =? SLASH)) _ (comps_ne _ C)) as (A & B & D).
  split; [reflexivity|]. cbn [dirs relative]. split; [apply reduce_comps; exact C|]. auto.
Qed.
(** Displaying a path and parsing the result gives the same path ... *)
Theorem C17_display_parse : forall s p, path_make s false = Ok p ->
  (forall scheme, dirs p <> [scheme ++ [COLON; SLASH]]) -> path_make (display p) false = Ok p.
Proof.
  intros s p H Hl. destruct (make_wf s p H) as (W1 & W2 & W3 & W4 & W5). destruct p as [ds rel und]. cbn [dirs relative undisclosed] in *. subst und.
  assert (S : path_split (join ds) = ds).
  { destruct W2 as [W2|(sc & r & N1 & -> & W2)].
    - rewrite path_split_plain by (apply join_not_url; auto). apply words_join. auto.
    - destruct r as [|w r]; [exfalso; eapply Hl; reflexivity|].
      change (join ((sc ++ [COLON; SLASH]) :: w :: r)) with ((sc ++ [COLON; SLASH]) ++ SLASH :: join (w :: r)). rewrite <- app_assoc. cbn [app].
      rewrite path_split_url by auto. rewrite words_join by auto. reflexivity. }
  unfold display. cbn [relative dirs]. destruct rel.
  - assert (D : ds <> []) by auto. destruct ds as [|w ds]; [congruence|].
    assert (exists c t, join (w :: ds) = c :: t /\ c <> SLASH) as (c & t & Ej & Hc).
    { destruct W2 as [W2|(sc & r & N1 & E & W2)].
      - apply join_hd. inversion W2; auto.
      - injection E as -> ->. destruct sc as [|x sc].
        + destruct r; cbn [app join]; eexists _, _; (split; [reflexivity|discriminate]).
        + exists x. assert (x <> SLASH) by (intros ->; apply N1; left; reflexivity). destruct r; cbn [app join]; eauto. }
    cbn [app]. rewrite Ej. destruct (make_split c t) as (q & -> & ->). destruct (N.eqb_spec c SLASH); [contradiction|]. cbn [negb].
    rewrite <- Ej, S, reduce_id by auto. reflexivity.
  - cbn [app]. destruct (make_split SLASH (join ds)) as (q & -> & ->). rewrite N.eqb_refl. cbn [negb]. rewrite S, reduce_id by auto. reflexivity.
Qed.
Print Assumptions C17_display_parse.
(** ... but for the root of an URL: "ftp://" is displayed "ftp:/", which parses as the directory "ftp:" *)
Theorem C17_display_parse_url_refuted : exists s p q, path_make s false = Ok p /\ path_make (display p) false = Ok q /\ display q <> display p.
Proof.
  exists [102; 58; 47; 47], (Path [[102; 58; 47]] true false), (Path [[102; 58]] true false).
  split; [vm_compute; reflexivity|]. split; [vm_compute; reflexivity|]. vm_compute. discriminate.
Qed.

(** ** Sub-directories *)
Lemma join_app : forall a b, a <> [] -> b <> [] -> join (a ++ b) = join a ++ SLASH :: join b.
Proof.
  induction a as [|w a IH]; intros b Ha Hb; [congruence|]. destruct a as [|w' a].
  - cbn [app join]. destruct b; [congruence|]. reflexivity.
  - change (join ((w :: w' :: a) ++ b)) with (w ++ SLASH :: join ((w' :: a) ++ b)). rewrite IH by (auto; discriminate).
    change (join (w :: w' :: a)) with (w ++ SLASH :: join (w' :: a)). rewrite <- app_assoc. reflexivity.
Qed.
Lemma subdir_spec : forall me you, (you = [SLASH] \/ (1 < length you)%nat) ->
  (if (length you <=? length me)%nat then if str_eqb (firstn (length you) me) you then if (length you <? length me)%nat then
        ((1 <? length you)%nat && (nth (length you) me 0 =? SLASH)) || ((length you =? 1)%nat && (hd 0 you =? SLASH)) else true else false else false) = true
  <-> me = you \/ (exists t, me = you ++ SLASH :: t /\ you <> [SLASH]) \/ (you = [SLASH] /\ exists t, me = SLASH :: t).
Proof.
  intros me you Hy. destruct (Nat.leb_spec (length you) (length me)) as [L|L].
  2:{ split; [discriminate|]. intros [->|[(t & -> & _)|(-> & t & ->)]]; rewrite ?app_length in L; cbn in L; lia. }
  destruct (str_eqb_spec (firstn (length you) me) you) as [E|E].
  2:{ split; [discriminate|]. intros [->|[(t & -> & _)|(-> & t & ->)]]; exfalso; apply E.
      - apply firstn_all. - apply firstn_app_exact. - reflexivity. }
  assert (M : me = you ++ skipn (length you) me) by (rewrite <- E at 1; symmetry; apply firstn_skipn).
  destruct (Nat.ltb_spec (length you) (length me)) as [L2|L2].
  - remember (skipn (length you) me) as sk. destruct sk as [|c t]; [exfalso; rewrite M, app_length in L2; cbn in L2; lia|].
    rewrite M at 1. rewrite app_nth2, Nat.sub_diag by lia. cbn [nth].
    destruct Hy as [->|Hy].
    + cbn [length Nat.ltb Nat.leb Nat.eqb hd andb orb]. rewrite N.eqb_refl. split; [|reflexivity]. intros _. right. right. split; [reflexivity|]. cbn in M. eauto.
    + destruct (Nat.ltb_spec 1 (length you)); [|lia]. destruct (Nat.eqb_spec (length you) 1); [lia|]. cbn [andb]. rewrite orb_false_r, N.eqb_eq.
      split.
      * intros ->. right. left. exists t. split; [exact M|]. intros ->. cbn in Hy. lia.
      * intros [Q|[(u & Q & _)|(-> & _)]].
        -- rewrite Q in L2. lia.
        -- rewrite M in Q. apply app_inv_head in Q. congruence.
        -- cbn in Hy. lia.
  - split; [|reflexivity]. intros _. left. rewrite M. rewrite skipn_all2, app_nil_r by lia. reflexivity.
Qed.
(** p is below q (or is q) exactly when the components of q are the first ones of p: for every path without URL scheme and
    every q whose display is not a single character other than "/". *)
Theorem C17_subdir : forall p q, Forall comp (dirs p) -> Forall comp (dirs q) ->
  (relative p = true -> dirs p <> []) -> (relative q = true -> (1 < length (display q))%nat) ->
  is_subdir_of p q = true <-> relative p = relative q /\ exists r, dirs p = dirs q ++ r.
Proof.
  intros [dp rp up] [dq rq uq] Cp Cq Np Nq. cbn [dirs relative] in *. unfold is_subdir_of.
  assert (Lq : display (Path dq rq uq) = [SLASH] \/ (1 < length (display (Path dq rq uq)))%nat).
  { destruct rq; [right; auto|]. unfold display. cbn [relative dirs]. destruct dq as [|w dq]; [left; reflexivity|right].
    destruct (join_hd w dq ltac:(inversion Cq; auto)) as (c & t & E & _). rewrite E. cbn. lia. }
  rewrite subdir_spec by exact Lq. clear Lq.
  assert (Hrel : forall ds u c t, Forall comp ds -> ds <> [] -> display (Path ds true u) = c :: t -> c <> SLASH).
  { intros ds u c t C N E. destruct ds as [|w ds]; [congruence|]. destruct (join_hd w ds ltac:(inversion C; auto)) as (c' & t' & E' & H).
    unfold display in E. cbn [relative dirs app] in E. rewrite E' in E. congruence. }
  assert (Jinj : forall a b, Forall comp a -> Forall comp b -> join a = join b -> a = b).
  { intros a b A B E. rewrite <- (words_join a A), <- (words_join b B), E. reflexivity. }
  split.
  - intros H.
    assert (Er : rp = rq).
    { destruct rp, rq; auto; exfalso.
      - destruct (display (Path dp true up)) as [|c t] eqn:E; [destruct H as [H|[(t & H & _)|(_ & t & H)]]; discriminate|].
        apply (Hrel dp up c t Cp (Np eq_refl) E). destruct H as [H|[(u & H & _)|(_ & u & H)]]; try (injection H; auto).
      - specialize (Nq eq_refl). destruct (display (Path dq true uq)) as [|c t] eqn:E; [cbn in Nq; lia|].
        assert (dq <> []) by (intros ->; cbn in E; discriminate).
        apply (Hrel dq uq c t Cq H0 E). unfold display in H. cbn [relative dirs app] in H. destruct H as [H|[(u & H & _)|(H & _)]]; injection H; auto. }
    split; [exact Er|]. subst rq.
    destruct H as [H|[(t & H & Hn)|(H & t & H2)]].
    + exists []. rewrite app_nil_r. apply Jinj; auto. unfold display in H. cbn [relative dirs] in H. apply app_inv_head in H. exact H.
    + unfold display in H. cbn [relative dirs] in H. rewrite <- app_assoc in H. apply app_inv_head in H.
      exists (words t). rewrite <- (words_join dp Cp), H, words_app, words_join by auto. reflexivity.
    + destruct rp; [specialize (Nq eq_refl); rewrite H in Nq; cbn in Nq; lia|].
      exists dp. destruct dq as [|w dq]; [reflexivity|]. exfalso. destruct (join_hd w dq ltac:(inversion Cq; auto)) as (c & u & E & _).
      unfold display in H. cbn [relative dirs app] in H. rewrite E in H. discriminate.
  - intros (-> & r & ->). unfold display. cbn [relative dirs]. destruct r as [|w r].
    + left. rewrite app_nil_r. reflexivity.
    + destruct dq as [|v dq].
      * destruct rq; [specialize (Nq eq_refl); cbn in Nq; lia|]. right. right. cbn [join app]. split; [reflexivity|]. eauto.
      * right. left. exists (join (w :: r)). rewrite join_app by discriminate. rewrite app_assoc. split; [reflexivity|].
        destruct rq; cbn [app]; intro Q.
        -- specialize (Nq eq_refl). unfold display in Nq. cbn [relative dirs app] in Nq. rewrite Q in Nq. cbn in Nq. lia.
        -- destruct (join_hd v dq ltac:(inversion Cq; auto)) as (c & u & E & _). rewrite E in Q. discriminate.
Qed.
Print Assumptions C17_subdir.
(** without case sensitivity: the same up to the case of letters *)
Lemma display_map : forall up p, up SLASH = SLASH -> map up (display p) = display (Path (map (map up) (dirs p)) (relative p) (undisclosed p)).
Proof.
  intros up p H. unfold display. cbn [relative dirs]. rewrite map_app. f_equal; [destruct (relative p); cbn; [|rewrite H]; reflexivity|].
  induction (dirs p) as [|w [|w' r] IH]; [reflexivity|reflexivity|].
  change (join (w :: w' :: r)) with (w ++ SLASH :: join (w' :: r)). rewrite map_app. cbn [map]. rewrite H.
  change (join (map up w :: map up w' :: map (map up) r)) with (map up w ++ SLASH :: join (map (map up) (w' :: r))).
  rewrite <- IH. reflexivity.
Qed.
Theorem C17_subdir_nocase : forall up p q, (forall c, up c = SLASH <-> c = SLASH) -> Forall comp (dirs p) -> Forall comp (dirs q) ->
  (relative p = true -> dirs p <> []) -> (relative q = true -> (1 < length (display q))%nat) ->
  is_subdir_nocase up p q = true <-> relative p = relative q /\ exists r, map (map up) (dirs p) = map (map up) (dirs q) ++ r.
Proof.
  intros up p q Hup Cp Cq Np Nq. assert (Hs : up SLASH = SLASH) by (apply Hup; reflexivity).
  unfold is_subdir_nocase. rewrite !display_map by exact Hs.
  assert (Cm : forall l, Forall comp l -> Forall comp (map (map up) l)).
  { intros l H. rewrite Forall_map. eapply Forall_impl; [|exact H]. intros w [W1 W2]. split.
    - destruct w; [congruence|discriminate].
    - intro Q. apply W2. apply in_map_iff in Q. destruct Q as (c & Q & I). apply (proj1 (Hup c)) in Q. subst c. exact I. }
  apply (C17_subdir (Path (map (map up) (dirs p)) (relative p) (undisclosed p)) (Path (map (map up) (dirs q)) (relative q) (undisclosed q)));
    cbn [dirs relative]; auto.
  - intros R. specialize (Np R). destruct (dirs p); [congruence|discriminate].
  - intros R. rewrite <- display_map by exact Hs. rewrite map_length. auto.
Qed.
Print Assumptions C17_subdir_nocase.
(** a relative parent of one character is only recognised by itself *)
Theorem C17_subdir_one_char : forall p q, Forall comp (dirs q) -> relative q = true -> length (display q) = 1%nat ->
  is_subdir_of p q = true <-> display p = display q.
Proof.
  intros p q Cq R L. unfold is_subdir_of. 
  destruct (dirs q) as [|w ds] eqn:Ed; [unfold display in L; rewrite R, Ed in L; discriminate|].
  destruct (join_hd w ds ltac:(inversion Cq; auto)) as (c & t & E & Hc).
  assert (D : display q = c :: t) by (unfold display; rewrite R, Ed; exact E).
  rewrite D in *. cbn in L. destruct t; [|discriminate]. cbn [length hd nth].
  assert ((c =? SLASH) = false) as -> by (apply N.eqb_neq; exact Hc). cbn [Nat.ltb Nat.leb Nat.eqb andb orb].
  destruct (display p) as [|b [|b' r]]; cbn [length Nat.leb Nat.ltb firstn]; [split; discriminate| |].
  - destruct (str_eqb_spec [b] [c]); split; intro H; congruence.
  - destruct (str_eqb [b] [c]); split; discriminate.
Qed.
Print Assumptions C17_subdir_one_char.
(** "a/b" is not seen as a sub-directory of "a": a relative parent of one character is never recognised *)
Theorem C17_subdir_refuted : exists s t p q, path_make s false = Ok p /\ path_make t false = Ok q /\
  relative p = relative q /\ (exists r, dirs p = dirs q ++ r) /\ is_subdir_of p q = false.
Proof.
  exists [97; 47; 98], [97], (Path [[97]; [98]] true false), (Path [[97]] true false).
  split; [vm_compute; reflexivity|]. split; [vm_compute; reflexivity|]. split; [reflexivity|]. split; [exists [[98]]; reflexivity|].
  vm_compute. reflexivity.
Qed.

(** ** Going up and down *)
(** pop removes the last component; adding it back gives the path again *)
Theorem C17_pop_add : forall s p name p', path_make s false = Ok p -> pop p = Some (name, p') ->
  path_add_name p' name = p /\ dirs p = dirs p' ++ [name] /\ basename p = name.
Proof.
  intros s p name p' H Hp. destruct (make_wf s p H) as (W1 & W2 & W3 & W4 & W5). destruct p as [ds rel und]. cbn [dirs relative undisclosed] in *. subst und.
  unfold pop in Hp. cbn [relative dirs undisclosed] in Hp.
  assert (G : ds <> [] -> name = last ds [] -> p' = Path (removelast ds) rel false -> 
     path_add_name p' name = Path ds rel false /\ ds = dirs p' ++ [name] /\ basename (Path ds rel false) = name).
  { intros Hd -> ->. unfold path_add_name. cbn [dirs relative undisclosed]. rewrite <- app_removelast_last by auto.
    rewrite reduce_id by auto. split; [reflexivity|]. split; [reflexivity|]. unfold basename. cbn [dirs].
    clear - Hd. induction ds as [|a [|b l] IH]; [congruence|reflexivity|]. change (last (b :: l) [SLASH] = last (b :: l) []). apply IH. discriminate. }
  destruct rel.
  - destruct (Nat.ltb_spec 1 (length ds)); [|discriminate]. injection Hp as <- <-. apply G; auto.
  - destruct ds as [|w ds]; [discriminate|]. injection Hp as <- <-. apply G; auto. discriminate.
Qed.
Print Assumptions C17_pop_add.
(** appending a name gives a direct child, whatever the path; pop undoes it *)
Theorem C17_append_child : forall s p name, path_make s false = Ok p -> plain_name name -> noslash name -> dirs p <> [dot] ->
  dirs (path_add_name p name) = dirs p ++ [name] /\ (dirs p <> [] -> pop (path_add_name p name) = Some (name, p)) /\
  wf (path_add_name p name) /\ forall from, walk from (dirs (path_add_name p name)) = walk from (dirs p) ++ [name].
Proof.
  intros s p name H (Hn1 & Hn2 & Hn3) Hs Hd. destruct (make_wf s p H) as (W1 & W2 & W3 & W4 & W5). destruct p as [ds rel und]. cbn [dirs relative undisclosed] in *. subst und.
  assert (Nm : normal (ds ++ [name])).
  { destruct W3 as [->|(k & names & -> & Q)]; [congruence|]. right. exists k, (names ++ [name]). rewrite app_assoc. split; [reflexivity|].
    apply Forall_app. split; [auto|]. constructor; [split; auto|constructor]. }
  assert (Na : rel = false -> ~ In dot (ds ++ [name])).
  { intros R. rewrite in_app_iff. cbn. intros [Q|[Q|[]]]; [exact (W5 R Q)|congruence]. }
  unfold path_add_name. cbn [dirs relative undisclosed].
  rewrite (reduce_id rel (ds ++ [name]) Nm) by (auto; intros _; destruct ds; discriminate). split; [reflexivity|]. split; [|split].
  - intro Ds. unfold pop. cbn [relative dirs undisclosed]. rewrite last_last, removelast_last.
    destruct rel.
    + destruct (Nat.ltb_spec 1 (length (ds ++ [name]))) as [|L]; [reflexivity|]. rewrite app_length in L. cbn in L. destruct ds; [congruence|cbn in L; lia].
    + destruct (ds ++ [name]) eqn:E; [destruct ds; discriminate|reflexivity].
  - split; [reflexivity|]. cbn [dirs relative]. split; [apply comps_snoc; [auto|split; auto]|]. split; [exact Nm|]. split; [intros _; destruct ds; discriminate|exact Na].
  - intro from. rewrite walk_app. cbn [walk]. destruct (str_eqb_spec name []); [congruence|]. destruct (str_eqb_spec name dot); [congruence|].
    destruct (str_eqb_spec name dotdot); [congruence|]. reflexivity.
Qed.
Print Assumptions C17_append_child.
(** adding a relative path leads to the place it leads to from there; adding an absolute one is refused *)
Theorem C17_add : forall s t p q, path_make s false = Ok p -> path_make t false = Ok q ->
  (relative q = false -> path_add p q = Err Erange) /\
  (relative q = true -> exists r, path_add p q = Ok r /\ relative r = relative p /\ normal (dirs r) /\
     forall from, walk from (dirs r) = walk (walk from (dirs p)) (dirs q)).
Proof.
  intros s t p q Hp Hq. destruct (make_wf s p Hp) as (P1 & P2 & P3 & P4 & P5). destruct (make_wf t q Hq) as (Q1 & Q2 & Q3 & Q4 & Q5).
  unfold path_add. split; intros R; rewrite R; cbn [negb]; [reflexivity|]. eexists. split; [reflexivity|]. cbn [relative dirs]. split; [reflexivity|].
  assert (Ne : Forall (fun x => x <> []) (dirs p ++ filter (fun x => negb (str_eqb x dot)) (dirs q))).
  { apply Forall_app. split; [apply comps_ne; auto|]. eapply Forall_impl; [|apply filter_nodot, comps_ne; auto]. cbn. tauto. }
  split; [apply (reduce_normal (relative p) _ Ne)|]. intro from. rewrite reduce_walk by exact Ne. rewrite walk_app, walk_filter. reflexivity.
Qed.
Print Assumptions C17_add.

(** ** Every history of operations *)
Inductive reachable : path -> Prop :=
  | r_make : forall s u p, path_make s u = Ok p -> reachable p
  | r_pop : forall p n p', reachable p -> pop p = Some (n, p') -> reachable p'
  | r_pop_front : forall p n p', reachable p -> pop_front p = Some (n, p') -> reachable p'
  | r_add : forall p q r, reachable p -> reachable q -> path_add p q = Ok r -> reachable r
  | r_name : forall p n, reachable p -> reachable (path_add_name p n)
  | r_explode : forall p, reachable p -> reachable (explode_undisclosed p).
Lemma reduce_nonempty : forall ds, reduce true ds <> [].
Proof.
  intro ds. unfold reduce. cbn [andb]. destruct (filter _ ds) as [|a l]; [discriminate|].
  destruct (reduce_loop [] (a :: l)) eqn:E; [discriminate|discriminate].
Qed.
(** a relative path always has a component: displaying it without its root never reads past the end *)
Theorem C17_display_without_root_safe : forall p, reachable p -> (relative p = true -> dirs p <> []) /\ display_without_root p <> Err UB.
Proof.
  assert (M : forall s u p, path_make s u = Ok p -> relative p = true -> dirs p <> []).
  { intros s u p H. destruct s as [|c r]; [discriminate|]. unfold path_make in H.
    match type of H with context [if ?b then Err Erange else _] => destruct b; [discriminate|] end.
    injection H as <-. cbn [relative dirs]. intros R. rewrite R. destruct (if (c =? SLASH) && str_eqb r [] then false else u); intro Q; [discriminate Q|exact (reduce_nonempty _ Q)]. }
  intros p H. assert (R : relative p = true -> dirs p <> []).
  { induction H as [s u p H|p n p' _ IH H|p n p' _ IH H|p q r _ IHp _ IHq H|p n _ IH|p _ IH].
    - eapply M; eauto.
    - unfold pop in H. destruct (relative p).
      + destruct (Nat.ltb_spec 1 (length (dirs p))) as [L|]; [|discriminate]. injection H as <- <-. cbn. intros _ Q.
        assert (dirs p = removelast (dirs p) ++ [last (dirs p) []]) as E by (apply app_removelast_last; destruct (dirs p); [cbn in L; lia|discriminate]).
        rewrite E, Q in L. cbn in L. lia.
      + destruct (dirs p); [discriminate|]. injection H as <- <-. discriminate.
    - unfold pop_front in H. destruct (relative p).
      + destruct (dirs p) as [|a [|b d]]; try discriminate. injection H as <- <-. discriminate.
      + destruct (dirs p); [discriminate|]. injection H as <- <-. discriminate.
    - unfold path_add in H. destruct (negb (relative q)); [discriminate|]. injection H as <-. cbn. intros ->. apply reduce_nonempty.
    - cbn. intros ->. apply reduce_nonempty.
    - unfold explode_undisclosed. destruct (undisclosed p); [|exact IH]. destruct (path_make (display p) false) eqn:E; [|exact IH]. eapply M; eauto. }
  split; [exact R|]. unfold display_without_root. destruct (relative p); [|discriminate]. destruct (dirs p); [exfalso; apply R; reflexivity|discriminate].
Qed.
Print Assumptions C17_display_without_root_safe.

Example C17_instance : (* "/a//./b/../c/" is "/a/c" *)
  path_make [47; 97; 47; 47; 46; 47; 98; 47; 46; 46; 47; 99; 47] false = Ok (Path [[97]; [99]] false false) /\
  display (Path [[97]; [99]] false false) = [47; 97; 47; 99] /\
  is_subdir_of (Path [[97]; [99]] false false) (Path [[97]] false false) = true /\
  is_subdir_of (Path [[97; 98]] false false) (Path [[97]] false false) = false.
Proof. vm_compute. auto. Qed.
