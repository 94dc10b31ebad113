(** * Property C36: the overwriting policy given on the command line means what the manual says. *)
From Verif Require Import Base NumModel FileModel InfinintModel DatetimeModel DeciModel DeciProof PropDeci CrcModel DbModel CritModel PropCrit PolicyModel.
Open Scope N_scope.

(** ** The language of the manual (man/dar.1, option -/) *)
(** a unary expression: a letter, R(number) or r(number), a negation, an inversion, a parenthesised condition;
    a condition is a disjunction of conjunctions of unary expressions *)
Inductive unary := U_atom (x : N) | U_date (x : N) (digits : list N) | U_not (u : unary) | U_inv (u : unary) | U_par (o : list (list unary)).
Definition join {A} (f : A -> list N) (sep : N) : list A -> list N :=
  fix go l := match l with [] => [] | [x] => f x | x :: r => f x ++ sep :: go r end.
Fixpoint show_u (u : unary) : list N :=
  match u with
  | U_atom x => [x]
  | U_date x d => x :: 40 :: d ++ [41]
  | U_not u => 33 :: show_u u
  | U_inv u => 126 :: show_u u
  | U_par o => 40 :: join (join show_u 38) 124 o ++ [41]
  end.
Definition show (o : list (list unary)) : list N := join (join show_u 38) 124 o.
(** its meaning *)
Fixpoint sem_u (h : N) (u : unary) : crit :=
  match u with
  | U_atom x => match atom h x with Some c => c | None => C_or [] end
  | U_date x d => if x =? 82 then C_data_recent_to (str_value d) h else C_EA_recent_to (str_value d) h
  | U_not u => C_not (sem_u h u)
  | U_inv u => C_invert (sem_u h u)
  | U_par o => C_or (map (fun l => C_and (map (sem_u h) l)) o)
  end.
Definition sem (h : N) (o : list (list unary)) : crit := C_or (map (fun l => C_and (map (sem_u h) l)) o).
(** well formed expressions *)
Fixpoint good_u (u : unary) : Prop :=
  match u with
  | U_atom x => atom 0 x <> None
  | U_date x d => (x = 82 \/ x = 114) /\ d <> [] /\ Forall (fun c => 48 <= c /\ c <= 57) d
  | U_not u | U_inv u => good_u u
  | U_par o => o <> [] /\ (fix all o := match o with [] => True | l :: r => (l <> [] /\ (fix alll l := match l with [] => True | u :: r => good_u u /\ alll r end) l) /\ all r end) o
  end.
Definition good (o : list (list unary)) : Prop := good_u (U_par o).
(** a parenthesised disjunction *)
Fixpoint opens_u (u : unary) : bool :=
  match u with U_par o => match o with [[v]] => opens_u v | [_] => false | _ => true end | _ => false end.
(** no conjunction ends with a parenthesised disjunction (see the finding below) *)
Definition ends_well (l : list unary) : Prop := match l with [] | [_] => True | _ => opens_u (last l (U_atom 0)) = false end.
Fixpoint safe_u (u : unary) : Prop :=
  match u with
  | U_not u | U_inv u => safe_u u
  | U_par o => (fix all o := match o with [] => True | l :: r => (ends_well l /\ (fix alll l := match l with [] => True | u :: r => safe_u u /\ alll r end) l) /\ all r end) o
  | _ => True
  end.
Definition safe (o : list (list unary)) : Prop := safe_u (U_par o).

(** ** Scanning *)
Definition push (s : list N) (f : option (list N * list N)) : option (list N * list N) :=
  match f with Some (a, b) => Some (s ++ a, b) | None => None end.
Definition skips (c d : N) (s : list N) : Prop :=
  forall r, find_out c d (s ++ r) = (let* f := find_out c d r in Ok (push s f)).
Lemma push_nil : forall r : res (option (list N * list N)), (let* f := r in Ok (push [] f)) = r.
Proof. intros [[[a b]|]|]; reflexivity. Qed.
Lemma skips_nil : forall c d, skips c d [].
Proof. intros c d r. rewrite push_nil. reflexivity. Qed.
Lemma skips_app : forall c d s t, skips c d s -> skips c d t -> skips c d (s ++ t).
Proof. intros c d s t Hs Ht r. rewrite <- app_assoc, Hs, Ht. destruct (find_out c d r) as [[[a b]|]|]; cbn; rewrite ?app_assoc; reflexivity. Qed.
Lemma skips_char : forall c d x, x <> 40 -> x <> 41 -> (x <> c \/ 0 < d) -> skips c d [x].
Proof.
  intros c d x H1 H2 H3 r. cbn. replace ((x =? c) && (d =? 0)) with false by lia. replace (x =? 40) with false by lia. replace (x =? 41) with false by lia.
  cbn. destruct (find_out c d r) as [[[a b]|]|]; reflexivity.
Qed.
Lemma find_open : forall c d r, c <> 40 -> find_out c d (40 :: r) = (let* f := find_out c (d + 1) r in Ok (push [40] f)).
Proof.
  intros c d r H. cbn [find_out]. replace (40 =? c) with false by lia. cbn [andb N.eqb Pos.eqb bind].
  destruct (find_out c (d + 1) r) as [[[a b]|]|]; reflexivity.
Qed.
Lemma find_close : forall c d r, c <> 41 -> find_out c (d + 1) (41 :: r) = (let* f := find_out c d r in Ok (push [41] f)).
Proof.
  intros c d r H. cbn [find_out]. replace (41 =? c) with false by lia. replace (0 <? d + 1) with true by lia. cbn [andb N.eqb Pos.eqb bind]. rewrite N.add_sub.
  destruct (find_out c d r) as [[[a b]|]|]; reflexivity.
Qed.
Lemma skips_paren : forall c d s, c <> 40 -> c <> 41 -> skips c (d + 1) s -> skips c d (40 :: s ++ [41]).
Proof.
  intros c d s H1 H2 H r. cbn [app]. rewrite find_open by exact H1. rewrite <- app_assoc, H. cbn [app]. rewrite find_close by exact H2.
  destruct (find_out c d r) as [[[a b]|]|]; cbn; rewrite <- ?app_assoc; reflexivity.
Qed.
Lemma skips_join : forall A (f : A -> list N) c d sep l, (forall x, In x l -> skips c d (f x)) -> skips c d [sep] -> skips c d (join f sep l).
Proof.
  intros A f c d sep l H Hs. induction l as [|x l IH]; [apply skips_nil|]. destruct l as [|y l].
  - apply H. left; reflexivity.
  - change (skips c d (f x ++ ([sep] ++ join f sep (y :: l)))). apply skips_app; [apply H; left; reflexivity|]. apply skips_app; [exact Hs|].
    apply IH. intros z Hz. apply H. right; exact Hz.
Qed.
Lemma skips_none : forall c d s, skips c d s -> find_out c d s = Ok None.
Proof. intros c d s H. specialize (H []). rewrite app_nil_r in H. rewrite H. reflexivity. Qed.
Lemma skips_found : forall c s r, skips c 0 s -> find_out c 0 (s ++ c :: r) = Ok (Some (s, r)).
Proof. intros c s r H. rewrite H. cbn. rewrite N.eqb_refl. cbn. rewrite app_nil_r. reflexivity. Qed.

(** induction on unary expressions *)
Section UInd.
  Variable P : unary -> Prop.
  Hypothesis Ha : forall x, P (U_atom x).
  Hypothesis Hd : forall x d, P (U_date x d).
  Hypothesis Hn : forall u, P u -> P (U_not u).
  Hypothesis Hi : forall u, P u -> P (U_inv u).
  Hypothesis Hp : forall o, Forall (Forall P) o -> P (U_par o).
  Fixpoint unary_ind2 (u : unary) : P u.
  Proof.
    destruct u; [apply Ha|apply Hd|apply Hn, unary_ind2|apply Hi, unary_ind2|]. apply Hp. induction o as [|l o IH]; constructor; [|exact IH].
    induction l; constructor; auto.
  Defined.
End UInd.
Lemma good_par : forall o, good_u (U_par o) <-> o <> [] /\ forall l, In l o -> l <> [] /\ forall u, In u l -> good_u u.
Proof.
  intro o. cbn. split; intros [H1 H2]; (split; [exact H1|]).
  - clear H1. induction o as [|l o IH]; intros l' Hin; [destruct Hin|]. destruct H2 as [[H2 H3] H4]. destruct Hin as [<-|Hin]; [|apply IH; assumption].
    split; [exact H2|]. clear -H3. induction l as [|u l IH]; intros v Hin; [destruct Hin|]. destruct H3 as [H3 H4]. destruct Hin as [<-|Hin]; auto.
  - clear H1. induction o as [|l o IH]; [exact I|]. split; [|apply IH; intros l' Hin; apply H2; right; exact Hin].
    destruct (H2 l (or_introl eq_refl)) as [H3 H4]. split; [exact H3|]. clear -H4. induction l as [|u l IH]; [exact I|]. split; [apply H4; left; reflexivity|].
    apply IH. intros v Hv. apply H4. right; exact Hv.
Qed.
Lemma safe_par : forall o, safe_u (U_par o) <-> forall l, In l o -> ends_well l /\ forall u, In u l -> safe_u u.
Proof.
  intro o. cbn. split; intro H2.
  - induction o as [|l o IH]; intros l' Hin; [destruct Hin|]. destruct H2 as [[H2 H3] H4]. destruct Hin as [<-|Hin]; [|apply IH; assumption].
    split; [exact H2|]. clear -H3. induction l as [|u l IH]; intros v Hin; [destruct Hin|]. destruct H3 as [H3 H4]. destruct Hin as [<-|Hin]; auto.
  - induction o as [|l o IH]; [exact I|]. split; [|apply IH; intros l' Hin; apply H2; right; exact Hin].
    destruct (H2 l (or_introl eq_refl)) as [H3 H4]. split; [exact H3|]. clear -H4. induction l as [|u l IH]; [exact I|]. split; [apply H4; left; reflexivity|].
    apply IH. intros v Hv. apply H4. right; exact Hv.
Qed.
(** the characters searched for by the parser: | & ; } ] *)
Definition searched (c : N) : Prop := c = 124 \/ c = 38 \/ c = 59 \/ c = 125 \/ c = 93.
Lemma atom_not_special : forall h x c, atom h x = Some c -> x <> 40 /\ x <> 41 /\ x <> 124 /\ x <> 38 /\ x <> 59 /\ x <> 125 /\ x <> 93 /\ x <> 33 /\ x <> 126.
Proof.
  intros h x c H. repeat split; intros ->; discriminate.
Qed.
Lemma atom_h : forall h x, atom 0 x <> None -> exists c, atom h x = Some c.
Proof.
  intros h x H. unfold atom in *. repeat match goal with |- context [if ?b then _ else _] => destruct b; [eexists; reflexivity|] end. congruence.
Qed.
Lemma skips_str : forall c d s, (forall x, In x s -> x <> 40 /\ x <> 41 /\ (x <> c \/ 0 < d)) -> skips c d s.
Proof.
  intros c d s H. induction s as [|x s IH]; [apply skips_nil|]. change (skips c d ([x] ++ s)). apply skips_app.
  - destruct (H x (or_introl eq_refl)) as (H1 & H2 & H3). apply skips_char; assumption.
  - apply IH. intros y Hy. apply H. right; exact Hy.
Qed.
Lemma show_u_skips : forall u c d, good_u u -> searched c -> skips c d (show_u u).
Proof.
  induction u as [x|x ds|u IH|u IH|o IH] using unary_ind2; intros c d Hg Hc.
  - cbn in Hg. destruct (atom_h 0 x Hg) as [k Hk]. apply atom_not_special in Hk. apply skips_char; try tauto. left. unfold searched in Hc. intuition congruence.
  - destruct Hg as (Hx & _ & Hd). cbn [show_u]. change (skips c d ([x] ++ (40 :: ds ++ [41]))). apply skips_app.
    + apply skips_char; unfold searched in Hc; destruct Hx; subst; try discriminate; left; intro; subst; intuition discriminate.
    + unfold searched in Hc. apply skips_paren; try (intuition congruence). apply skips_str. intros y Hy. rewrite Forall_forall in Hd. apply Hd in Hy. split; [lia|]. split; lia.
  - cbn [show_u]. change (skips c d ([33] ++ show_u u)). apply skips_app; [|apply IH; assumption]. apply skips_char; try discriminate. left. unfold searched in Hc. intuition congruence.
  - cbn [show_u]. change (skips c d ([126] ++ show_u u)). apply skips_app; [|apply IH; assumption]. apply skips_char; try discriminate. left. unfold searched in Hc. intuition congruence.
  - cbn [show_u]. apply good_par in Hg as [_ Hg]. unfold searched in Hc. apply skips_paren; try (intuition congruence). apply skips_join.
    + intros l Hl. rewrite Forall_forall in IH. specialize (IH l Hl). rewrite Forall_forall in IH. destruct (Hg l Hl) as [_ Hg']. apply skips_join.
      * intros u Hu. apply IH; [exact Hu|apply Hg'; exact Hu|exact Hc].
      * apply skips_char; try discriminate. right. lia.
    + apply skips_char; try discriminate. right. lia.
Qed.
Lemma show_and_skips : forall l c d, (forall u, In u l -> good_u u) -> searched c -> (c <> 38 \/ 0 < d) -> skips c d (join show_u 38 l).
Proof.
  intros l c d Hg Hc H. apply skips_join; [intros u Hu; apply show_u_skips; auto|]. apply skips_char; try discriminate. destruct H; [left; congruence|right; assumption].
Qed.
Lemma show_skips : forall o c d, good o -> searched c -> (c <> 38 /\ c <> 124 \/ 0 < d) -> skips c d (show o).
Proof.
  intros o c d Hg Hc H. apply good_par in Hg as [_ Hg]. apply skips_join.
  - intros l Hl. apply show_and_skips; [apply Hg; exact Hl|exact Hc|tauto].
  - apply skips_char; try discriminate. destruct H as [[_ H]|H]; [left; congruence|right; exact H].
Qed.

(** ** Evaluation *)
Definition same (c d : crit) : Prop := forall cap a b, evaluate cap c a b = evaluate cap d a b.
Lemma same_refl : forall c, same c c.
Proof. intros c cap a b. reflexivity. Qed.
Lemma eval_or_cons : forall cap c l a b, evaluate cap (C_or (c :: l)) a b = (let* x := evaluate cap c a b in if x : bool then Ok true else or_go cap a b l).
Proof. reflexivity. Qed.
Lemma eval_and_cons : forall cap c l a b, evaluate cap (C_and (c :: l)) a b = (let* x := evaluate cap c a b in if x : bool then and_go cap a b l else Ok false).
Proof. reflexivity. Qed.
Lemma same_or1 : forall c, same (C_or [c]) c.
Proof. intros c cap a b. rewrite eval_or_cons. cbn. destruct (evaluate cap c a b) as [[]|]; reflexivity. Qed.
Lemma same_and1 : forall c, same (C_and [c]) c.
Proof. intros c cap a b. rewrite eval_and_cons. cbn. destruct (evaluate cap c a b) as [[]|]; reflexivity. Qed.
(** building the disjunction and the conjunction from the first member and the rest *)
Lemma same_or_cons : forall c c' b l, same c c' -> same b (C_or l) -> l <> [] -> b <> C_or [] ->
  same (match b with C_or m => C_or (c :: m) | _ => C_or [c; b] end) (C_or (c' :: l)).
Proof.
  intros c c' b l Hc Hb Hl Hn cap x y. rewrite (eval_or_cons cap c' l).
  assert (X : same (match b with C_or m => C_or (c :: m) | _ => C_or [c; b] end) (C_or [c; b])).
  { destruct b; try apply same_refl. intros cap' x' y'. rewrite !eval_or_cons. destruct (evaluate cap' c x' y') as [[]|]; try reflexivity. cbn [bind].
    cbn [or_go]. rewrite eval_or by congruence. destruct (or_go cap' x' y' l0) as [[]|]; reflexivity. }
  rewrite (X cap x y), eval_or_cons, (Hc cap x y). destruct (evaluate cap c' x y) as [[]|]; try reflexivity. cbn [bind or_go].
  rewrite (Hb cap x y), eval_or by exact Hl. destruct (or_go cap x y l) as [[]|]; reflexivity.
Qed.
Lemma same_and_cons : forall c c' b l, same c c' -> same b (C_and l) -> l <> [] -> b <> C_and [] -> (forall m, b <> C_or m) ->
  same (match b with C_and m | C_or m => C_and (c :: m) | _ => C_and [c; b] end) (C_and (c' :: l)).
Proof.
  intros c c' b l Hc Hb Hl Hn Ho cap x y. rewrite (eval_and_cons cap c' l).
  assert (X : same (match b with C_and m | C_or m => C_and (c :: m) | _ => C_and [c; b] end) (C_and [c; b])).
  { destruct b; try apply same_refl; [|exfalso; eapply Ho; reflexivity].
    intros cap' x' y'. rewrite !eval_and_cons. destruct (evaluate cap' c x' y') as [[]|]; try reflexivity. cbn [bind].
    cbn [and_go]. rewrite eval_and by congruence. destruct (and_go cap' x' y' l0) as [[]|]; reflexivity. }
  rewrite (X cap x y), eval_and_cons, (Hc cap x y). destruct (evaluate cap c' x y) as [[]|]; try reflexivity. cbn [bind and_go].
  rewrite (Hb cap x y), eval_and by exact Hl. destruct (and_go cap x y l) as [[]|]; reflexivity.
Qed.
(** ** The parser on well formed conditions *)
Lemma join_cons : forall A (f : A -> list N) sep x y l, join f sep (x :: y :: l) = f x ++ sep :: join f sep (y :: l).
Proof. reflexivity. Qed.
Definition opens (o : list (list unary)) : bool := opens_u (U_par o).
Definition parsed (h : N) (o : list (list unary)) (c : crit) : Prop :=
  same c (sem h o) /\ c <> C_or [] /\ c <> C_and [] /\ (forall m, c = C_or m -> opens o = true).
Lemma show_u_ne : forall u, show_u u <> [].
Proof. destruct u; discriminate. Qed.
Lemma join_ne : forall A (f : A -> list N) sep l, (forall x, In x l -> f x <> []) -> l <> [] -> join f sep l <> [].
Proof.
  intros A f sep [|x [|y l]] H Hl; [congruence|apply H; left; reflexivity|]. rewrite join_cons. intro X. apply app_eq_nil in X as [_ X]. discriminate.
Qed.
Lemma last_snoc : forall (s : list N) x d, last (s ++ [x]) d = x.
Proof. intros. apply last_last. Qed.
Lemma parse_crit_spec : forall conv h n o, (length (show o) < n)%nat -> good o -> safe o ->
  exists c, parse_crit conv h n (show o) = Ok c /\ parsed h o c.
Proof.
  intros conv h. induction n as [|n IH]; intros o Hlen Hg Hs; [lia|].
  pose proof (proj1 (good_par o) Hg) as [Hne Hgl]. pose proof (proj1 (safe_par o) Hs) as Hsl.
  assert (NE : show o <> []).
  { apply join_ne; [|exact Hne]. intros l Hl. destruct (Hgl l Hl) as [Hl2 _]. apply join_ne; [intros; apply show_u_ne|exact Hl2]. }
  assert (exists x r, show o = x :: r) as (x & r & Es) by (destruct (show o) as [|x r]; [congruence|eauto]). clear NE.
  cbn [parse_crit]. rewrite Es. cbv match. rewrite <- Es.
  destruct o as [|l [|l2 o]]; [congruence| |].
  2:{ (* a disjunction *)
    change (show (l :: l2 :: o)) with (join show_u 38 l ++ 124 :: show (l2 :: o)) in *. destruct (Hgl l (or_introl eq_refl)) as [Hl Hlu].
    rewrite skips_found by (apply show_and_skips; [exact Hlu|left; reflexivity|left; discriminate]). cbn [bind].
    assert (G1 : good [l]) by (apply good_par; split; [discriminate|]; intros l' [<-|[]]; auto).
    assert (S1 : safe [l]) by (apply safe_par; intros l' [<-|[]]; apply Hsl; left; reflexivity).
    assert (G2 : good (l2 :: o)) by (apply good_par; split; [discriminate|]; intros l' Hin; apply Hgl; right; exact Hin).
    assert (S2 : safe (l2 :: o)) by (apply safe_par; intros l' Hin; apply Hsl; right; exact Hin).
    rewrite app_length in Hlen. cbn [length] in Hlen.
    destruct (IH [l]) as (ca & E1 & P1 & _); [change (show [l]) with (join show_u 38 l); lia|exact G1|exact S1|]. change (show [l]) with (join show_u 38 l) in E1. rewrite E1. cbn [bind].
    destruct (IH (l2 :: o)) as (cb & E2 & P2 & N2 & N3 & _); [lia|exact G2|exact S2|]. rewrite E2. cbn [bind].
    eexists. split; [reflexivity|]. split.
    - unfold sem in *. cbn [map] in *. apply (same_or_cons ca (C_and (map (sem_u h) l)) cb); auto; [|discriminate].
      intros cap a b. rewrite P1. apply same_or1.
    - assert (OP : opens (l :: l2 :: o) = true) by (destruct l as [|? [|? ?]]; reflexivity). destruct cb; repeat split; try discriminate; intros; exact OP. }
  destruct (Hgl l (or_introl eq_refl)) as [Hl Hlu]. destruct (Hsl l (or_introl eq_refl)) as [Hw Hsu]. change (show [l]) with (join show_u 38 l) in *.
  rewrite skips_none by (apply show_and_skips; [exact Hlu|left; reflexivity|left; discriminate]). cbn [bind].
  destruct l as [|u [|u2 l]]; [congruence| |].
  2:{ (* a conjunction *)
    change (join show_u 38 (u :: u2 :: l)) with (show_u u ++ 38 :: show [u2 :: l]) in *. rewrite skips_found by (apply show_u_skips; [apply Hlu; left; reflexivity|right; left; reflexivity]). cbn [bind].
    assert (G1 : good [[u]]) by (apply good_par; split; [discriminate|]; intros l' [<-|[]]; split; [discriminate|]; intros v [<-|[]]; apply Hlu; left; reflexivity).
    assert (S1 : safe [[u]]) by (apply safe_par; intros l' [<-|[]]; split; [exact I|]; intros v [<-|[]]; apply Hsu; left; reflexivity).
    assert (G2 : good [u2 :: l]) by (apply good_par; split; [discriminate|]; intros l' [<-|[]]; split; [discriminate|]; intros v Hv; apply Hlu; right; exact Hv).
    assert (S2 : safe [u2 :: l]).
    { apply safe_par; intros l' [<-|[]]; split; [|intros v Hv; apply Hsu; right; exact Hv]. unfold ends_well in *. destruct l; [exact I|exact Hw]. }
    rewrite app_length in Hlen. cbn [length] in Hlen.
    destruct (IH [[u]]) as (ca & E1 & P1 & _); [change (show [[u]]) with (show_u u); lia|exact G1|exact S1|]. change (show [[u]]) with (show_u u) in E1. rewrite E1. cbn [bind].
    destruct (IH [u2 :: l]) as (cb & E2 & P2 & N2 & N3 & O2); [lia|exact G2|exact S2|]. rewrite E2. cbn [bind].
    assert (NO : forall m, cb <> C_or m).
    { intros m X. apply O2 in X. unfold opens in X. destruct l as [|u3 l]; [|discriminate]. unfold ends_well in Hw. cbn in Hw, X. congruence. }
    eexists. split; [reflexivity|]. split.
    - assert (Y : same (match cb with C_and m | C_or m => C_and (ca :: m) | _ => C_and [ca; cb] end) (C_and (map (sem_u h) (u :: u2 :: l)))).
      { cbn [map]. apply (same_and_cons ca (sem_u h u) cb (sem_u h u2 :: map (sem_u h) l)); auto; try discriminate.
        - intros cap a b. rewrite P1. unfold sem. cbn [map]. rewrite (same_or1 _ cap a b). apply same_and1.
        - intros cap a b. rewrite P2. unfold sem. cbn [map]. apply same_or1. }
      intros cap a b. rewrite Y. unfold sem. cbn [map]. symmetry. apply same_or1.
    - destruct cb; repeat split; try discriminate; intros; discriminate. }
  (* a unary expression *)
  change (join show_u 38 [u]) with (show_u u) in *. specialize (Hlu u (or_introl eq_refl)). specialize (Hsu u (or_introl eq_refl)).
  rewrite skips_none by (apply show_u_skips; [exact Hlu|right; left; reflexivity]). cbn [bind].
  assert (Z : forall c, same c (sem_u h u) -> same c (sem h [[u]])).
  { intros c Hc cap a b. rewrite Hc. unfold sem. cbn [map]. symmetry. rewrite (same_or1 _ cap a b). apply same_and1. }
  destruct u as [y|y ds|v|v|o]; cbn [show_u] in Es; injection Es as Ex Er; subst x; cbn [show_u] in *.
  - cbn in Hlu. destruct (atom_h h y Hlu) as [c Hc]. pose proof (atom_not_special _ _ _ Hc) as Hy.
    replace (y =? 40) with false by lia. cbn [andb]. replace (y =? 33) with false by lia. replace (y =? 126) with false by lia. subst r. cbn [length hd Nat.leb andb].
    rewrite Hc. eexists. split; [reflexivity|]. split; [apply Z; cbn; rewrite Hc; apply same_refl|].
    unfold atom in Hc. repeat match type of Hc with (if ?b then _ else _) = _ => destruct b; [injection Hc as <-; repeat split; intros; discriminate|] end. discriminate.
  - destruct Hlu as (Hy & Hd & Hdig). subst r. assert (y <> 40 /\ y <> 33 /\ y <> 126) as (Y1 & Y2 & Y3) by (destruct Hy; subst; repeat split; discriminate).
    replace (y =? 40) with false by lia. cbn [andb]. replace (y =? 33) with false by lia. replace (y =? 126) with false by lia.
    cbn [hd tl]. change (y :: 40 :: ds ++ [41]) with ((y :: 40 :: ds) ++ [41]). rewrite last_snoc. rewrite N.eqb_refl, N.eqb_refl, !andb_true_r.
    replace (4 <=? length ((y :: 40%N :: ds) ++ [41%N]))%nat with true by (destruct ds; [congruence|]; rewrite app_length; cbn [length]; lia).
    replace ((y =? 82) || (y =? 114)) with true by lia. rewrite removelast_last.
    unfold date_arg. rewrite (proj1 (C06_computer ds)) by assumption. cbn [bind]. eexists. split; [reflexivity|]. split; [apply Z; cbn; apply same_refl|].
    destruct (y =? 82); repeat split; intros; discriminate.
  - cbn [N.eqb Pos.eqb andb]. subst r. cbn in Hlu, Hsu.
    assert (G1 : good [[v]]) by (apply good_par; split; [discriminate|]; intros l' [<-|[]]; split; [discriminate|]; intros w [<-|[]]; exact Hlu).
    assert (S1 : safe [[v]]) by (apply safe_par; intros l' [<-|[]]; split; [exact I|]; intros w [<-|[]]; exact Hsu).
    destruct (IH [[v]]) as (c & E & P1 & _); [cbn in *; lia|exact G1|exact S1|]. change (show [[v]]) with (show_u v) in E. rewrite E. cbn [bind].
    eexists. split; [reflexivity|]. split; [|repeat split; intros; discriminate]. apply Z. intros cap a b. cbn. rewrite (P1 cap a b). unfold sem. cbn [map].
    rewrite (same_or1 _ cap a b), (same_and1 _ cap a b). reflexivity.
  - cbn [N.eqb Pos.eqb andb]. subst r. cbn in Hlu, Hsu.
    assert (G1 : good [[v]]) by (apply good_par; split; [discriminate|]; intros l' [<-|[]]; split; [discriminate|]; intros w [<-|[]]; exact Hlu).
    assert (S1 : safe [[v]]) by (apply safe_par; intros l' [<-|[]]; split; [exact I|]; intros w [<-|[]]; exact Hsu).
    destruct (IH [[v]]) as (c & E & P1 & _); [cbn in *; lia|exact G1|exact S1|]. change (show [[v]]) with (show_u v) in E. rewrite E. cbn [bind].
    eexists. split; [reflexivity|]. split; [|repeat split; intros; discriminate]. apply Z. intros cap a b. cbn. rewrite (P1 cap b a). unfold sem. cbn [map].
    rewrite (same_or1 _ cap b a), (same_and1 _ cap b a). reflexivity.
  - subst r. change (40 :: join (join show_u 38) 124 o ++ [41]) with ((40 :: show o) ++ [41]). rewrite last_snoc, !N.eqb_refl. cbn [andb].
    change (join (join show_u 38) 124 o) with (show o). rewrite removelast_last.
    destruct (IH o) as (c & E & P1 & N1 & N2 & O1); [change (join (join show_u 38) 124 o) with (show o) in Hlen; cbn in Hlen; rewrite app_length in Hlen; cbn in Hlen; lia|exact Hlu|exact Hsu|].
    rewrite E. exists c. split; [reflexivity|]. split; [apply Z; exact P1|]. repeat split; auto.
Qed.

(** every condition of the language is accepted and means what it says *)
Theorem C36_condition : forall conv h o, good o -> safe o ->
  exists c, parse_crit conv h (S (length (show o))) (show o) = Ok c /\ forall cap a b, evaluate cap c a b = evaluate cap (sem h o) a b.
Proof. intros conv h o Hg Hs. destruct (parse_crit_spec conv h (S (length (show o))) o ltac:(lia) Hg Hs) as (c & E & P & _). eauto. Qed.

(** ** Policies: tests with constant actions, an optional default action, chains *)
Inductive seg := S_act (x y : N) | S_test (o : list (list unary)) (x y : N) | S_else (o : list (list unary)) (x y : N) (next : seg).
Fixpoint show_seg (g : seg) : list N :=
  match g with
  | S_act x y => [x; y]
  | S_test o x y => 123 :: show o ++ [125; 91; x; y; 93]
  | S_else o x y g => 123 :: show o ++ [125; 91; x; y; 93] ++ show_seg g
  end.
Definition action (x y : N) : policy :=
  P_const (match data_letter x with Some d => d | None => D_undefined end) (match ea_letter y with Some e => e | None => A_undefined end).
(** without default action, nothing is decided when the condition does not hold *)
Fixpoint sem_seg (h : N) (g : seg) : policy :=
  match g with
  | S_act x y => action x y
  | S_test o x y => P_test (sem h o) (action x y) (P_const D_undefined A_undefined)
  | S_else o x y g => P_test (sem h o) (action x y) (sem_seg h g)
  end.
Definition letters (x y : N) : Prop := data_letter x <> None /\ ea_letter y <> None.
Fixpoint good_seg (g : seg) : Prop :=
  match g with
  | S_act x y => letters x y
  | S_test o x y => good o /\ safe o /\ letters x y
  | S_else o x y g => good o /\ safe o /\ letters x y /\ good_seg g
  end.
Definition show_policy (l : list seg) : list N := join show_seg 59 l.
Definition sem_policy (h : N) (l : list seg) : policy := match l with [g] => sem_seg h g | _ => P_chain (map (sem_seg h) l) end.
Definition psame (p q : policy) : Prop := forall cap a b, get_action cap p a b = get_action cap q a b.

Lemma letter_special : forall x d, data_letter x = Some d -> x <> 40 /\ x <> 41 /\ x <> 59 /\ x <> 125 /\ x <> 93 /\ x <> 123.
Proof. intros x d H. repeat split; intros ->; discriminate. Qed.
Lemma ea_special : forall x d, ea_letter x = Some d -> x <> 40 /\ x <> 41 /\ x <> 59 /\ x <> 125 /\ x <> 93 /\ x <> 123.
Proof. intros x d H. repeat split; intros ->; discriminate. Qed.
Lemma letters_skip : forall x y c, letters x y -> c = 59 \/ c = 125 \/ c = 93 -> skips c 0 [x; y].
Proof.
  intros x y c [H1 H2] Hc. destruct (data_letter x) eqn:E1; [|congruence]. destruct (ea_letter y) eqn:E2; [|congruence].
  apply letter_special in E1. apply ea_special in E2. apply skips_str. intros z [<-|[<-|[]]]; repeat split; try tauto; left; intro; subst; intuition congruence.
Qed.
Lemma brace_skip : forall o c, good o -> c = 59 \/ c = 125 \/ c = 93 -> skips c 0 (123 :: show o).
Proof.
  intros o c Hg Hc. change (skips c 0 ([123] ++ show o)). apply skips_app; [apply skips_char; try discriminate; left; intro; subst; intuition discriminate|].
  apply show_skips; [exact Hg|unfold searched; tauto|left; split; intro; subst; intuition discriminate].
Qed.
Lemma test_skip : forall o x y, good o -> letters x y -> skips 59 0 (123 :: show o ++ [125; 91; x; y; 93]).
Proof.
  intros o x y Hg Hl. change (skips 59 0 ((123 :: show o) ++ ([125; 91] ++ ([x; y] ++ [93])))). apply skips_app; [apply brace_skip; auto|].
  apply skips_app; [apply skips_str; intros z [<-|[<-|[]]]; repeat split; try discriminate; left; discriminate|].
  apply skips_app; [apply letters_skip; auto|]. apply skips_char; try discriminate. left; discriminate.
Qed.
Lemma seg_skip : forall g, good_seg g -> skips 59 0 (show_seg g).
Proof.
  induction g as [x y|o x y|o x y g IH]; intros H; cbn [show_seg].
  - apply letters_skip; auto.
  - destruct H as (H1 & H2 & H3). apply test_skip; assumption.
  - destruct H as (H1 & H2 & H3 & H4). change (123 :: show o ++ [125; 91; x; y; 93] ++ show_seg g) with ((123 :: show o ++ [125; 91; x; y; 93] ++ show_seg g)).
    replace (123 :: show o ++ [125; 91; x; y; 93] ++ show_seg g) with ((123 :: show o ++ [125; 91; x; y; 93]) ++ show_seg g) by (cbn [app]; rewrite <- app_assoc; reflexivity).
    apply skips_app; [apply test_skip; assumption|apply IH; exact H4].
Qed.
Lemma parse_action : forall conv h n x y, letters x y -> parse_policy conv h (S n) [x; y] = Ok (action x y).
Proof.
  intros conv h n x y H. pose proof (letters_skip x y 59 H (or_introl eq_refl)) as K. destruct H as [H1 H2]. cbn [parse_policy]. rewrite skips_none by exact K. cbn [bind].
  unfold action. destruct (data_letter x) eqn:E1; [|congruence]. apply letter_special in E1. replace (x =? 123) with false by lia.
  destruct (ea_letter y); [reflexivity|congruence].
Qed.
(** the common part of the two forms of tests *)
Lemma parse_test : forall conv h n o x y rest, good o -> safe o -> letters x y -> skips 59 0 rest ->
  (6 + length (show o) + length rest < S n)%nat ->
  exists c, same c (sem h o) /\
    parse_policy conv h (S n) (123 :: show o ++ [125; 91; x; y; 93] ++ rest) =
      (let* f := match rest with [] => Ok (P_const D_undefined A_undefined) | _ => parse_policy conv h n rest end in Ok (P_test c (action x y) f)).
Proof.
  intros conv h n o x y rest Hg Hs Hl Hr Hn.
  set (s := 123 :: show o ++ [125; 91; x; y; 93] ++ rest).
  assert (Ls : length s = (6 + length (show o) + length rest)%nat) by (subst s; cbn [length]; rewrite !app_length; cbn [length]; lia).
  destruct (parse_crit_spec conv h (S (length s)) o ltac:(lia) Hg Hs) as (c & E & P & _). exists c. split; [exact P|].
  assert (F59 : find_out 59 0 s = Ok None).
  { apply skips_none. subst s. replace (123 :: show o ++ [125; 91; x; y; 93] ++ rest) with ((123 :: show o ++ [125; 91; x; y; 93]) ++ rest) by (cbn [app]; rewrite <- app_assoc; reflexivity).
    apply skips_app; [apply test_skip; assumption|exact Hr]. }
  assert (F125 : find_out 125 0 s = Ok (Some (123 :: show o, 91 :: x :: y :: 93 :: rest))).
  { subst s. change (123 :: show o ++ [125; 91; x; y; 93] ++ rest) with ((123 :: show o) ++ 125 :: (91 :: x :: y :: 93 :: rest)). apply skips_found, brace_skip; auto. }
  assert (F93 : find_out 93 0 s = Ok (Some ((123 :: show o) ++ [125; 91; x; y], rest))).
  { subst s. replace (123 :: show o ++ [125; 91; x; y; 93] ++ rest) with (((123 :: show o) ++ [125; 91; x; y]) ++ 93 :: rest) by (cbn [app]; rewrite <- !app_assoc; reflexivity).
    apply skips_found. apply skips_app; [apply brace_skip; auto|]. change [125; 91; x; y] with ([125; 91] ++ [x; y]). apply skips_app; [|apply letters_skip; auto].
    apply skips_str. intros z [<-|[<-|[]]]; repeat split; try discriminate; left; discriminate. }
  assert (SH : exists r, s = 123 :: r) by (subst s; eauto). destruct SH as [r Er].
  cbn [parse_policy]. rewrite Er. cbv match. rewrite <- Er. rewrite F59. cbn [bind]. rewrite N.eqb_refl, F125. cbn [bind hd]. rewrite N.eqb_refl. cbn [negb]. rewrite F93. cbn [bind tl].
  rewrite E. cbn [bind]. rewrite app_length.
  replace (length (123%N :: show o) + length [125%N; 91%N; x; y] <? length (123%N :: show o) + 2)%nat with false by (cbn [length]; lia).
  rewrite skipn_app, skipn_all2 by lia. replace (length (123%N :: show o) + 2 - length (123%N :: show o))%nat with 2%nat by lia. cbn [skipn app].
  destruct n as [|n]; [lia|]. rewrite parse_action by exact Hl. cbn [bind]. reflexivity.
Qed.
Lemma psame_test : forall c d t f f', same c d -> psame f f' -> psame (P_test c t f) (P_test d t f').
Proof. intros c d t f f' Hc Hf cap a b. cbn. rewrite (Hc cap a b). destruct (evaluate cap d a b) as [[]|]; try reflexivity. apply Hf. Qed.
Lemma parse_seg : forall conv h g n, good_seg g -> (length (show_seg g) < n)%nat ->
  exists p, parse_policy conv h n (show_seg g) = Ok p /\ psame p (sem_seg h g) /\ forall l, p <> P_chain l.
Proof.
  intros conv h. induction g as [x y|o x y|o x y g IH]; intros n Hg Hn; (destruct n as [|n]; [lia|]).
  - exists (action x y). split; [apply parse_action; exact Hg|]. split; [intros cap a b; reflexivity|discriminate].
  - destruct Hg as (H1 & H2 & H3). cbn [show_seg] in *. destruct (parse_test conv h n o x y [] H1 H2 H3 (skips_nil _ _)) as (c & Hc & E).
    { cbn [length] in *. rewrite app_length in Hn. cbn [length] in Hn. lia. }
    rewrite app_nil_r in E. rewrite E. cbn [bind]. eexists. split; [reflexivity|]. split; [|discriminate]. apply psame_test; [exact Hc|intros cap a b; reflexivity].
  - destruct Hg as (H1 & H2 & H3 & H4). cbn [show_seg] in Hn. cbn [length] in Hn. rewrite !app_length in Hn. cbn [length] in Hn.
    destruct (parse_test conv h n o x y (show_seg g) H1 H2 H3 (seg_skip g H4)) as (c & Hc & E); [lia|].
    cbn [show_seg]. rewrite E. assert (NE : show_seg g <> []) by (destruct g; discriminate). destruct (IH n H4) as (p & Ep & Hp & _); [lia|].
    destruct (show_seg g) eqn:Eg; [congruence|]. rewrite Ep. cbn [bind]. eexists. split; [reflexivity|]. split; [|discriminate]. apply psame_test; assumption.
Qed.
Lemma chain_go_congr : forall cap a b l l' d e, Forall2 psame l l' -> chain_go cap a b l d e = chain_go cap a b l' d e.
Proof.
  intros cap a b l l' d e H. revert d e. induction H as [|p q l l' Hp H IH]; intros d e; [reflexivity|]. cbn [chain_go]. destruct (d_undef d || e_undef e); [|reflexivity].
  rewrite (Hp cap a b). destruct (get_action cap q a b) as [[td te]|]; [|reflexivity]. cbn [bind]. apply IH.
Qed.
Lemma parse_policy_chain : forall conv h l n, l <> [] -> Forall good_seg l -> (length (show_policy l) < n)%nat ->
  exists p, parse_policy conv h n (show_policy l) = Ok p /\
    match l with [g] => psame p (sem_seg h g) /\ (forall m, p <> P_chain m) | _ => exists m, p = P_chain m /\ Forall2 psame m (map (sem_seg h) l) end.
Proof.
  intros conv h l. induction l as [|g l IH]; intros n Hl Hg Hn; [congruence|]. inversion Hg as [|? ? G1 G2]; subst. destruct l as [|g2 l].
  - destruct (parse_seg conv h g n G1 Hn) as (p & E & H1 & H2). exists p. auto.
  - change (show_policy (g :: g2 :: l)) with (show_seg g ++ 59 :: show_policy (g2 :: l)) in *. rewrite app_length in Hn. cbn [length] in Hn. destruct n as [|n]; [lia|].
    destruct (parse_seg conv h g n G1) as (p & E1 & P1 & _); [lia|]. destruct (IH n) as (q & E2 & Q); [discriminate|exact G2|lia|].
    assert (SH : exists x r, show_seg g ++ 59 :: show_policy (g2 :: l) = x :: r) by (destruct g; cbn; eauto). destruct SH as (x & r & Er).
    cbn [parse_policy]. rewrite Er. cbv match. rewrite <- Er. rewrite skips_found by (apply seg_skip; exact G1). cbn [bind]. rewrite E1, E2. cbn [bind].
    destruct l as [|g3 l].
    + destruct Q as [Q1 Q2]. exists (P_chain [p; q]). split; [destruct q; try reflexivity; exfalso; eapply Q2; reflexivity|]. exists [p; q]. split; [reflexivity|]. cbn. repeat constructor; assumption.
    + destruct Q as (m & -> & Q). eexists. split; [reflexivity|]. eexists. split; [reflexivity|]. cbn [map]. constructor; [exact P1|exact Q].
Qed.
(** blanks are ignored; the policy accepted decides as the one written *)
Theorem C36_policy : forall conv h l s, l <> [] -> Forall good_seg l -> canonize s = show_policy l ->
  exists p, policy_of_string conv h s = Ok p /\ forall cap a b, get_action cap p a b = get_action cap (sem_policy h l) a b.
Proof.
  intros conv h l s Hl Hg Hs. unfold policy_of_string. rewrite Hs. destruct (parse_policy_chain conv h l (S (length (show_policy l))) Hl Hg ltac:(lia)) as (p & E & H).
  exists p. split; [exact E|]. intros cap a b. destruct l as [|g [|g2 l]]; [congruence| |].
  - apply H.
  - destruct H as (m & -> & H). unfold sem_policy. pose proof (chain_go_congr cap a b _ _ D_undefined A_undefined H) as X. inversion H; subst. exact X.
Qed.

(** ** Whatever the string, the parser answers: a policy, or an Erange exception. *)
(** [clean d s]: no ']' outside parentheses, [d] parentheses being open *)
Fixpoint clean (d : N) (s : list N) : Prop :=
  match s with [] => True | x :: r => if x =? 40 then clean (d + 1) r else if x =? 41 then clean (d - 1) r else (x = 93 -> d <> 0) /\ clean d r end.
Fixpoint depth (d : N) (s : list N) : N :=
  match s with [] => d | x :: r => if x =? 40 then depth (d + 1) r else if x =? 41 then depth (d - 1) r else depth d r end.
Lemma clean_app : forall a b d, clean d (a ++ b) <-> clean d a /\ clean (depth d a) b.
Proof. induction a as [|x a IH]; intros b d; cbn; [tauto|]. destruct (x =? 40); [apply IH|]. destruct (x =? 41); [apply IH|]. rewrite IH. tauto. Qed.
Lemma clean_mono : forall s d d', d <= d' -> clean d s -> clean d' s.
Proof.
  induction s as [|x s IH]; intros d d' H; cbn; [auto|]. destruct (x =? 40); [apply IH; lia|]. destruct (x =? 41); [apply IH; lia|].
  intros [H1 H2]. split; [intro E; specialize (H1 E); lia|]. eapply IH; eauto.
Qed.
Lemma clean_str : forall s d, ~ In 93 s -> clean d s.
Proof.
  induction s as [|x s IH]; intros d H; cbn; [exact I|]. destruct (x =? 40); [apply IH; intro; apply H; right; assumption|].
  destruct (x =? 41); [apply IH; intro; apply H; right; assumption|]. split; [intros ->; exfalso; apply H; left; reflexivity|apply IH; intro; apply H; right; assumption].
Qed.
Lemma find_out_some : forall c s d a b, c <> 40 -> c <> 41 -> find_out c d s = Ok (Some (a, b)) -> s = a ++ c :: b /\ depth d a = 0.
Proof.
  intros c s. induction s as [|x s IH]; intros d a b H1 H2; cbn; [discriminate|]. destruct ((x =? c) && (d =? 0)) eqn:E.
  - intro H. injection H as <- <-. split; [replace x with c by lia; reflexivity|cbn; lia].
  - destruct (x =? 40) eqn:E1.
    + cbn [bind]. destruct (find_out c (d + 1) s) as [[[a' b']|]|] eqn:F; cbn; try discriminate. intro H. injection H as <- <-. apply IH in F as [-> F]; auto.
      cbn. rewrite E1. auto.
    + destruct (x =? 41) eqn:E2.
      * destruct (0 <? d); [|discriminate]. cbn [bind]. destruct (find_out c (d - 1) s) as [[[a' b']|]|] eqn:F; cbn; try discriminate. intro H. injection H as <- <-. apply IH in F as [-> F]; auto.
        cbn. rewrite E1, E2. auto.
      * cbn [bind]. destruct (find_out c d s) as [[[a' b']|]|] eqn:F; cbn; try discriminate. intro H. injection H as <- <-. apply IH in F as [-> F]; auto.
        cbn. rewrite E1, E2. auto.
Qed.
Lemma find_out_err : forall c s d e, find_out c d s = Err e -> e = Erange.
Proof.
  intros c s. induction s as [|x s IH]; intros d e; cbn; [discriminate|]. destruct (_ && _); [discriminate|].
  assert (G : forall k, (let* f := find_out c k s in Ok (match f with Some (a, b) => Some (x :: a, b) | None => None end)) = Err e -> e = Erange).
  { intros k. destruct (find_out c k s) as [[[a b]|]|] eqn:F; cbn; try discriminate. intro H. injection H as <-. eapply IH; exact F. }
  destruct (x =? 40); [apply G|]. destruct (x =? 41); [|apply G]. destruct (0 <? d); [apply G|]. cbn. congruence.
Qed.
(** what is assumed of the reading of calendar dates (line_tools_convert_date, line_tools.cpp:1188-1340: any character other than a
    digit, '/', '-', ':' raises Erange) *)
Definition dates_ok (conv : list N -> res N) : Prop := forall s, match conv s with Ok _ => ~ In 93 s | Err e => e = Erange end.
Lemma last_41 : forall (r : list N) x, r <> [] -> last (x :: r) 0 = 41 -> r = removelast r ++ [41].
Proof. intros r x H E. rewrite (app_removelast_last 0 H) at 1. destruct r; [congruence|]. change (last (x :: n :: r) 0) with (last (n :: r) 0) in E. rewrite E. reflexivity. Qed.
Lemma removelast_len : forall (r : list N), (length (removelast r) <= length r)%nat.
Proof. induction r as [|x [|y r] IH]; cbn in *; lia. Qed.
Lemma parse_crit_total : forall conv h, dates_ok conv -> forall n s, (length s < n)%nat ->
  match parse_crit conv h n s with Ok _ => clean 0 s | Err e => e = Erange end.
Proof.
  intros conv h HC. induction n as [|n IH]; intros s Hn; [lia|]. destruct s as [|x r]; [reflexivity|]. cbn [parse_crit]. remember (x :: r) as s eqn:Es.
  destruct (find_out 124 0 s) as [[[s1 s2]|]|e] eqn:F1; cbn [bind]; [| |eapply find_out_err; exact F1].
  { apply find_out_some in F1 as [E D]; [|discriminate|discriminate]. rewrite E in Hn. rewrite app_length in Hn. cbn [length] in Hn.
    pose proof (IH s1 ltac:(lia)) as I1. pose proof (IH s2 ltac:(lia)) as I2. destruct (parse_crit conv h n s1); cbn [bind]; [|exact I1].
    destruct (parse_crit conv h n s2); cbn [bind]; [|exact I2]. rewrite E. apply clean_app. rewrite D. split; [exact I1|]. cbn. split; [discriminate|exact I2]. }
  destruct (find_out 38 0 s) as [[[s1 s2]|]|e] eqn:F2; cbn [bind]; [| |eapply find_out_err; exact F2].
  { apply find_out_some in F2 as [E D]; [|discriminate|discriminate]. rewrite E in Hn. rewrite app_length in Hn. cbn [length] in Hn.
    pose proof (IH s1 ltac:(lia)) as I1. pose proof (IH s2 ltac:(lia)) as I2. destruct (parse_crit conv h n s1); cbn [bind]; [|exact I1].
    destruct (parse_crit conv h n s2); cbn [bind]; [|exact I2]. rewrite E. apply clean_app. rewrite D. split; [exact I1|]. cbn. split; [discriminate|exact I2]. }
  rewrite Es in *. cbn [length] in Hn.
  destruct ((x =? 40) && (last (x :: r) 0 =? 41)) eqn:B1.
  { pose proof (removelast_len r). pose proof (IH (removelast r) ltac:(lia)) as I1. destruct (parse_crit conv h n (removelast r)); [|exact I1].
    assert (x = 40) by lia. subst x. destruct r as [|y r]; [cbn in B1; discriminate|]. rewrite (last_41 (y :: r) 40); [|discriminate|lia].
    change (clean 1 (removelast (y :: r) ++ [41])). apply clean_app. split; [eapply clean_mono; [|exact I1]; lia|exact I]. }
  destruct (x =? 33) eqn:B2.
  { pose proof (IH r ltac:(lia)) as I1. destruct (parse_crit conv h n r); cbn [bind]; [|exact I1]. cbn. replace (x =? 40) with false by lia. replace (x =? 41) with false by lia. split; [lia|exact I1]. }
  destruct (x =? 126) eqn:B3.
  { pose proof (IH r ltac:(lia)) as I1. destruct (parse_crit conv h n r); cbn [bind]; [|exact I1]. cbn. replace (x =? 40) with false by lia. replace (x =? 41) with false by lia. split; [lia|exact I1]. }
  destruct ((4 <=? length (x :: r))%nat && (hd 0 r =? 40) && (last (x :: r) 0 =? 41)) eqn:B4.
  { destruct ((x =? 82) || (x =? 114)) eqn:B5; [|reflexivity]. destruct r as [|y r]; [cbn in B4; discriminate|]. cbn [hd tl] in *.
    assert (G : match date_arg conv (removelast r) with Ok _ => ~ In 93 (removelast r) | Err e => e = Erange end).
    { unfold date_arg. destruct (C06_computer (removelast r)) as (D1 & D2 & D3). destruct (list_eq_dec N.eq_dec (removelast r) []) as [Z|Z]; [rewrite D3; auto|].
      destruct (Forall_dec (fun c => 48 <= c /\ c <= 57) ltac:(intro c; destruct ((48 <=? c) && (c <=? 57)) eqn:?; [left; lia|right; lia]) (removelast r)) as [K|K].
      - rewrite D1 by assumption. intro X. rewrite Forall_forall in K. apply K in X. lia.
      - rewrite D2 by assumption. apply HC. }
    destruct (date_arg conv (removelast r)); cbn [bind]; [|exact G]. destruct r as [|z r]; [cbn in B4; lia|].
    change (last (x :: y :: z :: r) 0) with (last (y :: z :: r) 0) in B4. rewrite (last_41 (z :: r) y); [|discriminate|lia].
    apply clean_str. intros [X|[X|X]]; [lia|lia|]. apply in_app_or in X as [X|[X|[]]]; [exact (G X)|lia]. }
  destruct r; [|reflexivity]. destruct (atom h x) eqn:A; [|reflexivity]. apply atom_not_special in A. cbn. destruct (x =? 40); [exact I|]. destruct (x =? 41); [exact I|]. tauto.
Qed.
Lemma parse_policy_total : forall conv h, dates_ok conv -> forall n s, (length s < n)%nat -> match parse_policy conv h n s with Ok _ => True | Err e => e = Erange end.
Proof.
  intros conv h HC. induction n as [|n IH]; intros s Hn; [lia|]. destruct s as [|x r]; [reflexivity|]. cbn [parse_policy]. remember (x :: r) as s eqn:Es.
  destruct (find_out 59 0 s) as [[[s1 s2]|]|e] eqn:F1; cbn [bind]; [| |eapply find_out_err; exact F1].
  { apply find_out_some in F1 as [E D]; [|discriminate|discriminate]. rewrite E in Hn. rewrite app_length in Hn. cbn [length] in Hn.
    pose proof (IH s1 ltac:(lia)) as I1. pose proof (IH s2 ltac:(lia)) as I2. destruct (parse_policy conv h n s1); cbn [bind]; [|exact I1].
    destruct (parse_policy conv h n s2); cbn [bind]; [exact I|exact I2]. }
  destruct (x =? 123) eqn:B1.
  - destruct (find_out 125 0 s) as [[[s1 s2]|]|e] eqn:F2; cbn [bind]; [|reflexivity|eapply find_out_err; exact F2].
    destruct (hd 0 s2 =? 91) eqn:B2; [|reflexivity]. cbn [negb].
    destruct (find_out 93 0 s) as [[[t1 t2]|]|e] eqn:F3; cbn [bind]; [|reflexivity|eapply find_out_err; exact F3].
    apply find_out_some in F2 as [E D]; [|discriminate|discriminate]. apply find_out_some in F3 as [E' D']; [|discriminate|discriminate].
    assert (L : length s = (length s1 + 1 + length s2)%nat) by (rewrite E, app_length; cbn; lia).
    assert (L' : length s = (length t1 + 1 + length t2)%nat) by (rewrite E', app_length; cbn; lia).
    assert (Lt : (length (tl s1) <= length s1)%nat) by (destruct s1; cbn; lia).
    pose proof (parse_crit_total conv h HC (S (length s)) (tl s1) ltac:(lia)) as G. destruct (parse_crit conv h (S (length s)) (tl s1)) as [c|]; cbn [bind]; [|exact G].
    destruct (length t1 <? length s1 + 2)%nat eqn:B3.
    + exfalso. destruct s1 as [|x' s1]; [cbn in E; rewrite Es in E; injection E as -> _; discriminate|]. assert (X : x' = x) by (rewrite Es in E; injection E; congruence). subst x'.
      rewrite E in E'. destruct s2 as [|y s2]; [discriminate|]. cbn [hd] in B2.
      assert (Q : (length t1 < length (x :: s1))%nat).
      { destruct (Nat.lt_ge_cases (length t1) (length (x :: s1))) as [Q|Q]; [exact Q|exfalso].
        assert (N1 : nth_error ((x :: s1) ++ 125 :: y :: s2) (length t1) = Some 93) by (rewrite E', nth_error_app2, Nat.sub_diag by lia; reflexivity).
        rewrite nth_error_app2 in N1 by exact Q. destruct (length t1 - length (x :: s1))%nat as [|[|k]] eqn:K; [discriminate|cbn in N1; injection N1; lia|lia]. }
      assert (P : exists w, x :: s1 = t1 ++ 93 :: w).
      { exists (skipn (S (length t1)) (x :: s1)). rewrite <- (firstn_skipn (length t1) (x :: s1)) at 1. f_equal.
        - replace (firstn (length t1) (x :: s1)) with (firstn (length t1) ((x :: s1) ++ 125 :: y :: s2)) by (rewrite firstn_app; replace (length t1 - length (x :: s1))%nat with 0%nat by lia; apply app_nil_r).
          rewrite E', firstn_app, firstn_all, Nat.sub_diag. apply app_nil_r.
        - assert (Z : skipn (length t1) ((x :: s1) ++ 125 :: y :: s2) = 93 :: t2) by (rewrite E', skipn_app, skipn_all, Nat.sub_diag; reflexivity).
          rewrite skipn_app in Z. replace (length t1 - length (x :: s1))%nat with 0%nat in Z by lia. destruct (skipn (length t1) (x :: s1)) as [|z w] eqn:W.
          + exfalso. assert (length (skipn (length t1) (x :: s1)) = 0%nat) by (rewrite W; reflexivity). rewrite skipn_length in *. lia.
          + injection Z as -> _. f_equal. replace (S (length t1)) with (1 + length t1)%nat by lia. rewrite <- skipn_skipn, W. reflexivity. }
      destruct P as [w P]. cbn [tl] in G. assert (clean 0 (x :: s1)) as G'.
      { cbn. replace (x =? 40) with false by lia. replace (x =? 41) with false by lia. split; [lia|exact G]. }
      rewrite P in G'. apply clean_app in G' as [_ G']. rewrite D' in G'. cbn in G'. destruct G' as [G' _]. apply G'; reflexivity.
    + pose proof (IH (skipn (length s1 + 2) t1)) as I1. rewrite skipn_length in I1. specialize (I1 ltac:(lia)).
      destruct (parse_policy conv h n (skipn (length s1 + 2) t1)); cbn [bind]; [|exact I1]. pose proof (IH t2 ltac:(lia)) as I2.
      destruct t2; [exact I|]. destruct (parse_policy conv h n (n0 :: t2)); cbn [bind]; [exact I|exact I2].
  - destruct r as [|y [|z r]]; try reflexivity. destruct (data_letter x); [|reflexivity]. destruct (ea_letter y); [exact I|reflexivity].
Qed.
Theorem C36_total : forall conv h s, dates_ok conv -> (exists p, policy_of_string conv h s = Ok p) \/ policy_of_string conv h s = Err Erange.
Proof.
  intros conv h s HC. unfold policy_of_string. pose proof (parse_policy_total conv h HC (S (length (canonize s))) (canonize s) ltac:(lia)) as H.
  destruct (parse_policy conv h (S (length (canonize s))) (canonize s)); [left; eauto|right; congruence].
Qed.

(** ** Findings *)
From Coq Require Import String Ascii.
Definition str (s : string) : list N := map N_of_ascii (list_ascii_of_string s).
(** I&(D|F) is read as I&D&F: the parser takes a disjunction for a conjunction (dynamic_cast to crit_and, base class of crit_or) *)
Theorem C36_and_or_refuted : exists o, good o /\ show o = str "I&(D|F)" /\ exists c, (forall conv h, parse_crit conv h (S (List.length (show o))) (show o) = Ok c) /\
  forall h, evaluate tu_s (sem h o) (EInode plain_file) (EInode plain_file) = Ok true /\ evaluate tu_s c (EInode plain_file) (EInode plain_file) = Ok false.
Proof.
  exists [[U_atom 73; U_par [[U_atom 68]; [U_atom 70]]]]. split; [cbn; repeat split; discriminate|]. split; [reflexivity|].
  eexists. split; [intros; vm_compute; reflexivity|]. intro h. split; vm_compute; reflexivity.
Qed.
(** the manual allows an action to be itself a conditional statement, or a chain between brackets, and gives these four examples (man/dar.1:922-931): none is accepted *)
Theorem C36_nested_refuted : forall conv h, Forall (fun s => policy_of_string conv h (str s) = Err Erange)
  ["{!T}[Pp] {R}[{r}[Pp]Po] {r}[Op] Oo"; "{!T}[{~D}[Oo] Pp]"; "{!T}[{~D}[Oo] Pp] ; Aa";
   "{!T|!I}[{R}[Pp] Oo] {I&~I}[{S}[{~S}[{R}[P*] O*] P*] {~S}[O*] {R}[P*] O* ; {s}[{~s}[{r}[*p] *o] *p] {~s}[*o] ] {r}[*p] *o"]%string.
Proof. intros conv h. repeat constructor. Qed.

(** ** Example: the hypotheses are met by a chain of two tests *)
Example C36_example : canonize (str "{(R|!F)&~S | R(86400)}[Pp] O* ; {!T}[*p]") =
    show_policy [S_else [[U_par [[U_atom 82]; [U_not (U_atom 70)]]; U_inv (U_atom 83)]; [U_date 82 (str "86400")]] 80 112 (S_act 79 42); S_test [[U_not (U_atom 84)]] 42 112] /\
  Forall good_seg [S_else [[U_par [[U_atom 82]; [U_not (U_atom 70)]]; U_inv (U_atom 83)]; [U_date 82 (str "86400")]] 80 112 (S_act 79 42); S_test [[U_not (U_atom 84)]] 42 112] /\
  policy_of_string (fun _ => Err Erange) 0 (str "{F}[Xp] Oo") = Err Erange.
Proof.
  split; [vm_compute; reflexivity|]. split; [|vm_compute; reflexivity].
  repeat constructor; cbn; try discriminate; repeat split; try discriminate; auto; try (left; reflexivity); repeat constructor; cbn; try discriminate.
Qed.

(** ** The letters of the manual (man/dar.1:771-919) *)
Open Scope string_scope.
Definition manual_data : list (string * adata) :=
  [("P", D_preserve); ("O", D_overwrite); ("S", D_preserve_mark); ("T", D_overwrite_mark); ("R", D_remove); ("*", D_undefined); ("A", D_ask)].
Definition manual_ea : list (string * aea) :=
  [("p", A_preserve); ("o", A_overwrite); ("s", A_preserve_mark); ("t", A_overwrite_mark); ("m", A_merge_preserve);
   ("n", A_merge_overwrite); ("r", A_clear); ("*", A_undefined); ("a", A_ask)].
Definition manual_condition (h : N) : list (string * crit) :=
  [("I", C_is_inode); ("D", C_is_dir); ("F", C_is_file); ("H", C_hardlinked); ("A", C_new_hardlinked); ("R", C_data_recent h);
   ("B", C_data_bigger); ("S", C_data_saved); ("Y", C_dirty); ("X", C_sparse); ("T", C_same_type); ("L", C_sig); ("P", C_patch);
   ("E", C_same_data); ("e", C_EA_present); ("r", C_EA_recent h); ("m", C_more_EA); ("b", C_EA_bigger); ("s", C_EA_saved)].
Close Scope string_scope.
(** an action written with the two letters of the manual is that action; a condition made of one letter of the manual is that
    condition, and no other character is a condition *)
Theorem C36_letters : forall conv h,
  (forall x y d e, In (x, d) manual_data -> In (y, e) manual_ea -> policy_of_string conv h (str x ++ str y) = Ok (P_const d e)) /\
  (forall x c, In (x, c) (manual_condition h) -> parse_crit conv h 2 (str x) = Ok c) /\
  (forall x, ~ (exists s c, In (s, c) (manual_condition h) /\ str s = [x]) -> parse_crit conv h 2 [x] = Err Erange).
Proof.
  intros conv h. split; [|split].
  - intros x y d e Hx Hy. cbn in Hx, Hy.
    repeat (destruct Hx as [Hx|Hx]; [injection Hx as <- <-;
      repeat (destruct Hy as [Hy|Hy]; [injection Hy as <- <-; reflexivity|]); destruct Hy|]). destruct Hx.
  - intros x c H. cbn in H. repeat (destruct H as [H|H]; [injection H as <- <-; reflexivity|]). destruct H.
  - intros x H.
    assert (K : forall s c, In (s, c) (manual_condition h) -> str s <> [x]) by (intros s c Hi E; apply H; eauto). clear H.
    assert (A : atom h x = None).
    { assert (F : Forall (fun p => str (fst p) <> [x]) (manual_condition h)) by (apply Forall_forall; intros [a b] Hi; eapply K; exact Hi).
      unfold manual_condition in F. unfold atom.
      repeat match goal with H : Forall _ (_ :: _) |- _ => inversion_clear H end. cbn in *.
      repeat match goal with |- (if ?x =? ?k then _ else _) = None => destruct (N.eqb_spec x k); [subst x; congruence|] end.
      reflexivity. }
    clear K. cbn [parse_crit find_out].
    destruct (N.eqb_spec x 124); [subst; reflexivity|]. cbn [andb].
    destruct (N.eqb_spec x 40); [subst; reflexivity|]. destruct (N.eqb_spec x 41); [subst; reflexivity|]. cbn [bind].
    destruct (N.eqb_spec x 38); [subst; reflexivity|]. cbn [andb bind length Nat.leb].
    destruct (N.eqb_spec x 33); [subst; reflexivity|]. destruct (N.eqb_spec x 126); [subst; reflexivity|].
    rewrite A. reflexivity.
Qed.
(** the action 'd' of the manual (delete the EA found in both entries, man/dar.1:808-809) is refused *)
Theorem C36_delete_refuted : forall conv h, policy_of_string conv h (str "Pd") = Err Erange.
Proof. reflexivity. Qed.
