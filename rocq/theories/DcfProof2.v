(** * DcfProof2: lemmas about configuration files: conditions *)
From Coq Require Import List String.
From Verif Require Import Base DcfModel DcfSpec DcfProof.
Local Open Scope nat_scope.

Definition cr_blank (c : N) : bool := blank c || N.eqb c CR.
(** the state after a line without its end *)
Fixpoint crun (l nature : list N) (st : tstatus) : tstatus * list N :=
  match l with
  | [] => (st, nature)
  | a :: r =>
    match st with
    | t_init => if blank a then crun r nature t_init else if isalpha a then crun r [a] t_search else crun r nature t_purge
    | t_search => if word_char a then crun r (nature ++ [a]) t_search else if N.eqb a COLON then crun r nature t_end else crun r nature t_purge
    | t_end => if cr_blank a then crun r nature t_end else crun r nature t_purge
    | t_purge => crun r nature t_purge
    end
  end.
Lemma fnt_line : forall l, ~ In NL l -> forall e r pos deb nature st,
  find_next_target (l ++ tail e r) pos deb nature st =
    (if e then let q := S (pos + List.length l) in
       match crun l nature st with (t_end, n) => (Some (deb, n, q), r) | (_, n) => find_next_target r q q n t_init end
     else (None, [])).
Proof.
  induction l as [|a l IH]; intros H e r pos deb nature st.
  - destruct e; [|destruct st; reflexivity]. cbn [app tail crun List.length]. rewrite Nat.add_0_r. destruct st; reflexivity.
  - assert (NA : N.eqb a NL = false) by (apply N.eqb_neq; intro Q; apply H; left; exact Q). assert (H' : ~ In NL l) by (intro Q; apply H; right; exact Q).
    cbn [app find_next_target crun List.length]. rewrite NA. replace (pos + S (List.length l)) with (S pos + List.length l) by lia.
    unfold blank, cr_blank, word_char, blank. destruct st.
    + destruct (N.eqb a SP || N.eqb a TAB); [apply IH, H'|]. destruct (isalpha a); apply IH, H'.
    + destruct (isalnum a || N.eqb a 95 || N.eqb a 45); [apply IH, H'|]. destruct (N.eqb a COLON); apply IH, H'.
    + destruct (N.eqb a SP || N.eqb a TAB || N.eqb a CR); apply IH, H'.
    + apply IH, H'.
Qed.
Lemma fnt_nature : forall r p d n n', find_next_target r p d n t_init = find_next_target r p d n' t_init /\ find_next_target r p d n t_purge = find_next_target r p d n' t_purge.
Proof.
  induction r as [|a r IH]; intros p d n n'; [split; reflexivity|]. cbn [find_next_target]. split.
  - destruct (N.eqb a SP || N.eqb a TAB); [apply IH|]. destruct (N.eqb a NL); [apply IH|]. destruct (isalpha a); [reflexivity|apply IH].
  - destruct (N.eqb a NL); apply IH.
Qed.
(** crun and condition *)
Lemma crun_purge l n : crun l n t_purge = (t_purge, n). Proof. induction l as [|a l IH]; cbn; auto. Qed.
Lemma crun_end : forall l n n', crun l n t_end = (t_end, n') <-> n' = n /\ forallb cr_blank l = true.
Proof.
  induction l as [|a l IH]; intros n n'; cbn [crun forallb]; [split; [intro H; injection H as <-; auto|intros (-> & _); reflexivity]|].
  destruct (cr_blank a); cbn [andb]; [apply IH|]. rewrite crun_purge. split; [discriminate|intros (_ & Q); discriminate].
Qed.
Lemma crun_search : forall l n n', crun l n t_search = (t_end, n') <-> exists w sp', l = w ++ COLON :: sp' /\ n' = n ++ w /\ forallb word_char w = true /\ forallb cr_blank sp' = true.
Proof.
  induction l as [|a l IH]; intros n n'; cbn [crun].
  - split; [discriminate|]. intros (w & sp' & E & _). destruct w; discriminate.
  - destruct (word_char a) eqn:WA; [|destruct (N.eqb_spec a COLON) as [->|NC]].
    + rewrite IH. split.
      * intros (w & sp' & -> & -> & W & B). exists (a :: w), sp'. cbn. rewrite WA, <- app_assoc. auto.
      * intros (w & sp' & E & -> & W & B). destruct w as [|b w]; cbn in E; injection E as -> ->; [discriminate|]. exists w, sp'. cbn in W. rewrite WA in W. rewrite <- app_assoc. auto.
    + rewrite crun_end. split.
      * intros (-> & B). exists [], l. rewrite app_nil_r. auto.
      * intros (w & sp' & E & -> & W & B). destruct w as [|b w]; cbn in E; [injection E as E2; subst; rewrite app_nil_r; auto|injection E as E1 E2]. subst b. cbn in W. discriminate.
    + rewrite crun_purge. split; [discriminate|]. intros (w & sp' & E & _ & W & _). destruct w as [|b w]; cbn in E; injection E as E1 E2; [congruence|]. subst b. cbn in W. rewrite WA in W. discriminate.
Qed.
Lemma alpha_not_blank c : isalpha c = true -> blank c = false.
Proof. unfold blank. intro H. destruct (N.eqb_spec c SP) as [->|_]; [discriminate|]. destruct (N.eqb_spec c TAB) as [->|_]; [discriminate|reflexivity]. Qed.
Lemma crun_init : forall l n n', crun l n t_init = (t_end, n') <-> exists sp sp' c w, l = sp ++ (c :: w) ++ [COLON] ++ sp' /\ n' = c :: w /\ isalpha c = true /\ forallb blank sp = true /\ forallb word_char w = true /\ forallb cr_blank sp' = true.
Proof.
  induction l as [|a l IH]; intros n n'; cbn [crun].
  - split; [discriminate|]. intros (sp & sp' & c & w & E & _). destruct sp; discriminate.
  - destruct (blank a) eqn:BA; [|destruct (isalpha a) eqn:AA].
    + rewrite IH. split.
      * intros (sp & sp' & c & w & -> & K). exists (a :: sp), sp', c, w. cbn. rewrite BA. tauto.
      * intros (sp & sp' & c & w & E & -> & A & B & K). destruct sp as [|b sp]; cbn in E; injection E as E1 E2; subst a; [rewrite (alpha_not_blank c A) in BA; discriminate|].
        exists sp, sp', c, w. cbn in B. rewrite BA in B. auto.
    + rewrite crun_search. split.
      * intros (w & sp' & -> & -> & W & B). exists [], sp', a, w. cbn. auto 6.
      * intros (sp & sp' & c & w & E & -> & A & B & W & K). destruct sp as [|b sp]; cbn in E; injection E as E1 E2; subst a; [exists w, sp'; auto|]. cbn in B. rewrite BA in B. discriminate.
    + rewrite crun_purge. split; [discriminate|]. intros (sp & sp' & c & w & E & _ & A & B & _). destruct sp as [|b sp]; cbn in E; injection E as E1 E2; subst a; [congruence|]. cbn in B. rewrite BA in B. discriminate.
Qed.
Lemma condition_crun l name : condition (l ++ [NL]) name <-> crun l [] t_init = (t_end, name).
Proof.
  rewrite crun_init. unfold condition. split.
  - intros (sp & sp' & c & w & E & -> & A & B & W & K). exists sp, sp', c, w. split; [|auto 6]. rewrite !app_assoc in E. apply app_inj_tail in E. destruct E as (-> & _). rewrite !app_assoc. reflexivity.
  - intros (sp & sp' & c & w & -> & -> & A & B & W & K). exists sp, sp', c, w. split; [|auto 6]. repeat (rewrite <- app_assoc; cbn [app]). reflexivity.
Qed.
Lemma condition_nl l name : condition l name -> exists l', l = l' ++ [NL].
Proof. intros (sp & sp' & c & w & -> & _). exists (sp ++ name ++ [COLON] ++ sp'). rewrite <- !app_assoc. reflexivity. Qed.
Lemma condition_fun l name name' : condition l name -> condition l name' -> name = name'.
Proof. intros H H'. destruct (condition_nl l name H) as (l' & ->). apply condition_crun in H, H'. congruence. Qed.

Definition plain_line (l : list N) : Prop := forall name, ~ condition l name.
Lemma fnt_spec : forall n rest pos nature, List.length rest <= n ->
  (exists ls line name r, lines rest = ls ++ line :: lines r /\ rest = concat ls ++ line ++ r /\ Forall plain_line ls /\ condition line name /\
     find_next_target rest pos pos nature t_init = (Some (pos + List.length (concat ls), name, pos + List.length (concat ls) + List.length line), r)) \/
  (exists ls, lines rest = ls /\ rest = concat ls /\ Forall plain_line ls /\ find_next_target rest pos pos nature t_init = (None, [])).
Proof.
  induction n as [|n IH]; intros rest pos nature L.
  - destruct rest; [|cbn in L; lia]. right. exists []. cbn. repeat split; auto.
  - destruct (line_split rest) as [(l & r & -> & H)|H].
    + pose proof (fnt_line l H true r pos pos nature t_init) as F. cbn [tail] in F. rewrite lines_nl by exact H.
      assert (PL : forall st, crun l nature t_init = st -> fst st <> t_end -> plain_line (l ++ [NL])).
      { intros st E NE name C. apply condition_crun in C. apply crun_init in C. apply (crun_init l nature) in C. rewrite C in E. subst st. apply NE. reflexivity. }
      assert (GO : plain_line (l ++ [NL]) -> (exists n', find_next_target (l ++ NL :: r) pos pos nature t_init = find_next_target r (pos + List.length (l ++ [NL])) (pos + List.length (l ++ [NL])) n' t_init) ->
        (exists ls line name r', (l ++ [NL]) :: lines r = ls ++ line :: lines r' /\ l ++ NL :: r = concat ls ++ line ++ r' /\ Forall plain_line ls /\ condition line name /\
           find_next_target (l ++ NL :: r) pos pos nature t_init = (Some (pos + List.length (concat ls), name, pos + List.length (concat ls) + List.length line), r')) \/
        (exists ls, (l ++ [NL]) :: lines r = ls /\ l ++ NL :: r = concat ls /\ Forall plain_line ls /\ find_next_target (l ++ NL :: r) pos pos nature t_init = (None, []))).
      { intros P (n' & E). destruct (IH r (pos + List.length (l ++ [NL])) n') as [(ls & line & name & r' & E1 & E2 & E3 & E4 & E5)|(ls & E1 & E2 & E3 & E4)].
        - rewrite app_length in L. cbn in L. lia.
        - left. exists ((l ++ [NL]) :: ls), line, name, r'. rewrite E1. split; [reflexivity|]. split; [cbn [concat]; rewrite <- !app_assoc; cbn [app]; rewrite E2 at 1; reflexivity|].
          split; [constructor; auto|]. split; [exact E4|]. rewrite E, E5. cbn [concat]. rewrite !app_length, !Nat.add_assoc. reflexivity.
        - right. eexists. split; [reflexivity|]. split; [cbn [concat]; rewrite <- app_assoc; cbn [app]; rewrite E1, <- E2; reflexivity|]. split; [constructor; [exact P|rewrite E1; exact E3]|]. rewrite E. exact E4. }
      replace (S (pos + List.length l)) with (pos + List.length (l ++ [NL])) in F by (rewrite app_length; cbn; lia).
      destruct (crun l nature t_init) as (st & n') eqn:CR. destruct st; try (apply GO; [apply (PL _ eq_refl); discriminate|exists n'; exact F]).
      left. exists [], (l ++ [NL]), n', r. cbn [app concat List.length]. rewrite Nat.add_0_r. split; [reflexivity|]. split; [rewrite <- app_assoc; reflexivity|]. split; [constructor|]. split; [|exact F].
      apply condition_crun. apply crun_init. apply (crun_init l nature). exact CR.
    + right. pose proof (fnt_line rest H false [] pos pos nature t_init) as F. cbn [tail] in F. rewrite app_nil_r in F. eexists. split; [reflexivity|]. destruct rest as [|c rest']; [cbn; auto|].
      rewrite lines_last by (auto; discriminate). cbn [concat]. rewrite app_nil_r. split; [reflexivity|]. split; [|exact F]. constructor; [|constructor].
      intros name C. destruct (condition_nl _ _ C) as (l' & E). apply H. rewrite E. apply in_or_app. right. left. reflexivity.
Qed.
Lemma chosen_lines cibles keep : forall ls r t, Forall plain_line ls -> chosen cibles keep r t -> chosen cibles keep (ls ++ r) ((if keep then concat ls else []) ++ t).
Proof.
  induction ls as [|l ls IH]; intros r t F C; [destruct keep; exact C|]. inversion F as [|? ? P F']; subst. specialize (IH r t F' C). cbn [app concat].
  replace ((if keep then l ++ concat ls else []) ++ t) with ((if keep then l else []) ++ (if keep then concat ls else []) ++ t) by (destruct keep; [rewrite app_assoc|]; reflexivity).
  apply ch_line; assumption.
Qed.
Lemma is_a_target_ok cibles v : is_a_target cibles v = true <-> In v cibles.
Proof.
  unfold is_a_target. rewrite existsb_exists. unfold leqb. split.
  - intros (x & I & E). destruct (list_eq_dec N.eq_dec v x) as [->|]; [exact I|discriminate].
  - intro I. exists v. split; [exact I|]. destruct (list_eq_dec N.eq_dec v v); congruence.
Qed.
Lemma cloop_run cibles : forall fuel V pre rest fin t mor, List.length rest < fuel -> V = pre ++ rest -> wfm (List.length V) mor ->
  (fin = true -> debut t = List.length pre /\ offset t = total mor) ->
  exists m y, cloop fuel cibles (List.length V) rest (List.length pre) fin t (total mor) mor = Ok m /\ wfm (List.length V) m /\ shown V m = shown V mor ++ y /\ chosen cibles fin (lines rest) y.
Proof.
  induction fuel as [|fuel IH]; intros V pre rest fin t mor L EV W T; [lia|]. cbn [cloop].
  (* closing the block [x], what follows pre *)
  assert (BLK : forall x z, rest = x ++ z -> fin = true -> let t' := with_lon t (List.length x) in
    let mor' := if 0 <? longueur t' then mor ++ [t'] else mor in
    wfm (List.length V) mor' /\ total mor' = total mor + List.length x /\ shown V mor' = shown V mor ++ x).
  { intros x z E F. destruct (T F) as (T1 & T2). cbn zeta. cbn [with_lon longueur].
    assert (TX : firstn (List.length x) (skipn (List.length pre) V) = x) by (apply (piece_text V pre x z); rewrite EV, E; reflexivity).
    destruct (Nat.ltb_spec 0 (List.length x)) as [P|P].
    - split; [|split].
      + apply wfm_snoc; [exact W| |exact T2]. split; cbn; [exact P|]. rewrite T1, EV, E, !app_length. lia.
      + rewrite total_app. cbn. lia.
      + rewrite shown_app. unfold shown at 2. cbn [map concat with_lon longueur debut]. rewrite app_nil_r, T1, TX. reflexivity.
    - destruct x; [|cbn in P; lia]. rewrite app_nil_r. split; [exact W|]. cbn. split; [lia|reflexivity]. }
  destruct (fnt_spec (List.length rest) rest (List.length pre) [] (le_n _)) as [(ls & line & name & r & E1 & E2 & E3 & E4 & E5)|(ls & E1 & E2 & E3 & E4)].
  - rewrite E5. destruct (condition_nl _ _ E4) as (line' & EL).
    assert (LR : List.length r < fuel) by (rewrite E2, EL, !app_length in L; cbn in L; lia).
    assert (EV2 : V = (pre ++ concat ls ++ line) ++ r) by (rewrite EV, E2, !app_assoc; reflexivity).
    assert (LP : List.length pre + List.length (concat ls) + List.length line = List.length (pre ++ concat ls ++ line)) by (rewrite !app_length; lia).
    destruct fin.
    + destruct (T eq_refl) as (T1 & T2). rewrite T1. destruct (Nat.ltb_spec (List.length pre + List.length (concat ls)) (List.length pre)); [lia|]. cbn [bind].
      replace (List.length pre + List.length (concat ls) - List.length pre) with (List.length (concat ls)) by lia. cbn [bind].
      destruct (BLK (concat ls) (line ++ r) E2 eq_refl) as (B1 & B2 & B3). set (mor' := if 0 <? _ then _ else _) in *. cbn [with_lon longueur]. rewrite <- B2, LP.
      destruct (is_a_target cibles name) eqn:IT.
      * destruct (IH V (pre ++ concat ls ++ line) r true {| debut := List.length (pre ++ concat ls ++ line); longueur := longueur (with_lon t (List.length (concat ls))); offset := total mor' |} mor' LR EV2 B1) as (m & y & R1 & R2 & R3 & R4); [cbn; auto|].
        exists m, (concat ls ++ y). split; [exact R1|]. split; [exact R2|]. split; [rewrite R3, B3, app_assoc; reflexivity|]. rewrite E1. apply (chosen_lines cibles true); [exact E3|].
        apply (ch_cond cibles true line name _ _ E4 true); [rewrite <- is_a_target_ok; tauto|exact R4].
      * destruct (IH V (pre ++ concat ls ++ line) r false (with_lon t (List.length (concat ls))) mor' LR EV2 B1) as (m & y & R1 & R2 & R3 & R4); [discriminate|].
        exists m, (concat ls ++ y). split; [exact R1|]. split; [exact R2|]. split; [rewrite R3, B3, app_assoc; reflexivity|]. rewrite E1. apply (chosen_lines cibles true); [exact E3|].
        apply (ch_cond cibles true line name _ _ E4 false); [rewrite <- is_a_target_ok; rewrite IT; tauto|exact R4].
    + cbn [bind]. rewrite LP. destruct (is_a_target cibles name) eqn:IT.
      * destruct (IH V (pre ++ concat ls ++ line) r true {| debut := List.length (pre ++ concat ls ++ line); longueur := longueur t; offset := total mor |} mor LR EV2 W) as (m & y & R1 & R2 & R3 & R4); [cbn; auto|].
        exists m, y. split; [exact R1|]. split; [exact R2|]. split; [exact R3|]. rewrite E1. apply (chosen_lines cibles false _ _ y E3).
        apply (ch_cond cibles false line name _ _ E4 true); [rewrite <- is_a_target_ok; tauto|exact R4].
      * destruct (IH V (pre ++ concat ls ++ line) r false t mor LR EV2 W) as (m & y & R1 & R2 & R3 & R4); [discriminate|].
        exists m, y. split; [exact R1|]. split; [exact R2|]. split; [exact R3|]. rewrite E1. apply (chosen_lines cibles false _ _ y E3).
        apply (ch_cond cibles false line name _ _ E4 false); [rewrite <- is_a_target_ok; rewrite IT; tauto|exact R4].
  - rewrite E4. rewrite E1. assert (CH : chosen cibles fin ls (if fin then rest else [])).
    { rewrite <- (app_nil_r ls) at 1. replace (if fin then rest else []) with ((if fin then concat ls else []) ++ []) by (rewrite app_nil_r, <- E2; reflexivity). apply chosen_lines; [exact E3|constructor]. }
    destruct fin.
    + destruct (T eq_refl) as (T1 & T2). rewrite T1. assert (LV : List.length V = List.length pre + List.length rest) by (rewrite EV, app_length; reflexivity).
      destruct (Nat.ltb_spec (List.length V) (List.length pre)); [lia|]. replace (List.length V - List.length pre) with (List.length rest) by lia.
      destruct (BLK rest [] (eq_sym (app_nil_r _)) eq_refl) as (B1 & _ & B3). eexists _, rest. split; [reflexivity|]. auto.
    + exists mor, []. rewrite app_nil_r. auto.
Qed.
Lemma config_file_ok cibles V : exists m, config_file cibles V = Ok m /\ wfm (List.length V) m /\ chosen cibles true (lines V) (shown V m).
Proof.
  destruct (cloop_run cibles (S (List.length V)) V [] V true {| debut := 0; longueur := 0; offset := 0 |} []) as (m & y & E & W & S & C); [lia|reflexivity|split; [constructor|exact I]|auto|].
  exists m. cbn in S. rewrite S. auto.
Qed.
Lemma chosen_fun cibles keep ls t : chosen cibles keep ls t -> forall t', chosen cibles keep ls t' -> t' = t.
Proof.
  induction 1 as [keep|keep l name r t C keep' K H IH|keep l r t P H IH]; intros t' H'; inversion H' as [|? ? name2 ? ? C2 keep2 K2 R2|? ? ? ? P2 R2]; subst; auto.
  - pose proof (condition_fun _ _ _ C C2) as <-. apply IH. assert (keep' = keep2) as -> by (destruct keep', keep2; try reflexivity; exfalso; intuition congruence). exact R2.
  - exfalso. apply (P2 name C).
  - exfalso. apply (P name2 C2).
  - f_equal. apply IH, R2.
Qed.
