(** * DcfProof3: lemmas about configuration files: words *)
From Coq Require Import List String.
From Verif Require Import Base DcfModel DcfSpec DcfProof DcfProof2.
Local Open Scope nat_scope.

Definition wrun (t : list N) (s : wstate) : wstate := fold_left wstep t s.
Definition ws_ (q cur : list N) (m : list (list N)) : wstate := {| quotes := q; current := cur; escaped := false; mots := m |}.
Lemma wloop_run : forall t s, wloop t s = wrun (t ++ [SP]) s.
Proof. induction t as [|a t IH]; intro s; [reflexivity|]. cbn [wloop]. rewrite IH. reflexivity. Qed.
Lemma wrun_app a b s : wrun (a ++ b) s = wrun b (wrun a s). Proof. apply fold_left_app. Qed.
Lemma quote_cases a : is_quote a = true -> a = 34%N \/ a = 39%N \/ a = 96%N.
Proof.
  unfold is_quote. intro H. destruct (N.eqb_spec a 34); [auto|]. destruct (N.eqb_spec a 39); [auto|]. destruct (N.eqb_spec a 96); [auto|]. discriminate.
Qed.
Lemma space_cases a : space a = true -> a = SP \/ a = TAB \/ a = NL \/ a = CR.
Proof.
  unfold space. intro H. destruct (N.eqb_spec a SP); [auto|]. destruct (N.eqb_spec a TAB); [auto|]. destruct (N.eqb_spec a NL); [auto|]. destruct (N.eqb_spec a CR); [auto|]. discriminate.
Qed.
Lemma plain_facts c : plain c = true -> N.eqb c BS = false /\ N.eqb c SP = false /\ N.eqb c TAB = false /\ N.eqb c NL = false /\ N.eqb c CR = false /\ is_quote c = false.
Proof.
  unfold plain, space. intro H. apply negb_true_iff in H. apply orb_false_iff in H. destruct H as (H & H1). apply orb_false_iff in H. destruct H as (H & H2).
  apply orb_false_iff in H. destruct H as (H & H3). apply orb_false_iff in H. destruct H as (H & H4). apply orb_false_iff in H. destruct H as (H & H5). auto 7.
Qed.
Lemma char_class a : a = BS \/ space a = true \/ is_quote a = true \/ plain a = true.
Proof.
  unfold plain. destruct (space a); [auto|]. destruct (is_quote a); [auto|]. destruct (N.eqb_spec a BS); [auto|]. auto.
Qed.
Lemma step_plain c q qs cur m : plain c = true -> wstep (ws_ (q :: qs) cur m) c = ws_ (q :: qs) (cur ++ [c]) m.
Proof. intro P. destruct (plain_facts c P) as (E1 & E2 & E3 & E4 & E5 & E6). unfold wstep, ws_. cbn [escaped quotes current mots]. rewrite E1, E3, E4, E5. cbn [andb orb]. rewrite E2, E6. reflexivity. Qed.
Lemma step_open c cur m : plain c = true -> wstep (ws_ [] cur m) c = ws_ [SP] (cur ++ [c]) m.
Proof. intro P. destruct (plain_facts c P) as (E1 & E2 & E3 & E4 & E5 & E6). unfold wstep, ws_. cbn [escaped quotes current mots]. rewrite E1, E2, E3, E4, E5, E6. reflexivity. Qed.
Lemma step_open_quote q cur m : is_quote q = true -> wstep (ws_ [] cur m) q = ws_ [q] cur m.
Proof. intro P. destruct (quote_cases q P) as [->|[->| ->]]; reflexivity. Qed.
Lemma step_skip c cur m : space c = true -> wstep (ws_ [] cur m) c = ws_ [] cur m.
Proof. intro P. destruct (space_cases c P) as [->|[->|[->| ->]]]; reflexivity. Qed.
Lemma step_escape c q cur m : wrun [BS; c] (ws_ q cur m) = ws_ q (cur ++ [c]) m. Proof. reflexivity. Qed.
Lemma step_space c q qs cur m : q <> SP -> c = SP \/ c = NL \/ c = CR -> wstep (ws_ (q :: qs) cur m) c = ws_ (q :: qs) (cur ++ [SP]) m.
Proof.
  intros Q C. assert (E : N.eqb SP q = false) by (apply N.eqb_neq; congruence).
  destruct C as [->|[->| ->]]; unfold wstep, ws_; cbn [escaped quotes current mots N.eqb Pos.eqb BS SP NL CR TAB andb orb] in *; rewrite E; reflexivity.
Qed.
Lemma step_tab q qs cur m : q <> SP -> wstep (ws_ (q :: qs) cur m) TAB = ws_ (q :: qs) cur m.
Proof. intro Q. unfold wstep, ws_. cbn [escaped quotes current mots N.eqb Pos.eqb BS TAB]. apply N.eqb_neq in Q. rewrite Q. reflexivity. Qed.
Lemma step_nest q q' qs cur m : is_quote q' = true -> q' <> q -> wstep (ws_ (q :: qs) cur m) q' = ws_ (q' :: q :: qs) (cur ++ [q']) m.
Proof.
  intros P Q. apply N.eqb_neq in Q. destruct (quote_cases q' P) as [->|[->| ->]]; unfold wstep, ws_; cbn [escaped quotes current mots N.eqb Pos.eqb BS TAB SP NL CR andb orb is_quote] in *; rewrite Q; reflexivity.
Qed.
Lemma step_unnest q q' qs cur m : is_quote q' = true -> wstep (ws_ (q' :: q :: qs) cur m) q' = ws_ (q :: qs) (cur ++ [q']) m.
Proof. intros P. destruct (quote_cases q' P) as [->|[->| ->]]; reflexivity. Qed.
Lemma step_close_quote q cur m : is_quote q = true -> wstep (ws_ [q] cur m) q = ws_ [] [] (m ++ [cur]).
Proof. intros P. destruct (quote_cases q P) as [->|[->| ->]]; reflexivity. Qed.
Lemma step_close_word c cur m : space c = true -> wstep (ws_ [SP] cur m) c = ws_ [] [] (m ++ [cur]).
Proof. intro P. destruct (space_cases c P) as [->|[->|[->| ->]]]; reflexivity. Qed.

Definition special_q (q : N) : Prop := q = SP \/ is_quote q = true.
Lemma inside_run q u x : inside q u x -> forall qs cur m, wrun u (ws_ (q :: qs) cur m) = ws_ (q :: qs) (cur ++ x) m.
Proof.
  induction 1 as [q|q c t x H IH|q c t x P H IH|q c t x Q C H IH|q t x Q H IH|q q' u y t x P Q H1 IH1 H2 IH2]; intros qs cur m.
  - rewrite app_nil_r. reflexivity.
  - change (BS :: c :: t) with ([BS; c] ++ t). rewrite wrun_app, step_escape, IH, <- app_assoc. reflexivity.
  - change (wrun (c :: t)) with (fun s => wrun t (wstep s c)). cbn beta. rewrite step_plain by exact P. rewrite IH, <- app_assoc. reflexivity.
  - change (wrun (c :: t)) with (fun s => wrun t (wstep s c)). cbn beta. rewrite step_space by assumption. rewrite IH, <- app_assoc. reflexivity.
  - change (wrun (TAB :: t)) with (fun s => wrun t (wstep s TAB)). cbn beta. rewrite step_tab by assumption. apply IH.
  - change (q' :: u ++ q' :: t) with ([q'] ++ u ++ [q'] ++ t). rewrite !wrun_app. change (wrun [q'] (ws_ (q :: qs) cur m)) with (wstep (ws_ (q :: qs) cur m) q').
    rewrite step_nest by assumption. rewrite IH1. change (wrun [q'] (ws_ (q' :: q :: qs) ((cur ++ [q']) ++ y) m)) with (wstep (ws_ (q' :: q :: qs) ((cur ++ [q']) ++ y) m) q').
    rewrite step_unnest by assumption. rewrite IH2, <- !app_assoc. reflexivity.
Qed.
Lemma inside_app q u x : inside q u x -> forall v y, inside q v y -> inside q (u ++ v) (x ++ y).
Proof.
  induction 1; intros v z K; cbn [app]; [exact K|constructor; auto|constructor; auto|constructor; auto|constructor; auto|]. repeat (rewrite <- app_assoc; cbn [app]). apply in_nested; auto.
Qed.
(** ** the words of the grammar are those found *)
Definition prepend (cur : list N) (ws : list (list N)) : list (list N) := match ws with [] => [] | w :: r => (cur ++ w) :: r end.
Lemma prepend_nil ws : prepend [] ws = ws. Proof. destruct ws; reflexivity. Qed.
Lemma splits_run t ws : splits t ws -> forall cur m, quotes (wrun (t ++ [SP]) (ws_ [] cur m)) = [] /\ mots (wrun (t ++ [SP]) (ws_ [] cur m)) = m ++ prepend cur ws.
Proof.
  induction 1 as [|c t ws S H IH|q u x t ws Q I H IH|c u x t ws P I B H IH|c t ws H IH|]; intros cur m.
  - split; [reflexivity|]. cbn [prepend]. rewrite app_nil_r. reflexivity.
  - change ((c :: t) ++ [SP]) with ([c] ++ (t ++ [SP])). rewrite wrun_app. change (wrun [c] (ws_ [] cur m)) with (wstep (ws_ [] cur m) c). rewrite step_skip by exact S. apply IH.
  - replace ((q :: u ++ q :: t) ++ [SP]) with ([q] ++ u ++ [q] ++ (t ++ [SP])) by (cbn; rewrite <- app_assoc; reflexivity). rewrite 3!wrun_app.
    change (wrun [q] (ws_ [] cur m)) with (wstep (ws_ [] cur m) q). rewrite step_open_quote by exact Q. rewrite (inside_run _ _ _ I).
    change (wrun [q] (ws_ [q] (cur ++ x) m)) with (wstep (ws_ [q] (cur ++ x) m) q). rewrite step_close_quote by exact Q.
    destruct (IH [] (m ++ [cur ++ x])) as (I1 & I2). rewrite prepend_nil, <- app_assoc in I2. auto.
  - replace ((c :: u ++ t) ++ [SP]) with ([c] ++ u ++ (t ++ [SP])) by (cbn; rewrite <- app_assoc; reflexivity). rewrite 2!wrun_app.
    change (wrun [c] (ws_ [] cur m)) with (wstep (ws_ [] cur m) c). rewrite step_open by exact P. rewrite (inside_run _ _ _ I).
    assert (CL : wrun (t ++ [SP]) (ws_ [SP] ((cur ++ [c]) ++ x) m) = wrun (t ++ [SP]) (ws_ [] [] (m ++ [(cur ++ [c]) ++ x]))).
    { destruct B as [->|(b & t' & -> & Sb)]; [reflexivity|]. cbn [app]. change (wrun (b :: t' ++ [SP])) with (fun s => wrun (t' ++ [SP]) (wstep s b)). cbn beta. rewrite step_close_word, step_skip by exact Sb. reflexivity. }
    rewrite CL. destruct (IH [] (m ++ [(cur ++ [c]) ++ x])) as (I1 & I2). split; [exact I1|]. rewrite I2, prepend_nil, <- !app_assoc. reflexivity.
  - change ((BS :: c :: t) ++ [SP]) with ([BS; c] ++ (t ++ [SP])). rewrite wrun_app, step_escape. destruct (IH (cur ++ [c]) m) as (I1 & I2). split; [exact I1|]. rewrite I2. f_equal.
    destruct ws; cbn; [reflexivity|]. rewrite <- app_assoc. reflexivity.
  - split; [reflexivity|]. cbn [prepend]. rewrite app_nil_r. reflexivity.
Qed.
(** ** and if they are found they are those of the grammar *)
Definition closes (q b : N) : Prop := if N.eqb q SP then space b = true else b = q.
Definition stuck (q : N) (t : list N) : Prop := forall qs cur m, exists Q, quotes (wrun t (ws_ (q :: qs) cur m)) = Q ++ q :: qs /\ Forall (fun c => is_quote c = true) Q /\
  (escaped (wrun t (ws_ (q :: qs) cur m)) = true \/ Q <> []).
Definition con (q : N) (t : list N) : Prop := (exists u x b v, t = u ++ b :: v /\ inside q u x /\ closes q b) \/ (exists x, inside q t x) \/ stuck q t.
Lemma con_app q u x r : inside q u x -> con q r -> con q (u ++ r).
Proof.
  intros I [(u2 & x2 & b & v & -> & I2 & C)|[(x2 & I2)|S]].
  - left. exists (u ++ u2), (x ++ x2), b, v. rewrite <- app_assoc. split; [reflexivity|]. split; [apply inside_app; assumption|exact C].
  - right. left. exists (x ++ x2). apply inside_app; assumption.
  - right. right. intros qs cur m. rewrite wrun_app, (inside_run _ _ _ I). apply S.
Qed.
Lemma con_all : forall n t q, List.length t <= n -> special_q q -> con q t.
Proof.
  induction n as [|n IH]; intros t q L SQ; (destruct t as [|a r]; [right; left; exists []; constructor|]); [cbn in L; lia|]. cbn in L.
  assert (QS : is_quote q = true -> N.eqb q SP = false) by (intro P; destruct (quote_cases q P) as [->|[->| ->]]; reflexivity).
  destruct (char_class a) as [->|[A|[A|A]]].
  - destruct r as [|c r].
    + right. right. intros qs cur m. exists []. cbn. auto.
    + apply (con_app q [BS; c] [c] r); [repeat constructor|]. apply IH; [cbn in L; lia|exact SQ].
  - destruct SQ as [->|SQ].
    + left. exists [], [], a, r. split; [reflexivity|]. split; [constructor|exact A].
    + assert (NQ : q <> SP) by (apply N.eqb_neq, QS, SQ). assert (R : con q r) by (apply IH; [lia|right; exact SQ]).
      destruct (space_cases a A) as [->|[->|[->| ->]]]; [apply (con_app q [SP] [SP] r)|apply (con_app q [TAB] [] r)|apply (con_app q [NL] [SP] r)|apply (con_app q [CR] [SP] r)]; auto;
        (apply in_tab || apply in_space); auto; constructor.
  - destruct (N.eq_dec a q) as [->|NE].
    + left. exists [], [], q, r. split; [reflexivity|]. split; [constructor|]. unfold closes. rewrite (QS A). reflexivity.
    + assert (AS : N.eqb a SP = false) by (destruct (quote_cases a A) as [->|[->| ->]]; reflexivity).
      destruct (IH r a) as [(u & y & b & v & -> & I & C)|[(y & I)|S]]; [lia|right; exact A| | |].
      * unfold closes in C. rewrite AS in C. subst b. replace (a :: u ++ a :: v) with ((a :: u ++ [a]) ++ v) by (cbn; rewrite <- app_assoc; reflexivity).
        apply (con_app q (a :: u ++ [a]) (a :: y ++ [a]) v); [apply in_nested; auto; constructor|]. apply IH; [rewrite app_length in L; cbn in L; lia|exact SQ].
      * right. right. intros qs cur m. exists [a]. change (wrun (a :: r) (ws_ (q :: qs) cur m)) with (wrun r (wstep (ws_ (q :: qs) cur m) a)). rewrite step_nest by assumption. rewrite (inside_run _ _ _ I).
        cbn. split; [reflexivity|]. split; [auto|]. right. discriminate.
      * right. right. intros qs cur m. change (wrun (a :: r) (ws_ (q :: qs) cur m)) with (wrun r (wstep (ws_ (q :: qs) cur m) a)). rewrite step_nest by assumption.
        destruct (S (q :: qs) (cur ++ [a]) m) as (Q & E & F & K). exists (Q ++ [a]). rewrite <- app_assoc. cbn [app]. split; [exact E|]. split; [apply Forall_app; auto|]. right. destruct Q; discriminate.
  - apply (con_app q [a] [a] r); [apply in_plain; [exact A|constructor]|]. apply IH; [lia|exact SQ].
Qed.
Lemma last_space s q Q : quotes s = q :: Q -> escaped s = true \/ is_quote q = true -> quotes (wstep s SP) = q :: Q.
Proof.
  intros E H. unfold wstep. destruct (escaped s); [exact E|]. destruct H as [H|H]; [discriminate|]. rewrite E. destruct (quote_cases q H) as [->|[->| ->]]; reflexivity.
Qed.
Lemma stuck_end q t cur m : stuck q t -> quotes (wrun (t ++ [SP]) (ws_ [q] cur m)) <> [].
Proof.
  intros S. destruct (S [] cur m) as (Q & E & F & K). rewrite wrun_app. change (wrun [SP] (wrun t (ws_ [q] cur m))) with (wstep (wrun t (ws_ [q] cur m)) SP).
  destruct Q as [|c Q]; cbn [app] in E.
  - rewrite (last_space _ _ _ E); [discriminate|]. destruct K as [K|K]; [auto|congruence].
  - rewrite (last_space _ _ _ E); [discriminate|]. right. inversion F; assumption.
Qed.
Lemma run_splits : forall n t cur m, List.length t <= n -> quotes (wrun (t ++ [SP]) (ws_ [] cur m)) = [] -> exists ws, splits t ws.
Proof.
  induction n as [|n IH]; intros t cur m L H; (destruct t as [|a r]; [exists []; constructor|]); [cbn in L; lia|]. cbn in L.
  change ((a :: r) ++ [SP]) with ([a] ++ (r ++ [SP])) in H. rewrite wrun_app in H. change (wrun [a] (ws_ [] cur m)) with (wstep (ws_ [] cur m) a) in H.
  destruct (char_class a) as [->|[A|[A|A]]].
  - destruct r as [|c r]; [exists []; exact sp_lone_escape|]. change (wrun ((c :: r) ++ [SP]) (wstep (ws_ [] cur m) BS)) with (wrun (r ++ [SP]) (wrun [BS; c] (ws_ [] cur m))) in H. rewrite step_escape in H.
    destruct (IH r (cur ++ [c]) m) as (ws & S); [cbn in L; lia|exact H|]. exists (onto_first c ws). apply sp_escape. exact S.
  - rewrite step_skip in H by exact A. destruct (IH r cur m) as (ws & S); [lia|exact H|]. exists ws. apply sp_space; assumption.
  - assert (AS : N.eqb a SP = false) by (destruct (quote_cases a A) as [->|[->| ->]]; reflexivity).
    rewrite step_open_quote in H by exact A. destruct (con_all (List.length r) r a (le_n _) (or_intror A)) as [(u & x & b & v & -> & I & C)|[(x & I)|S]].
    + unfold closes in C. rewrite AS in C. subst b. replace ((u ++ a :: v) ++ [SP]) with (u ++ [a] ++ (v ++ [SP])) in H by (rewrite <- app_assoc; reflexivity). rewrite 2!wrun_app, (inside_run _ _ _ I) in H.
      change (wrun [a] (ws_ [a] (cur ++ x) m)) with (wstep (ws_ [a] (cur ++ x) m) a) in H. rewrite step_close_quote in H by exact A.
      destruct (IH v [] (m ++ [cur ++ x])) as (ws & S); [rewrite app_length in L; cbn in L; lia|exact H|]. exists (x :: ws). apply sp_quoted; assumption.
    + exfalso. rewrite wrun_app, (inside_run _ _ _ I) in H. change (wrun [SP] (ws_ [a] (cur ++ x) m)) with (wstep (ws_ [a] (cur ++ x) m) SP) in H. rewrite (last_space _ a []) in H; [discriminate|reflexivity|right; exact A].
    + exfalso. exact (stuck_end _ _ _ _ S H).
  - rewrite step_open in H by exact A. destruct (con_all (List.length r) r SP (le_n _) (or_introl eq_refl)) as [(u & x & b & v & -> & I & C)|[(x & I)|S]].
    + change (space b = true) in C. replace ((u ++ b :: v) ++ [SP]) with (u ++ (b :: v ++ [SP])) in H by (rewrite <- app_assoc; reflexivity). rewrite wrun_app, (inside_run _ _ _ I) in H.
      change (wrun (b :: v ++ [SP]) (ws_ [SP] ((cur ++ [a]) ++ x) m)) with (wrun (v ++ [SP]) (wstep (ws_ [SP] ((cur ++ [a]) ++ x) m) b)) in H. rewrite step_close_word in H by exact C.
      destruct (IH v [] (m ++ [(cur ++ [a]) ++ x])) as (ws & S); [rewrite app_length in L; cbn in L; lia|exact H|]. exists ((a :: x) :: ws). apply sp_word; auto; [right; eauto|apply sp_space; assumption].
    + exists [a :: x]. rewrite <- (app_nil_r r). apply sp_word; auto. constructor.
    + exfalso. exact (stuck_end _ _ _ _ S H).
Qed.
Lemma split_ok t ws : split_in_words t = Ok ws <-> splits t ws.
Proof.
  unfold split_in_words. rewrite wloop_run. change {| quotes := []; current := []; escaped := false; mots := [] |} with (ws_ [] [] []). split.
  - intro H. destruct (quotes (wrun (t ++ [SP]) (ws_ [] [] []))) eqn:E; [|discriminate]. injection H as <-. destruct (run_splits _ _ _ _ (le_n _) E) as (ws & S).
    destruct (splits_run _ _ S [] []) as (_ & M). rewrite M, prepend_nil. exact S.
  - intro S. destruct (splits_run _ _ S [] []) as (Q & M). rewrite Q, M, prepend_nil. reflexivity.
Qed.
Lemma split_total t : (exists ws, split_in_words t = Ok ws) \/ split_in_words t = Err Erange.
Proof. unfold split_in_words. destruct (quotes _); eauto. Qed.

(** ** the whole *)
Lemma lines_concat : forall n t, List.length t <= n -> concat (lines t) = t.
Proof.
  induction n as [|n IH]; intros t L; [destruct t; [reflexivity|cbn in L; lia]|]. destruct (line_split t) as [(l & r & -> & H)|H].
  - rewrite lines_nl by exact H. cbn [concat]. rewrite IH by (rewrite app_length in L; cbn in L; lia). rewrite <- app_assoc. reflexivity.
  - destruct t as [|c t]; [reflexivity|]. rewrite lines_last by (auto; discriminate). cbn. rewrite app_nil_r. reflexivity.
Qed.
Lemma skip_blank_len l : List.length (skip_blank l) <= List.length l.
Proof. induction l as [|c l IH]; cbn; [lia|]. destruct (blank c); cbn; lia. Qed.
Lemma uncomment_len : forall ls fresh empties, List.length (uncomment fresh empties ls) <= List.length empties + List.length (concat ls).
Proof.
  induction ls as [|l ls IH]; intros fresh empties; cbn [uncomment concat]; [cbn; lia|]. rewrite app_length. destruct (line_kind l).
  - specialize (IH fresh (if fresh then [] else empties ++ l)). destruct fresh; cbn [List.length] in IH; [lia|]. rewrite app_length in IH. lia.
  - specialize (IH true []). cbn [List.length] in IH. lia.
  - specialize (IH false []). cbn [List.length] in IH. rewrite app_length. pose proof (skip_blank_len l). destruct fresh; [lia|]. rewrite app_length. lia.
Qed.
Lemma chosen_len cibles keep ls t : chosen cibles keep ls t -> List.length t <= List.length (concat ls).
Proof. induction 1 as [|keep l name r t C keep' K H IH|keep l r t P H IH]; cbn [concat]; [cbn; lia|rewrite app_length; lia|]. rewrite !app_length. destruct keep; cbn [List.length]; lia. Qed.
Lemma make_args_eq op targets f : exists t, chosen (targets ++ str "all" :: op_targets op) true (lines (uncomment true [] (lines f))) t /\ make_args op targets f = split_in_words t.
Proof.
  destruct (no_comment_ok f) as (m1 & E1 & W1 & S1). destruct (config_file_ok (targets ++ str "all" :: op_targets op) (shown f m1)) as (m2 & E2 & W2 & C2).
  exists (shown (shown f m1) m2). rewrite <- S1. split; [exact C2|]. unfold make_args. rewrite E1. cbn [bind]. pose proof (shown_len f m1 (proj1 W1)) as L1.
  rewrite hread_all_ok; [|exact W1|].
  2:{ rewrite <- L1, S1. pose proof (uncomment_len (lines f) true []) as U. rewrite (lines_concat _ f (le_n _)) in U. cbn [List.length] in U. lia. }
  cbn [bind]. rewrite <- app_assoc. cbn [app]. rewrite E2. cbn [bind]. rewrite hread_all_ok; [reflexivity|exact W2|].
  rewrite <- (shown_len _ m2 (proj1 W2)). pose proof (chosen_len _ _ _ _ C2) as U. rewrite (lines_concat _ _ (le_n _)) in U. lia.
Qed.

(** ** words written with [quoted] *)
Definition qchar (c : N) : list N := if special c then [BS; c] else [c].
Lemma qinside : forall w, inside 34%N (flat_map qchar w) w.
Proof.
  induction w as [|c w IH]; cbn [flat_map]; [constructor|]. unfold qchar at 1. destruct (special c) eqn:S; cbn [app]; [apply in_escape, IH|].
  unfold special in S. repeat (apply orb_false_iff in S; destruct S as (S & ?)). destruct (N.eqb_spec c SP) as [->|NS]; [apply in_space; auto; discriminate|].
  apply in_plain; [|exact IH]. unfold plain, space, is_quote. apply N.eqb_neq in NS. rewrite NS. repeat match goal with E : N.eqb _ _ = false |- _ => rewrite E; clear E end. reflexivity.
Qed.
Lemma qsplits : forall ws, splits (concat (map qline ws)) ws.
Proof.
  induction ws as [|w ws IH]; cbn [map concat]; [constructor|]. unfold qline at 1. unfold quoted. change (fun c => if special c then [BS; c] else [c]) with qchar.
  replace (((34%N :: flat_map qchar w ++ [34%N]) ++ [NL]) ++ concat (map qline ws)) with (34%N :: flat_map qchar w ++ 34%N :: NL :: concat (map qline ws)) by (cbn; repeat (rewrite <- app_assoc; cbn [app]); reflexivity).
  apply sp_quoted; [reflexivity|apply qinside|]. apply sp_space; [reflexivity|exact IH].
Qed.
Lemma quoted_nl w : ~ In NL w -> ~ In NL (quoted w).
Proof.
  intros H [Q|Q]; [discriminate|]. apply in_app_or in Q. destruct Q as [Q|[Q|[]]]; [|discriminate]. apply in_flat_map in Q. destruct Q as (c & I & Q). destruct (special c); [destruct Q as [Q|[Q|[]]]|destruct Q as [Q|[]]]; [discriminate| |]; subst c; auto.
Qed.
(** lines each starting with something else than a comment or a space *)
Definition good (l : list N) : Prop := exists l' c l2, l = l' ++ [NL] /\ ~ In NL l' /\ l' = c :: l2 /\ blank c = false /\ c <> HASH.
Lemma good_lines : forall ls, Forall good ls -> lines (concat ls) = ls.
Proof.
  induction 1 as [|l ls (l' & c & l2 & -> & H & _) _ IH]; [reflexivity|]. cbn [concat]. rewrite <- app_assoc. cbn [app]. rewrite lines_nl by exact H. rewrite IH. reflexivity.
Qed.
Lemma good_uncomment : forall ls, Forall good ls -> forall fresh, uncomment fresh [] ls = concat ls.
Proof.
  induction 1 as [|l ls (l' & c & l2 & -> & H & -> & B & NH) _ IH]; intro fresh; [reflexivity|]. cbn [uncomment concat]. unfold line_kind. cbn [app skip_blank]. rewrite B.
  destruct (N.eqb_spec c NL) as [->|_]; [exfalso; apply H; left; reflexivity|]. destruct (N.eqb_spec c HASH) as [->|_]; [congruence|]. rewrite IH. destruct fresh; reflexivity.
Qed.
Lemma qline_good w : ~ In NL w -> good (qline w).
Proof. intro H. exists (quoted w), 34%N, (flat_map qchar w ++ [34%N]). split; [reflexivity|]. split; [apply quoted_nl, H|]. split; [reflexivity|]. split; [reflexivity|discriminate]. Qed.
Lemma qline_plain w : plain_line (qline w).
Proof.
  intros name C. unfold qline in C. apply condition_crun in C. apply crun_init in C. destruct C as (sp & sp' & c & v & E & _ & A & B & _).
  destruct sp as [|b sp]; cbn in E; injection E as E _; subst; [discriminate|]. cbn in B. discriminate.
Qed.
Lemma word_char_nl c : word_char c = true -> c <> NL. Proof. intros H ->. discriminate. Qed.
Lemma name_good name : name_ok name -> good (name ++ [COLON; NL]) /\ condition (name ++ [COLON; NL]) name.
Proof.
  destruct name as [|c w]; [intros []|]. intros (A & W). split.
  - exists ((c :: w) ++ [COLON]), c, (w ++ [COLON]). split; [rewrite <- app_assoc; reflexivity|]. split.
    + intro I. apply in_app_or in I. destruct I as [[I|I]|[I|[]]]; [subst c; discriminate| |discriminate]. rewrite forallb_forall in W. apply (word_char_nl NL (W _ I)). reflexivity.
    + split; [reflexivity|]. split; [apply alpha_not_blank, A|]. intros ->. discriminate.
  - exists [], [], c, w. cbn. auto 6.
Qed.
Lemma chosen_secs cibles : forall secs keep ws, (forall s, In s secs -> name_ok (fst s)) ->
  chosen cibles keep (map qline ws ++ flat_map sec_lines secs) (concat (map qline ((if keep then ws else []) ++ flat_map (picked cibles) secs))).
Proof.
  induction secs as [|s secs IH]; intros keep ws K; cbn [flat_map]; rewrite map_app, concat_app.
  - replace (concat (map qline (if keep then ws else []))) with (if keep then concat (map qline ws) else []) by (destruct keep; reflexivity). apply chosen_lines; [|constructor].
    apply Forall_map, Forall_forall. intros w _. apply qline_plain.
  - replace (concat (map qline (if keep then ws else []))) with (if keep then concat (map qline ws) else []) by (destruct keep; reflexivity). apply chosen_lines; [apply Forall_map, Forall_forall; intros w _; apply qline_plain|].
    cbn [sec_lines app]. destruct (name_good (fst s) (K s (or_introl eq_refl))) as (_ & C). unfold picked at 1. destruct (in_dec (list_eq_dec N.eq_dec) (fst s) cibles) as [I|I].
    + apply (ch_cond cibles keep _ _ _ _ C true); [tauto|]. apply (IH true (snd s)). intros x X. apply K. right. exact X.
    + apply (ch_cond cibles keep _ _ _ _ C false); [split; [discriminate|intro; contradiction]|]. apply (IH false (snd s)). intros x X. apply K. right. exact X.
Qed.
Lemma concat_flat_map {A B} (f : A -> list (list B)) l : concat (flat_map f l) = flat_map (fun x => concat (f x)) l.
Proof. induction l as [|x l IH]; [reflexivity|]. cbn. rewrite concat_app, IH. reflexivity. Qed.
Lemma sections_ok op targets ws secs : (forall w, In w ws -> ~ In NL w) -> (forall s, In s secs -> name_ok (fst s) /\ forall w, In w (snd s) -> ~ In NL w) ->
  make_args op targets (concat (map qline ws ++ flat_map sec_lines secs)) = Ok (ws ++ flat_map (picked (targets ++ str "all" :: op_targets op)) secs).
Proof.
  intros H K. destruct (make_args_eq op targets (concat (map qline ws ++ flat_map sec_lines secs))) as (t & C & ->).
  assert (G : Forall good (map qline ws ++ flat_map sec_lines secs)).
  { apply Forall_app. split; [apply Forall_map, Forall_forall; intros w I; apply qline_good, H, I|]. apply Forall_forall. intros l I. apply in_flat_map in I. destruct I as (s & Is & I). destruct (K s Is) as (N1 & N2).
    destruct I as [<-|I]; [apply name_good, N1|]. apply in_map_iff in I. destruct I as (w & <- & I). apply qline_good, N2, I. }
  rewrite good_lines in C by exact G. rewrite good_uncomment in C by exact G. rewrite good_lines in C by exact G.
  apply split_ok. rewrite (chosen_fun _ _ _ _ (chosen_secs _ secs true ws (fun s I => proj1 (K s I))) _ C). apply qsplits.
Qed.

(** ** hide_file: any sequence of operations *)
Lemma hfind_none : forall m o i q, offs o m -> (forall x, In x m -> 0 < longueur x) -> o + total m <= q -> hfind m i q = None.
Proof.
  induction m as [|x m IH]; intros o i q O P H; [reflexivity|]. cbn [hfind total offs] in *. destruct O as (O & O'). pose proof (P x (or_introl eq_refl)). destruct (Nat.ltb_spec (offset x + longueur x - 1) q); [|lia].
  apply (IH _ _ _ O'); [intros y Y; apply P; right; exact Y|lia].
Qed.
Lemma hdo_ok f m : wfm (List.length f) m -> forall os h q, at_pos m h q -> hdo_all f m h os = Ok (pdo_all (shown f m) q os).
Proof.
  intros W. pose proof (shown_len f m (proj1 W)) as L. induction os as [|o os IH]; intros h q A; [reflexivity|]. destruct o as [p| |]; cbn [hdo_all hdo pdo_all].
  - rewrite L. destruct (Nat.ltb_spec p (total m)) as [P|P].
    + destruct (hskip_ok _ m h p W P) as (h' & E & A'). rewrite E. cbn [bind]. rewrite (IH h' p A'). reflexivity.
    + unfold hskip. rewrite (hfind_none m 0 0 p); [|apply W|destruct W as (W & _); rewrite Forall_forall in W; intros x I; apply (W x I)|lia]. cbn [bind]. rewrite (IH h q A). reflexivity.
  - destruct (hread_one f m h q W A) as (h' & E & A'). rewrite E. cbn [bind]. rewrite L, (IH h' _ A'). reflexivity.
  - cbn [bind]. rewrite (hposition_ok _ m h q W A), (IH h q A). reflexivity.
Qed.
