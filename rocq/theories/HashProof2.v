(** * HashProof2: histories of requests on a hashed slice, and opening *)
From Coq Require Import List.
From Verif Require Import Base HashModel HashSpec HashProof.
Local Open Scope nat_scope.

(** A file just created. *)
Definition fresh : fl := {| content := []; full := false; closed := false |}.

(** The write requests of a history with their answers. *)
Definition outcome_of (x : option werr) : outcome :=
  match x with None => Done | Some Wabort => Refused | Some _ => Failed end.
Fixpoint written (t : list (op * option werr)) : list (list byte * outcome) :=
  match t with
  | [] => []
  | (Write d, x) :: r => (d, outcome_of x) :: written r
  | _ :: r => written r
  end.
Fixpoint sent (t : list (op * option werr)) : list (list byte) :=
  match t with
  | [] => []
  | (Write d, _) :: r => d :: sent r
  | _ :: r => sent r
  end.

(** Relations between the flags of a hash_fichier that always hold. *)
Definition wf (h : hf) : Prop :=
  outer_full h = false /\ at_eof h = hclosed h /\ dumped h = hclosed h /\ closed (slice h) = hclosed h /\
  (aborting h = full (slice h)).

Lemma hash_write_post step e h data e' h' x :
  wf h -> hash_write step e h data = (e', h', x) ->
  wf h' /\ hfile h' = hfile h /\ name h' = name h /\ hclosed h' = hclosed h /\ dumped h' = dumped h /\
  ((hclosed h = true /\ x = Some Wbug /\ h' = h) \/
   (hclosed h = false /\ data = [] /\ x = None /\ h' = h) \/
   (hclosed h = false /\ data <> [] /\ digested h' = digested h ++ data /\ write_post (slice h) (slice h') data x)).
Proof.
  intros (O & A & D & C & F) H. unfold hash_write in H.
  destruct (hclosed h) eqn:HC.
  - inversion H; subst. repeat split; auto; try congruence.
  - destruct data as [|b data].
    + inversion H; subst. repeat split; auto; try congruence. right. left. auto.
    + rewrite O in H. unfold hash_inherited_write in H. rewrite A in H.
      destruct (file_write step e (slice (set_digested h (digested h ++ b :: data))) (b :: data)) as [[e1 s1] y] eqn:E.
      apply file_write_spec in E. cbn [slice set_digested] in E. destruct E as [[E _]|[_ E]]; [congruence|].
      assert (S1 : closed s1 = closed (slice h)) by apply E.
      inversion H; subst e' x h'. clear H.
      assert (W : aborting (match y with Some Wabort => set_aborting (set_slice (set_digested h (digested h ++ b :: data)) s1) | _ => set_slice (set_digested h (digested h ++ b :: data)) s1 end) = full s1).
      { destruct E as [_ E]. destruct y as [[]|]; cbn.
        - destruct E as (_ & E & _). now rewrite E.
        - destruct E as (_ & E & _). now rewrite E.
        - destruct E as (_ & E & _). now rewrite E.
        - destruct E as (_ & E & _). now rewrite E.
        - destruct E as (_ & E & _). now rewrite E.
        - destruct E as (E & _). now contradiction E.
        - destruct E as (E & _). now rewrite E. }
      assert (G : slice (match y with Some Wabort => set_aborting (set_slice (set_digested h (digested h ++ b :: data)) s1) | _ => set_slice (set_digested h (digested h ++ b :: data)) s1 end) = s1)
        by (destruct y as [[]|]; reflexivity).
      unfold wf. rewrite G, W.
      repeat split; try (destruct y as [[]|]; cbn; congruence).
      right. right. split; [reflexivity|]. split; [discriminate|]. split; [destruct y as [[]|]; reflexivity|].
      exact E.
Qed.

Section D.
Variable digest : list byte -> list byte.
Variable step : nat.

Lemma writes_spec : forall l e f e' f' x,
  closed f = false -> full f = false ->
  writes step e f l = (e', f', x) ->
  (x = None -> content f' = content f ++ all_bytes l) /\
  exists p, prefix p (all_bytes l) /\ content f' = content f ++ p.
Proof.
  induction l as [|d l IH]; intros e f e' f' x C F H.
  - inversion H; subst. split; [intros _; now rewrite app_nil_r|]. exists []. split; [apply prefix_nil|]. now rewrite app_nil_r.
  - cbn [writes] in H. destruct (file_write step e f d) as [[e1 f1] y] eqn:E.
    apply file_write_spec in E. destruct E as [[E _]|[_ [E0 E]]]; [congruence|].
    cbn [all_bytes].
    destruct y as [y|].
    + inversion H; subst x f' e'. split; [discriminate|].
      assert (Q : exists p, prefix p d /\ content f1 = content f ++ p).
      { destruct y; destruct E as (E1 & E2 & E3); try exact E3; try (destruct E3 as [_ E3]; exact E3). }
      destruct Q as (p & P & Q). exists p. split; [apply prefix_weak, P|exact Q].
    + destruct E as [E1 E2]. rewrite F in E2.
      destruct (IH e1 f1 e' f' x) as [I1 (p & P & I2)]; [congruence|congruence|exact H|].
      split.
      * intro Hx. rewrite (I1 Hx), E2, app_assoc. reflexivity.
      * exists (d ++ p). split; [apply prefix_app_l, P|]. rewrite I2, E2, app_assoc. reflexivity.
Qed.

(** With nothing ahead to go wrong, writes succeed. *)
Lemma writes_quiet : forall l f, closed f = false -> full f = false ->
  exists f', writes step {| calls := []; answers := []; cancels := [] |} f l = ({| calls := []; answers := []; cancels := [] |}, f', None).
Proof.
  induction l as [|d l IH]; intros f C F; [eexists; reflexivity|].
  cbn [writes]. unfold file_write. rewrite C. cbn [length calls gloop].
  destruct d as [|b d]; [apply IH; assumption|].
  rewrite F. unfold local_write. cbn [cancels hd tl calls wloop answers]. rewrite Nat.ltb_irrefl.
  apply IH; assumption.
Qed.

(** The line write_hash_in_hexa wants to write. *)
Definition line (d nm : list byte) : list byte := all_bytes [string_to_hexa d; [32; 32]%N; nm; [10]%N].

Lemma line_ok d nm : bytes_ok d -> check_line (line d nm) d nm.
Proof.
  intro H. exists (string_to_hexa d). split; [apply hexa_ok, H|]. unfold line. cbn [all_bytes app].
  now rewrite app_nil_r || reflexivity.
Qed.

Lemma term_post e h e' h' x :
  wf h -> closed (hfile h) = hclosed h -> full (hfile h) = false \/ hclosed h = true ->
  hash_terminate digest step e h = (e', h', x) ->
  wf h' /\ content (slice h') = content (slice h) /\ name h' = name h /\ digested h' = digested h /\
  aborting h' = aborting h /\ hclosed h' = true /\
  ((hclosed h = true /\ h' = h /\ x = None) \/
   (hclosed h = false /\
    ((aborting h = true /\ hfile h' = hfile h /\ x = None) \/
     (aborting h = false /\
      (x = None -> content (hfile h') = content (hfile h) ++ line (digest (digested h)) (name h)) /\
      exists p, prefix p (line (digest (digested h)) (name h)) /\ content (hfile h') = content (hfile h) ++ p)))).
Proof.
  intros (O & A & D & C & F) HC HF H. unfold hash_terminate in H.
  destruct (hclosed h) eqn:K.
  - inversion H; subst. repeat split; auto; try congruence.
  - destruct HF as [HF|HF]; [|discriminate].
    cbn [set_slice dumped] in H. rewrite D in H. cbn [set_dumped aborting set_slice] in H.
    destruct (aborting h) eqn:AB.
    + inversion H; subst. unfold wf. cbn. split; [repeat split; auto; congruence|]. do 5 (split; [reflexivity || assumption || congruence|]). right. split; [reflexivity|]. left. auto.
    + match type of H with context [write_hash_in_hexa step e ?h2 ?dg] => set (hh := h2) in *; change (digested h) with (digested hh) end.
      destruct (write_hash_in_hexa step e hh (digest (digested hh))) as [[e1 h3] y] eqn:E.
      inversion H; subst e' h' x. clear H.
      unfold write_hash_in_hexa in E.
      destruct (writes step e (hfile hh) [string_to_hexa (digest (digested hh)); [32; 32]%N; name hh; [10]%N]) as [[e2 f2] z] eqn:W.
      apply writes_spec in W; [|exact HC|exact HF].
      destruct W as [W1 W2].
      destruct z as [z|]; inversion E; subst e1 h3 y; clear E; unfold wf; cbn; (split; [repeat split; auto; congruence|]); do 5 (split; [reflexivity || assumption || congruence|]);
        right; (split; [reflexivity|]); right; (split; [reflexivity|]).
      * split; [discriminate|]. exact W2.
      * split; [intros _; apply W1; reflexivity|]. exact W2.
Qed.

(** Properties of histories: no write failed but by the user's refusal; some write was refused. *)
Definition clean (t : list (op * option werr)) : Prop := forall d x, In (Write d, Some x) t -> x = Wabort.
Definition aborted (t : list (op * option werr)) : Prop := exists d, In (Write d, Some Wabort) t.

(** Where a history stands: [h] after the bytes [D] were sent. *)
Definition open_inv (h : hf) (D : list byte) : Prop :=
  hclosed h = false /\ hfile h = fresh /\
  (aborting h = false -> digested h = D /\ content (slice h) = D).
Definition closed_inv (h : hf) (D : list byte) (tok : bool) : Prop :=
  hclosed h = true /\
  (aborting h = true -> content (hfile h) = []) /\
  (aborting h = false -> content (slice h) = D /\
     (exists p, prefix p (line (digest D) (name h)) /\ content (hfile h) = p) /\
     (tok = true -> content (hfile h) = line (digest D) (name h))).

Lemma run_closed : forall ops e h e' h' t,
  wf h -> hclosed h = true -> run digest step e h ops = (e', h', t) -> h' = h /\ forall d x, In (Write d, x) t -> x = Some Wbug.
Proof.
  induction ops as [|o ops IH]; intros e h e' h' t W C H.
  - inversion H; subst. split; [reflexivity|]. intros d x [].
  - cbn [run] in H. destruct (step_op digest step e h o) as [[e1 h1] x1] eqn:E.
    assert (h1 = h /\ forall d, o = Write d -> x1 = Some Wbug).
    { destruct o; cbn in E.
      - unfold hash_write in E. rewrite C in E. inversion E; subst. split; [reflexivity|]. intros; reflexivity.
      - inversion E; subst. split; [reflexivity|]. discriminate.
      - unfold hash_terminate in E. rewrite C in E. inversion E; subst. split; [reflexivity|]. discriminate. }
    destruct H0 as [-> HO].
    destruct (run digest step e1 h ops) as [[e2 h2] t2] eqn:R. inversion H; subst.
    destruct (IH _ _ _ _ _ W C R) as [-> I]. split; [reflexivity|].
    intros d x [X|X]; [inversion X; subst; eapply HO; reflexivity|eapply I, X].
Qed.

Lemma sent_closed t : clean t -> (forall d x, In (Write d, x) t -> x = Some Wbug) -> sent t = [].
Proof.
  induction t as [|[o x] t IH]; intros C B; [reflexivity|].
  assert (C' : clean t) by (intros d y Hy; eapply C; right; exact Hy).
  assert (B' : forall d y, In (Write d, y) t -> y = Some Wbug) by (intros d y Hy; eapply B; right; exact Hy).
  destruct o; cbn [sent]; auto.
  exfalso. assert (x = Some Wbug) by (eapply B; left; reflexivity). subst x.
  specialize (C d Wbug (or_introl eq_refl)). discriminate.
Qed.

Lemma run_inv : forall ops e h e' h' t D,
  wf h -> open_inv h D -> run digest step e h ops = (e', h', t) -> clean t ->
  wf h' /\ name h' = name h /\
  (aborting h' = true <-> aborting h = true \/ aborted t) /\
  (open_inv h' (D ++ all_bytes (sent t)) /\ (forall x, ~ In (Term, x) t) \/
   exists tok, closed_inv h' (D ++ all_bytes (sent t)) tok /\
     ((forall x, ~ In (Term, Some x) t) -> tok = true)).
Proof.
  induction ops as [|o ops IH]; intros e h e' h' t D W I H CL.
  - inversion H; subst. cbn [sent all_bytes]. rewrite app_nil_r. split; [exact W|]. split; [reflexivity|]. split; [|left].
    + split; [auto|]. intros [X|[d []]]; exact X.
    + split; [exact I|]. intros x [].
  - cbn [run] in H. destruct (step_op digest step e h o) as [[e1 h1] x1] eqn:E.
    destruct (run digest step e1 h1 ops) as [[e2 h2] t2] eqn:R. inversion H; subst e' h' t. clear H.
    assert (CL2 : clean t2) by (intros d y Hy; eapply CL; right; exact Hy).
    destruct I as (K & HFr & I).
    destruct o as [d|pos|]; cbn [step_op] in E.
    + apply hash_write_post in E; [|exact W].
      destruct E as (W1 & Hf & Hn & Hc & Hd & E).
      assert (I1 : open_inv h1 (D ++ d) /\ (aborting h1 = true <-> aborting h = true \/ x1 = Some Wabort)).
      { destruct E as [[X _]|[(X & X1 & X2 & X3)|(X & X1 & X2 & X3)]]; [congruence| |].
        - subst. rewrite app_nil_r. split; [|intuition congruence]. repeat split; auto; apply I; auto.
        - assert (AB : aborting h = full (slice h)) by apply W.
          assert (AB1 : aborting h1 = full (slice h1)) by apply W1.
          destruct x1 as [x1|].
          + assert (x1 = Wabort) by (eapply CL; left; reflexivity). subst x1.
            destruct X3 as (_ & Y1 & Y2 & _). split; [|rewrite AB1, Y2; intuition].
            split; [congruence|]. split; [congruence|]. intro Z; congruence.
          + destruct X3 as (_ & Y1 & Y2). split; [|rewrite AB, AB1, Y1; intuition congruence].
            split; [congruence|]. split; [congruence|]. intro Z. rewrite AB1, Y1 in Z. rewrite Z in Y2.
            rewrite AB in I. destruct (I Z) as [I1 I2]. split; [rewrite X2, I1; reflexivity|rewrite Y2, I2; reflexivity]. }
      destruct I1 as [I1 A1].
      destruct (IH _ _ _ _ _ _ W1 I1 R CL2) as (P1 & P2 & P3 & P4).
      cbn [sent all_bytes]. rewrite <- app_assoc in P4.
      split; [exact P1|]. split; [congruence|]. split.
      * rewrite P3, A1. unfold aborted. split.
        -- intros [[X|X]|[d' X]]; [left; exact X|right; exists d; left; congruence|right; exists d'; right; exact X].
        -- intros [X|[d' [X|X]]]; [left; left; exact X|left; right; congruence|right; exists d'; exact X].
      * destruct P4 as [[P4 P5]|(tok & P4 & P5)]; [left|right; exists tok].
        -- split; [exact P4|]. intros x [X|X]; [discriminate|eapply P5, X].
        -- split; [exact P4|]. intro X. apply P5. intros x Y. eapply X. right. exact Y.
    + inversion E; subst e1 h1 x1.
      destruct (IH _ _ _ _ _ D W (conj K (conj HFr I)) R CL2) as (P1 & P2 & P3 & P4).
      cbn [sent]. split; [exact P1|]. split; [exact P2|]. split.
      * rewrite P3. unfold aborted. split; intros [X|[d' X]]; auto.
        -- right. exists d'. right. exact X.
        -- destruct X as [X|X]; [discriminate|]. right. exists d'. exact X.
      * destruct P4 as [[P4 P5]|(tok & P4 & P5)]; [left|right; exists tok].
        -- split; [exact P4|]. intros x [X|X]; [discriminate|eapply P5, X].
        -- split; [exact P4|]. intro X. apply P5. intros x Y. eapply X. right. exact Y.
    + apply term_post in E; [|exact W|rewrite HFr, K; reflexivity|left; now rewrite HFr].
      destruct E as (W1 & Ec & En & Ed & Ea & Eh & E).
      destruct (run_closed _ _ _ _ _ _ W1 Eh R) as [-> B].
      cbn [sent]. rewrite (sent_closed _ CL2 B). cbn [all_bytes]. rewrite app_nil_r.
      split; [exact W1|]. split; [exact En|]. split.
      * rewrite Ea. unfold aborted. split; [auto|]. intros [X|[d [X|X]]]; [exact X|discriminate|].
        apply B in X. discriminate.
      * right. exists (match x1 with None => true | _ => false end).
        destruct E as [[X _]|[_ E]]; [congruence|].
        split.
        -- split; [exact Eh|]. rewrite Ea. destruct E as [(E1 & E2 & E3)|(E1 & E2 & E3)].
           ++ split; [intros _; rewrite E2, HFr; reflexivity|congruence].
           ++ split; [congruence|]. intros _. destruct (I E1) as [I1 I2]. rewrite I1, HFr in E2, E3. cbn [content fresh app] in E2, E3.
              rewrite En. split; [congruence|]. split; [exact E3|]. intro Z. apply E2. destruct x1; [discriminate|reflexivity].
        -- intro X. destruct x1 as [x1|]; [|reflexivity]. exfalso. eapply X. left. reflexivity.
Qed.

Lemma destroy_inv e h D :
  wf h -> open_inv h D -> closed_inv (snd (hash_destroy digest step e h)) D false /\
  aborting (snd (hash_destroy digest step e h)) = aborting h /\ name (snd (hash_destroy digest step e h)) = name h.
Proof.
  intros W (K & HFr & I). unfold hash_destroy.
  destruct (hash_terminate digest step e h) as [[e1 h1] x] eqn:E. cbn [snd].
  apply term_post in E; [|exact W|rewrite HFr, K; reflexivity|left; now rewrite HFr].
  destruct E as (W1 & Ec & En & Ed & Ea & Eh & E). split; [|split; assumption].
  destruct E as [[X _]|[_ E]]; [congruence|].
  split; [exact Eh|]. rewrite Ea. destruct E as [(E1 & E2 & E3)|(E1 & E2 & E3)].
  - split; [intros _; rewrite E2, HFr; reflexivity|congruence].
  - split; [congruence|]. intros _. destruct (I E1) as [I1 I2]. rewrite I1, HFr in E3. cbn [content fresh app] in E3.
    rewrite En. split; [congruence|]. split; [exact E3|discriminate].
Qed.

Lemma destroy_closed e h : hclosed h = true -> snd (hash_destroy digest step e h) = h.
Proof. intro H. unfold hash_destroy, hash_terminate. now rewrite H. Qed.

Lemma stored_closed : forall t dead, (forall d x, In (Write d, x) t -> x = Some Wbug) -> stored dead (written t) [].
Proof.
  induction t as [|[o x] t IH]; intros dead B; [constructor|].
  assert (B' : forall d y, In (Write d, y) t -> y = Some Wbug) by (intros d y Hy; eapply B; right; exact Hy).
  destruct o; cbn [written]; auto.
  assert (x = Some Wbug) by (eapply B; left; reflexivity). subst x. cbn [outcome_of].
  destruct dead.
  - constructor. auto.
  - change (@nil byte) with (@nil byte ++ []). constructor; [apply prefix_nil|]. auto.
Qed.

Lemma run_stored : forall ops e h e' h' t,
  wf h -> hclosed h = false -> closed (hfile h) = false -> full (hfile h) = false ->
  run digest step e h ops = (e', h', t) ->
  exists c, content (slice h') = content (slice h) ++ c /\ stored (full (slice h)) (written t) c.
Proof.
  induction ops as [|o ops IH]; intros e h e' h' t W K H1 H2 H.
  - inversion H; subst. exists []. split; [now rewrite app_nil_r|constructor].
  - cbn [run] in H. destruct (step_op digest step e h o) as [[e1 h1] x1] eqn:E.
    destruct (run digest step e1 h1 ops) as [[e2 h2] t2] eqn:R. inversion H; subst e' h' t. clear H.
    destruct o as [d|pos|]; cbn [step_op] in E.
    + apply hash_write_post in E; [|exact W].
      destruct E as (W1 & Hf & Hn & Hc & Hd & E).
      destruct (IH _ _ _ _ _ W1 ltac:(congruence) ltac:(congruence) ltac:(congruence) R) as (c & C1 & C2).
      cbn [written].
      destruct E as [[X _]|[(X & X1 & X2 & X3)|(X & X1 & X2 & X3)]]; [congruence| |].
      * subst. exists c. split; [exact C1|]. cbn [outcome_of].
        destruct (full (slice h)); [constructor; exact C2|].
        change c with ([] ++ c). constructor. exact C2.
      * destruct X3 as [_ X3]. destruct x1 as [x1|].
        -- assert (Q : exists p, prefix p d /\ content (slice h1) = content (slice h) ++ p /\ full (slice h) = false /\
                        full (slice h1) = match x1 with Wabort => true | _ => false end).
           { destruct x1; destruct X3 as (Y1 & Y2 & Y3).
             - destruct Y3 as (p & P & Y3). exists p. auto.
             - destruct Y3 as (Y3 & p & P & Y4). exists p. repeat split; congruence || assumption.
             - destruct Y3 as (Y3 & p & P & Y4). exists p. repeat split; congruence || assumption.
             - destruct Y3 as (Y3 & p & P & Y4). exists p. repeat split; congruence || assumption.
             - destruct Y3 as (Y3 & p & P & Y4). exists p. repeat split; congruence || assumption.
             - now contradiction Y1. }
           destruct Q as (p & P & Q1 & Q2 & Q3). exists (p ++ c).
           split; [rewrite C1, Q1, app_assoc; reflexivity|]. rewrite Q2, Q3 in *.
           destruct x1; cbn [outcome_of]; (apply st_refused || apply st_failed); assumption.
        -- destruct X3 as [Y1 Y2]. rewrite Y1 in C2. cbn [outcome_of].
           destruct (full (slice h)).
           ++ exists c. split; [rewrite C1, Y2, app_nil_r; reflexivity|]. constructor. exact C2.
           ++ exists (d ++ c). split; [rewrite C1, Y2, app_assoc; reflexivity|]. constructor. exact C2.
    + inversion E; subst e1 h1 x1. cbn [written]. eapply IH; eassumption.
    + apply term_post in E; [|exact W|congruence|left; exact H2].
      destruct E as (W1 & Ec & En & Ed & Ea & Eh & E).
      destruct (run_closed _ _ _ _ _ _ W1 Eh R) as [-> B].
      cbn [written]. exists []. split; [rewrite Ec, app_nil_r; reflexivity|]. apply stored_closed, B.
Qed.

Lemma stored_all : forall h c, stored false h c -> (forall d o, In (d, o) h -> o = Done) -> c = all_bytes (map fst h).
Proof.
  intros h c H. remember false as b. induction H; intro A; subst; auto; try discriminate.
  - cbn [map fst all_bytes]. f_equal. apply IHstored; auto. intros d' o' X. eapply A. right. exact X.
  - specialize (A d Refused (or_introl eq_refl)). discriminate.
  - specialize (A d Failed (or_introl eq_refl)). discriminate.
Qed.

Lemma run_full : forall ops e h e' h' t,
  wf h -> hclosed h = true \/ (closed (hfile h) = false /\ full (hfile h) = false) -> full (slice h) = true ->
  run digest step e h ops = (e', h', t) -> content (slice h') = content (slice h).
Proof.
  intros ops e h e' h' t W K F H. destruct (hclosed h) eqn:HC.
  - destruct (run_closed _ _ _ _ _ _ W HC H) as [-> _]. reflexivity.
  - destruct K as [K|[K1 K2]]; [discriminate|].
    destruct (run_stored _ _ _ _ _ _ W HC K1 K2 H) as (c & C1 & C2).
    rewrite C1. rewrite F in C2. clear -C2.
    assert (c = []); [|subst; apply app_nil_r].
    remember true as b. induction C2; auto; discriminate.
Qed.
End D.

Lemma wf_new nm : wf (new_hash fresh fresh nm).
Proof. repeat split. Qed.

Lemma sent_map t : map fst (written t) = sent t.
Proof. induction t as [|[[d|p|] x] t IH]; cbn; congruence. Qed.

(** ** Opening *)
Lemma open_fresh own allow warn d o d' :
  open_writeonly own true allow warn d o = (d', None) -> d' = {| p_slice := Some []; p_hash := Some [] |}.
Proof.
  unfold open_writeonly, entrepot_open, open_write. cbn [andb negb].
  destruct d as [[s|] [h|]], o as [[] [] [] [] [] []]; cbn;
    repeat match goal with
    | |- context [if ?b then _ else _] => destruct b; cbn
    | |- context [match ?x with Oexist => _ | Oabsent => _ | Oaccess => _ | Orange => _ | Obug => _ | Oabort => _ end] => destruct x; cbn
    end; intro H; inversion H; reflexivity.
Qed.

Lemma open_keep_slice own hash allow warn c h o d' r :
  own c = false -> allow = false \/ (warn = true /\ o_answer o = false) ->
  open_writeonly own hash allow warn {| p_slice := Some c; p_hash := h |} o = (d', r) ->
  d' = {| p_slice := Some c; p_hash := h |} /\ r <> None.
Proof.
  intros Ho Hp. unfold open_writeonly, entrepot_open, open_write. cbn [p_slice p_hash andb negb]. rewrite andb_false_r.
  destruct Hp as [->|[-> Ha]].
  - destruct (o_new o) as [[]|]; cbn; try rewrite Ho; destruct (o_read o) as [[]|]; cbn; intro H; inversion H; split; auto; discriminate.
  - rewrite Ha. destruct (o_new o) as [[]|]; cbn; try rewrite Ho; destruct (o_read o) as [[]|]; cbn; destruct allow; intro H; inversion H; split; auto; discriminate.
Qed.

Lemma open_keep_hash own hash allow warn s h o d' r :
  allow = false \/ (warn = true /\ o_answer o = false) ->
  open_writeonly own hash allow warn {| p_slice := s; p_hash := Some h |} o = (d', r) ->
  p_hash d' = Some h.
Proof.
  intros Hp. unfold open_writeonly, entrepot_open, open_write. cbn [p_slice p_hash andb negb].
  destruct s as [s|], o as [[] [] [] [] [] []], hash; cbn in Hp |- *;
    destruct Hp as [->|[-> Ha]]; cbn; try discriminate Ha;
    repeat match goal with
    | |- context [if ?b then _ else _] => destruct b; cbn
    | |- context [match ?x with Oexist => _ | Oabsent => _ | Oaccess => _ | Orange => _ | Obug => _ | Oabort => _ end] => destruct x; cbn
    end; intro H; inversion H; reflexivity.
Qed.

Lemma open_keep_own own hash allow warn c h o d' r :
  own c = true -> o_read o = None ->
  open_writeonly own hash allow warn {| p_slice := Some c; p_hash := h |} o = (d', r) ->
  p_slice d' = Some c.
Proof.
  intros Ho Hr. unfold open_writeonly, entrepot_open, open_write. cbn [p_slice p_hash andb negb]. rewrite Hr, andb_false_r.
  destruct (o_new o) as [[]|]; cbn; try rewrite Ho; destruct hash; cbn; destruct (o_over o) as [[]|]; cbn; intro H; inversion H; reflexivity.
Qed.
