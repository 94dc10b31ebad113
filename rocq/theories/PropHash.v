(** * C52: a slice on disk and its hash file *)
From Coq Require Import List.
From Verif Require Import Base HashModel HashSpec HashProof HashProof2.
Local Open Scope nat_scope.

(** Whatever the system and the user answer (short writes, interrupted calls, full disk,
    errors, cancellation), the file holds exactly the requests answered as done, in order,
    plus a prefix of each one that failed, until the user refuses to go on. *)
Theorem C52_contents : forall digest step nm ops e e' h' t,
  run digest step e (new_hash fresh fresh nm) ops = (e', h', t) ->
  stored false (written t) (content (slice h')).
Proof.
  intros digest step nm ops e e' h' t H.
  destruct (run_stored digest step _ _ _ _ _ _ (wf_new nm) eq_refl eq_refl eq_refl H) as (c & C1 & C2).
  cbn in C1, C2. subst. exact C2.
Qed.

(** When every write request was answered as done and none was refused, nothing is missing. *)
Theorem C52_all_written : forall digest step nm ops e e' h' t,
  run digest step e (new_hash fresh fresh nm) ops = (e', h', t) ->
  (forall d x, In (Write d, Some x) t -> False) ->
  content (slice h') = all_bytes (sent t).
Proof.
  intros digest step nm ops e e' h' t H A.
  apply C52_contents in H. apply stored_all in H.
  - rewrite H, sent_map. reflexivity.
  - intros d o X. clear H. induction t as [|[[q|p|] x] t IH]; cbn [written] in X.
    + destruct X.
    + destruct X as [X|X].
      * inversion X; subst. destruct x as [x|]; [|reflexivity]. exfalso. eapply A. left. reflexivity.
      * apply IH; auto. intros d' x' Y. eapply A. right. exact Y.
    + apply IH; auto. intros d' x' Y. eapply A. right. exact Y.
    + apply IH; auto. intros d' x' Y. eapply A. right. exact Y.
Qed.

(** Once the user has refused to make room, the file does not change any more. *)
Theorem C52_refused_is_final : forall digest step nm ops d e e' h' t x,
  run digest step e (new_hash fresh fresh nm) (ops ++ [Write d]) = (e', h', t ++ [(Write d, Some x)]) ->
  x = Wabort ->
  forall ops2 e2 h2 t2, run digest step e' h' ops2 = (e2, h2, t2) -> content (slice h2) = content (slice h').
Proof.
  intros digest step nm ops d e e' h' t x H -> ops2 e2 h2 t2 H2.
  assert (Q : forall ops e h e' h' t t0, wf h ->
     hclosed h = true \/ (closed (hfile h) = false /\ full (hfile h) = false) ->
     run digest step e h ops = (e', h', t) -> t = t0 ++ [(Write d, Some Wabort)] ->
     wf h' /\ (hclosed h' = true \/ (closed (hfile h') = false /\ full (hfile h') = false)) /\ full (slice h') = true).
  { clear. induction ops as [|o ops IH]; intros e h e' h' t t0 W K H T.
    - inversion H; subst. destruct t0; discriminate.
    - cbn [run] in H. destruct (step_op digest step e h o) as [[e1 h1] x1] eqn:E.
      destruct (run digest step e1 h1 ops) as [[e3 h3] t3] eqn:R. injection H as <- <- HT. rewrite <- HT in T. clear HT t.
      assert (W1 : wf h1 /\ (hclosed h1 = true \/ (closed (hfile h1) = false /\ full (hfile h1) = false)) /\
                   (forall dd, o = Write dd -> x1 = Some Wabort -> full (slice h1) = true)).
      { destruct o as [dd|pos|]; cbn [step_op] in E.
        - apply hash_write_post in E; [|exact W]. destruct E as (A & B & C & D & _ & E).
          split; [exact A|]. split; [rewrite B, D; exact K|]. intros dd' _ Hx. subst x1.
          destruct E as [(_ & X & _)|[(_ & _ & X & _)|(_ & _ & _ & X)]]; try discriminate.
          destruct X as (_ & _ & X & _). exact X.
        - inversion E; subst. split; [exact W|]. split; [exact K|]. discriminate.
        - destruct (hclosed h) eqn:HC.
          + unfold hash_terminate in E. rewrite HC in E. inversion E; subst.
            split; [exact W|]. split; [left; exact HC|]. discriminate.
          + destruct K as [K|[K1 K2]]; [discriminate|].
            apply term_post in E; [|exact W|congruence|left; exact K2].
            destruct E as (A & _ & _ & _ & _ & B & _). split; [exact A|]. split; [left; exact B|]. discriminate. }
      destruct W1 as (W1 & K1 & F1). destruct t0 as [|y t0].
      + inversion T; subst. destruct ops as [|o2 ops2].
        * inversion R; subst. split; [exact W1|]. split; [exact K1|]. eapply F1; reflexivity.
        * exfalso. cbn [run] in R. destruct (step_op digest step e1 h1 o2) as [[e4 h4] x4].
          destruct (run digest step e4 h4 ops2) as [[e5 h5] t5]. inversion R.
      + inversion T; subst. eapply IH; [exact W1|exact K1|exact R|reflexivity]. }
  destruct (Q _ _ _ _ _ _ t (wf_new nm) (or_intror (conj eq_refl eq_refl)) H eq_refl) as (A & B & C).
  eapply run_full; eassumption.
Qed.

(** The hash file.  When no write failed but by the user's refusal, then once the object is
    gone: a refusal leaves the hash file empty; otherwise the hash file holds the line
    "digest  name" of what the slice holds, or the beginning of it if writing it failed;
    and the whole of it if the slice was closed explicitly without error. *)
Theorem C52_hash_right : forall digest step nm ops e e' h' t,
  (forall l, bytes_ok (digest l)) ->
  run digest step e (new_hash fresh fresh nm) ops = (e', h', t) ->
  clean t ->
  let hd := snd (hash_destroy digest step e' h') in
  (aborted t -> content (hfile hd) = []) /\
  (~ aborted t ->
     content (slice hd) = all_bytes (sent t) /\
     exists ln, check_line ln (digest (content (slice hd))) nm /\
       prefix (content (hfile hd)) ln /\
       (In (Term, None) t -> (forall x, ~ In (Term, Some x) t) -> content (hfile hd) = ln)).
Proof.
  intros digest step nm ops e e' h' t HB H CL hd.
  destruct (run_inv digest step _ _ _ _ _ _ [] (wf_new nm) (conj eq_refl (conj eq_refl (fun _ => conj eq_refl eq_refl))) H CL)
    as (W & Hn & HA & I).
  cbn [app] in I. cbn [aborting new_hash name] in HA, Hn.
  destruct I as [[I NT]|(tok & I & NT)].
  - destruct (destroy_inv digest step e' h' _ W I) as ((_ & J1 & J2) & J3 & J4). fold hd in J1, J2, J3, J4.
    split.
    + intro Ha. apply J1. rewrite J3. apply HA. right. exact Ha.
    + intro Ha. destruct (aborting h') eqn:AB; [exfalso; apply Ha; destruct HA as [HA _]; destruct (HA eq_refl) as [X|X]; [discriminate|exact X]|].
      destruct (J2 J3) as (J5 & (p & J6 & J7) & J8). split; [exact J5|].
      exists (line (digest (content (slice hd))) nm). split; [apply line_ok, HB|]. rewrite J5.
      split; [rewrite J7, <- Hn, <- J4; exact J6|]. intros X. exfalso. eapply NT, X.
  - destruct I as (J0 & J1 & J2). unfold hd. rewrite destroy_closed by exact J0. clear hd.
    split.
    + intro Ha. apply J1. apply HA. right. exact Ha.
    + intro Ha. destruct (aborting h') eqn:AB; [exfalso; apply Ha; destruct HA as [HA _]; destruct (HA eq_refl) as [X|X]; [discriminate|exact X]|].
      destruct (J2 eq_refl) as (J5 & (p & J6 & J7) & J8). split; [exact J5|].
      exists (line (digest (content (slice h'))) nm). split; [apply line_ok, HB|]. rewrite J5.
      split; [rewrite J7, <- Hn; exact J6|]. intros _ X. rewrite (J8 (NT X)), Hn. reflexivity.
Qed.

(** So that md5sum -c (or its kin) accepts the slice: every request was answered as done and
    the slice was closed without error, the name of the slice has no newline. *)
Theorem C52_check_accepts : forall digest step nm ops e e' h' t files,
  (forall l, bytes_ok (digest l)) ->
  run digest step e (new_hash fresh fresh nm) ops = (e', h', t) ->
  (forall o x, ~ In (o, Some x) t) -> In (Term, None) t ->
  ~ In 10%N nm -> files nm = Some (content (slice (snd (hash_destroy digest step e' h')))) ->
  content (slice (snd (hash_destroy digest step e' h'))) = all_bytes (sent t) /\
  check_ok digest files (content (hfile (snd (hash_destroy digest step e' h')))).
Proof.
  intros digest step nm ops e e' h' t files HB H A T NL FI.
  assert (CL : clean t) by (intros d x X; exfalso; eapply A, X).
  destruct (C52_hash_right digest step nm ops e e' h' t HB H CL) as [_ R].
  destruct R as (R1 & ln & R2 & _ & R3); [intros [d X]; eapply A, X|].
  split; [exact R1|].
  rewrite (R3 T (fun x => A Term x)).
  eexists _, nm, _. split; [exact R2|]. split; [exact NL|]. split; [exact FI|reflexivity].
Qed.

(** The hash file does not vouch for a slice whose writing failed...: not so.  After an I/O
    error, or a thread cancelled while writing, the hash file is still produced, from the
    bytes that were meant to be written rather than from the slice. *)
Theorem C52_hash_after_error_refuted :
  forall digest nm, (forall l, bytes_ok (digest l)) -> digest [7%N] <> digest [] ->
  forall e, e = {| calls := [Eio]; answers := []; cancels := [] |} \/ e = {| calls := []; answers := []; cancels := [true] |} ->
  exists e' h' x, run digest 10 e (new_hash fresh fresh nm) [Write [7%N]] = (e', h', [(Write [7%N], Some x)]) /\
    let hd := snd (hash_destroy digest 10 e' h') in
    content (slice hd) = [] /\ check_line (content (hfile hd)) (digest [7%N]) nm /\ digest [7%N] <> digest (content (slice hd)).
Proof.
  intros digest nm HB ND e [-> | ->];
  (do 3 eexists; split; [cbn; reflexivity|]; cbv zeta;
  match goal with |- context [hash_destroy digest 10 ?e1 ?h1] => set (hh := h1); set (ee := e1) end;
  unfold hash_destroy; destruct (hash_terminate digest 10 ee hh) as [[e2 h2] y] eqn:E; cbn [snd];
  pose proof E as E0; apply term_post in E; [|repeat split|reflexivity|left; reflexivity];
  destruct E as (_ & Ec & En & _ & _ & _ & E); rewrite Ec; cbn [content slice hh];
  split; [reflexivity|]; split; [|exact ND];
  destruct E as [[X _]|[_ [[X _]|(_ & E1 & _)]]]; [discriminate|discriminate|];
  assert (y = None);
  [ unfold hash_terminate, write_hash_in_hexa in E0; cbn [hclosed hh dumped set_slice set_dumped set_digested new_hash aborting hfile digested name] in E0;
    match type of E0 with context [writes 10 _ fresh ?l] => destruct (writes_quiet 10 l fresh eq_refl eq_refl) as [f' Q] end;
    unfold ee in E0; rewrite Q in E0; inversion E0; reflexivity
  | rewrite (E1 H); apply line_ok, HB ]).
Qed.

(** A write answered as done has been written: not so, after the user has refused to go on. *)
Theorem C52_dropped_silently_refuted : forall digest nm,
  exists e e' h', run digest 10 e (new_hash fresh fresh nm) [Write [1%N]; Write [2%N]]
    = (e', h', [(Write [1%N], Some Wabort); (Write [2%N], None)]) /\ content (slice h') = [].
Proof.
  intros digest nm. exists {| calls := [Enospc]; answers := [false]; cancels := [] |}.
  do 2 eexists. split; [cbn; reflexivity|reflexivity].
Qed.

(** ** Opening a slice for writing *)

(** With a hash, a slice that could be opened starts empty, and so does its hash file. *)
Theorem C52_open_fresh : forall own allow warn d o d',
  open_writeonly own true allow warn d o = (d', None) -> p_slice d' = Some [] /\ p_hash d' = Some [].
Proof. intros. apply open_fresh in H. subst. split; reflexivity. Qed.

(** A file already there that is not a slice of the archive under construction, and a hash
    file already there, are left as they are, unless overwriting is allowed and, if a
    warning was asked for, the user agreed. *)
Theorem C52_no_overwrite : forall own hash allow warn d o d' r,
  allow = false \/ (warn = true /\ o_answer o = false) ->
  open_writeonly own hash allow warn d o = (d', r) ->
  (forall c, p_slice d = Some c -> own c = false -> d' = d /\ r <> None) /\
  (forall c, p_hash d = Some c -> p_hash d' = Some c).
Proof.
  intros own hash allow warn d o d' r Hp H. destruct d as [s h]. cbn [p_slice p_hash]. split.
  - intros c -> Ho. eapply open_keep_slice; eassumption.
  - intros c ->. eapply open_keep_hash; eassumption.
Qed.

(** Without a hash, a slice that could be opened starts empty, unless it is one of the
    archive under construction, which keeps its contents; no other file is touched. *)
Theorem C52_open_plain : forall own allow warn d o d',
  open_writeonly own false allow warn d o = (d', None) ->
  (p_slice d' = Some [] \/ exists c, p_slice d = Some c /\ own c = true /\ p_slice d' = Some c) /\ p_hash d' = p_hash d.
Proof.
  intros own allow warn d o d'. unfold open_writeonly, entrepot_open, open_write. cbn [andb negb].
  destruct d as [[s|] h], o as [[] n2 [] [] n5 []]; cbn;
    repeat match goal with
    | |- context [if own ?b then _ else _] => destruct (own b) eqn:?; cbn
    | |- context [if ?b then _ else _] => destruct b; cbn
    | |- context [match ?x with Oexist => _ | Oabsent => _ | Oaccess => _ | Orange => _ | Obug => _ | Oabort => _ end] => destruct x; cbn
    end; intro H; inversion H; subst; cbn; split; auto; right; eexists; eauto.
Qed.

(** And overwriting works when it is allowed: the system refusing nothing, the slice and its
    hash file if any end up empty. *)
Theorem C52_overwrite_works : forall own hash warn d o,
  o_new o = None -> o_newh o = None -> o_read o = None -> o_over o = None -> o_overh o = None ->
  warn = false \/ o_answer o = true -> (forall c, p_slice d = Some c -> own c = false) -> own [] = false ->
  exists d', open_writeonly own hash true warn d o = (d', None) /\ p_slice d' = Some [] /\ (hash = true -> p_hash d' = Some []).
Proof.
  intros own hash warn [s h] o H1 H2 H3 H4 H5 Hw Ho He. cbn [p_slice] in Ho.
  assert (W : warn && negb (o_answer o) = false) by (destruct Hw as [-> | ->]; [reflexivity|apply andb_false_r]).
  unfold open_writeonly, entrepot_open, open_write. rewrite H1, H2, H3, H4, H5, W. cbn [p_slice p_hash].
  destruct s as [c|].
  - destruct hash, h; cbn; rewrite ?(Ho c eq_refl); eexists; repeat split; discriminate.
  - destruct hash, h; cbn; rewrite ?He; eexists; repeat split; discriminate.
Qed.

(** A slice of the archive under construction is reopened with its contents. *)
Theorem C52_own_slice_kept : forall own hash allow warn d o d' r c,
  p_slice d = Some c -> own c = true -> o_read o = None ->
  open_writeonly own hash allow warn d o = (d', r) -> p_slice d' = Some c.
Proof. intros own hash allow warn [s h] o d' r c Hs Ho Hr H. cbn in Hs. subst s. eapply open_keep_own; eassumption. Qed.

(** Being refused leaves the disk as it was: not so, when only the hash file is there an
    empty slice is left behind. *)
Theorem C52_refused_open_refuted : forall own, own [] = false ->
  exists d o d', open_writeonly own true false true d o = (d', Some Orange) /\
    p_slice d = None /\ p_slice d' = Some [].
Proof.
  intros own Ho. exists {| p_slice := None; p_hash := Some [1%N] |}, {| o_new := None; o_newh := None; o_read := None; o_over := None; o_overh := None; o_answer := true |}.
  eexists. split; [cbn; rewrite Ho; reflexivity|split; reflexivity].
Qed.

(** An ordinary failure to create a file is reported as such: not so, it is reported as a
    bug in the program when the system gives another reason than the four libdar knows. *)
Theorem C52_creation_error_refuted : forall own hash allow warn o,
  o_new o = Some Orange -> o_read o = None ->
  open_writeonly own hash allow warn {| p_slice := None; p_hash := None |} o = ({| p_slice := None; p_hash := None |}, Some Obug).
Proof.
  intros own hash allow warn o H1 H2. unfold open_writeonly, entrepot_open, open_write. rewrite H1, H2.
  cbn [andb negb]. rewrite andb_false_r. reflexivity.
Qed.

(** ** Instances *)

(** A toy digest: the number of bytes and the last one. *)
Definition toy (l : list byte) : list byte := [(N.of_nat (length l) mod 256)%N; (last l 0 mod 256)%N].

Lemma toy_ok l : bytes_ok (toy l).
Proof. repeat constructor; unfold is_byte; apply N.mod_lt; lia. Qed.

(** Short writes, an interruption, a full disk where the user makes room: nothing is lost
    and the hash file is the expected line "0205  s1". *)
Example C52_instance :
  let e := {| calls := [Wrote 1; Eintr; Enospc; Wrote 0; Wrote 5]; answers := [true]; cancels := [false] |} in
  let '(e', h', t) := run toy 3 e (new_hash fresh fresh [115; 49]%N) [Write [1; 2; 3; 4]%N; Skip 4; Write []; Write [5]%N; Term] in
  map snd t = [None; None; None; None; None] /\
  content (slice h') = [1; 2; 3; 4; 5]%N /\
  content (hfile h') = [48; 53; 48; 53; 32; 32; 115; 49; 10]%N.
Proof. vm_compute. repeat split. Qed.

Example C52_instance_refused :
  let e := {| calls := [Wrote 1; Enospc]; answers := [false]; cancels := [] |} in
  let '(e', h', t) := run toy 3 e (new_hash fresh fresh [115]%N) [Write [1; 2]%N; Write [3]%N; Term] in
  map snd t = [Some Wabort; None; None] /\ content (slice h') = [1]%N /\ content (hfile h') = [].
Proof. vm_compute. repeat split. Qed.

Example C52_instance_open :
  let o := {| o_new := None; o_newh := None; o_read := None; o_over := None; o_overh := None; o_answer := true |} in
  open_writeonly (fun _ => false) true true true {| p_slice := Some [9]%N; p_hash := Some [8]%N |} o
    = ({| p_slice := Some []; p_hash := Some [] |}, None) /\
  open_writeonly (fun _ => true) false false true {| p_slice := Some [9]%N; p_hash := None |} o
    = ({| p_slice := Some [9]%N; p_hash := None |}, None).
Proof. split; reflexivity. Qed.

Print Assumptions C52_contents.
Print Assumptions C52_all_written.
Print Assumptions C52_refused_is_final.
Print Assumptions C52_hash_right.
Print Assumptions C52_check_accepts.
Print Assumptions C52_hash_after_error_refuted.
Print Assumptions C52_no_overwrite.
Print Assumptions C52_own_slice_kept.
Print Assumptions C52_open_plain.
Print Assumptions C52_overwrite_works.
