(** * Readers that depend only on what they consume *)
From Verif Require Import Base InfinintModel CrcModel DatetimeModel HeaderModel.
Open Scope N_scope.

Lemma bind_ok_inv : forall A B (m : res A) (k : A -> res B) y, bind m k = Ok y -> exists x, m = Ok x /\ k x = Ok y.
Proof. intros A B [x|e] k y H; [eauto|discriminate]. Qed.
(** when the reader succeeds it has consumed a prefix, and gives the same result whatever follows this prefix *)
Definition framed {A} (R : list N -> res (A * list N)) : Prop :=
  forall f x r, R f = Ok (x, r) -> exists p, f = p ++ r /\ forall q, R (p ++ q) = Ok (x, q).

Lemma framed_ret : forall A (x : A), framed (fun f => Ok (x, f)).
Proof. intros A x f y r H. injection H as <- <-. exists []. auto. Qed.
Lemma framed_err : forall A e, framed (fun f => @Err (A * list N) e).
Proof. intros A e f y r H. discriminate. Qed.
Lemma framed_bind : forall A B (R1 : list N -> res (A * list N)) (R2 : A -> list N -> res (B * list N)),
  framed R1 -> (forall x, framed (R2 x)) -> framed (fun f => let* '(x, f) := R1 f in R2 x f).
Proof.
  intros A B R1 R2 H1 H2 f y r H. destruct (R1 f) as [[x f1]|] eqn:E; [|discriminate]. cbn [bind] in H.
  destruct (H1 _ _ _ E) as (p & -> & Hp). destruct (H2 x _ _ _ H) as (p2 & -> & Hp2).
  exists (p ++ p2). rewrite app_assoc. split; [reflexivity|]. intro q. rewrite <- app_assoc, Hp. cbn [bind]. apply Hp2.
Qed.
Lemma framed_pure : forall A B (m : res A) (R2 : A -> list N -> res (B * list N)),
  (forall x, framed (R2 x)) -> framed (fun f => let* x := m in R2 x f).
Proof. intros A B [x|e] R2 H; cbn [bind]; [apply H|apply framed_err]. Qed.
Lemma framed_byte : forall e, framed (fun f => match read1 f with Some x => Ok x | None => Err e end).
Proof.
  intros e f x r H. destruct f as [|b f]; cbn [read1] in H; [discriminate|]. injection H as <- <-. exists [b]. split; reflexivity.
Qed.
Lemma framed_ext : forall A (R R' : list N -> res (A * list N)), (forall f, R f = R' f) -> framed R -> framed R'.
Proof. intros A R R' E H f x r Hf. rewrite <- E in Hf. destruct (H _ _ _ Hf) as (p & -> & Hp). exists p. split; [reflexivity|]. intro q. rewrite <- E. apply Hp. Qed.

Lemma framed_readN : framed readN.
Proof.
  assert (G : forall f skip a r, inf_read_from f skip = Ok (a, r) -> exists p, f = p ++ r /\ forall q, inf_read_from (p ++ q) skip = Ok (a, q)).
  { induction f as [|b f IH]; intros skip a r H; cbn [inf_read_from] in H; [discriminate|].
    destruct (N.eqb_spec b 0) as [->|Hb].
    - destruct (IH _ _ _ H) as (p & -> & Hp). exists (0 :: p). split; [reflexivity|]. intro q. cbn [app inf_read_from N.eqb]. apply Hp.
    - cbn zeta in H. destruct (negb (fold_left N.add (expand_byte b) 0 =? 1)) eqn:E; [discriminate|].
      set (len := (skip * 8 + (first_one (expand_byte b) + 1)) * TG) in *.
      destruct (N.ltb_spec (N.of_nat (length (firstn (N.to_nat len) f))) len) as [|L]; [discriminate|]. injection H as <- <-.
      rewrite firstn_length in L. exists (b :: firstn (N.to_nat len) f). split; [cbn [app]; rewrite firstn_skipn; reflexivity|].
      intro q. cbn [app inf_read_from]. destruct (N.eqb_spec b 0); [contradiction|]. cbn zeta. rewrite E. fold len.
      rewrite firstn_app_exact_n, skipn_app_exact_n by (rewrite firstn_length; lia).
      destruct (N.ltb_spec (N.of_nat (length (firstn (N.to_nat len) f))) len) as [L2|]; [rewrite firstn_length in L2; lia|]. reflexivity. }
  intros f x r H. unfold readN in H. destruct (inf_read f) as [[a r']|] eqn:E; [|discriminate]. cbn [bind] in H. injection H as <- <-.
  destruct (G _ _ _ _ E) as (p & -> & Hp). exists p. split; [reflexivity|]. intro q. unfold readN, inf_read. rewrite Hp. reflexivity.
Qed.
Lemma framed_crc_read : framed (fun f => crc_read f false).
Proof.
  unfold crc_read. apply framed_bind; [apply framed_readN|]. intros t f x r H. cbn zeta in H.
  destruct (N.ltb_spec (N.of_nat (length f)) t) as [|L]; [destruct (t <? INFININT_MODE_START); discriminate|]. injection H as <- <-.
  exists (firstn (N.to_nat t) f). split; [rewrite firstn_skipn; reflexivity|]. intro q. cbn zeta. rewrite app_length, firstn_length.
  destruct (N.ltb_spec (N.of_nat (Nat.min (N.to_nat t) (length f) + length q)) t); [lia|].
  rewrite firstn_app_exact_n, skipn_app_exact_n by (rewrite firstn_length; lia). reflexivity.
Qed.
Lemma framed_read_string : framed read_string.
Proof.
  intro f. induction f as [|a f IH]; intros x r H; cbn [read_string] in H; [discriminate|].
  destruct (N.eqb_spec a 0) as [->|Ha].
  - injection H as <- <-. exists [0]. split; reflexivity.
  - destruct (read_string f) as [[s f1]|] eqn:E; [|discriminate]. cbn [bind] in H. injection H as <- <-.
    destruct (IH _ _ eq_refl) as (p & -> & Hp). exists (a :: p). split; [reflexivity|]. intro q. cbn [app read_string].
    destruct (N.eqb_spec a 0); [contradiction|]. rewrite Hp. reflexivity.
Qed.
Lemma framed_dt_read : forall ver, framed (dt_read ver).
Proof.
  intro ver. unfold dt_read. apply framed_bind.
  - destruct (ver <? 9); [apply framed_ret|]. intros f x r H. destruct f as [|c f]; cbn [read1] in H; [discriminate|].
    destruct (char_unit c) as [u|] eqn:E; [|discriminate]. cbn [bind] in H. injection H as <- <-. exists [c]. split; [reflexivity|].
    intro q. cbn [app read1]. rewrite E. reflexivity.
  - intro u. apply framed_bind; [apply framed_readN|]. intro sec. apply framed_bind; [destruct (unit_lt u tu_s); [apply framed_readN|apply framed_ret]|].
    intro sub. apply framed_pure. intro d. apply framed_ret.
Qed.
Lemma framed_label_read : framed label_read.
Proof.
  intros f x r H. unfold label_read in H. destruct (length f <? LABEL_SIZE)%nat eqn:E; [discriminate|]. injection H as <- <-. apply Nat.ltb_ge in E.
  exists (firstn LABEL_SIZE f). split; [rewrite firstn_skipn; reflexivity|]. intro q. unfold label_read. rewrite app_length, firstn_length.
  destruct (Nat.ltb_spec (Nat.min LABEL_SIZE (length f) + length q) LABEL_SIZE); [lia|].
  rewrite firstn_app_exact_n, skipn_app_exact_n by (rewrite firstn_length; lia). reflexivity.
Qed.

Create HintDb framed.
#[export] Hint Resolve framed_ret framed_err framed_byte framed_readN framed_crc_read framed_read_string framed_dt_read framed_label_read : framed.
Ltac fr := repeat first
  [ solve [auto with framed]
  | apply framed_bind; [|intro]
  | apply framed_pure; intro
  | match goal with |- framed (fun f => match ?x with _ => _ end) => destruct x end ].

(** primitive readers never run out of fuel *)
Definition tame {A} (R : list N -> res (A * list N)) : Prop := forall f, R f <> Err Fuel.
Lemma tame_bind : forall A B (R1 : list N -> res (A * list N)) (R2 : A -> list N -> res (B * list N)),
  tame R1 -> (forall x, tame (R2 x)) -> tame (fun f => let* '(x, f) := R1 f in R2 x f).
Proof. intros A B R1 R2 H1 H2 f. pose proof (H1 f) as N1. destruct (R1 f) as [[x f1]|e]; cbn [bind]; [apply H2|congruence]. Qed.
Lemma tame_pure : forall A B (m : res A) (R2 : A -> list N -> res (B * list N)), m <> Err Fuel -> (forall x, tame (R2 x)) -> tame (fun f => let* x := m in R2 x f).
Proof. intros A B [x|e] R2 N1 H2 f; cbn [bind]; [apply H2|congruence]. Qed.
Lemma tame_ret : forall A (x : A), tame (fun f => Ok (x, f)).
Proof. intros A x f. discriminate. Qed.
Lemma tame_err : forall A e, e <> Fuel -> tame (fun _ => @Err (A * list N) e).
Proof. intros A e H f. congruence. Qed.
Lemma tame_readN : tame readN.
Proof.
  assert (G : forall f s, inf_read_from f s <> Err Fuel).
  { induction f as [|b f IH]; intro s; cbn [inf_read_from]; [discriminate|]. destruct (b =? 0); [apply IH|]. cbn zeta.
    destruct (negb _); [discriminate|]. destruct (_ <? _); discriminate. }
  intro f. unfold readN, inf_read. pose proof (G f 0). destruct (inf_read_from f 0) as [[a r]|]; cbn [bind]; congruence.
Qed.
Lemma tame_crc_read : tame (fun f => crc_read f false).
Proof.
  unfold crc_read. apply tame_bind; [apply tame_readN|]. intros t f. cbn zeta. destruct (_ <? _); [destruct (_ <? _); discriminate|discriminate].
Qed.
Lemma tame_string : tame read_string.
Proof.
  intro f. induction f as [|a f IH]; cbn [read_string]; [discriminate|]. destruct (a =? 0); [discriminate|]. destruct (read_string f) as [[s r]|]; cbn [bind]; congruence.
Qed.
Lemma tame_byte : forall e, e <> Fuel -> tame (fun f => match read1 f with Some x => Ok x | None => Err e end).
Proof. intros e H [|b f]; cbn [read1]; congruence. Qed.
Lemma neuclide_tame : forall a b, NumModel.neuclide a b <> Err Fuel.
Proof. intros a b. unfold NumModel.neuclide. destruct (b =? 0); discriminate. Qed.
Lemma reduce_us_tame : forall v, reduce_us v <> Err Fuel.
Proof.
  intro v. unfold reduce_us. replace (scaling tu_s tu_us) with (Ok (1000 * 1000)) by reflexivity. cbn [bind].
  unfold NumModel.neuclide. destruct (1000 * 1000 =? 0); cbn [bind]; [discriminate|]. destruct (negb _); discriminate.
Qed.
Lemma reduce_unit_tame : forall d, reduce_unit d <> Err Fuel.
Proof.
  intros [v u]. unfold reduce_unit. cbn [uni val]. destruct (v =? 0); [discriminate|]. destruct u; try discriminate; try apply reduce_us_tame.
  replace (scaling tu_us tu_ns) with (Ok 1000) by reflexivity. cbn [bind].
  unfold NumModel.neuclide. destruct (1000 =? 0); cbn [bind]; [discriminate|]. destruct (negb _); [discriminate|]. apply reduce_us_tame.
Qed.
Lemma tame_dt : forall ver, tame (dt_read ver).
Proof.
  intro ver. unfold dt_read. apply tame_bind.
  - destruct (ver <? 9); [apply tame_ret|]. intros [|c f]; cbn [read1]; [discriminate|]. unfold char_unit.
    repeat match goal with |- context [if ?b then _ else _] => destruct b end; cbn [bind]; discriminate.
  - intro u. apply tame_bind; [apply tame_readN|]. intro s. apply tame_bind; [destruct (unit_lt u tu_s); [apply tame_readN|apply tame_ret]|]. intro sub. apply tame_pure; [|intro; apply tame_ret].
    unfold dt_build. destruct u; cbn [unit_eqb rank N.eqb Pos.eqb scaling unit_lt N.ltb N.compare Pos.compare Pos.compare_cont bind]; apply reduce_unit_tame.
Qed.
Create HintDb tame.
#[export] Hint Resolve tame_ret tame_readN tame_crc_read tame_string tame_byte tame_dt : tame.
#[export] Hint Extern 1 (tame (fun _ => Err _)) => (apply tame_err; discriminate) : tame.
#[export] Hint Extern 1 (_ <> Fuel) => discriminate : tame.
#[export] Hint Extern 1 (Err _ <> Err Fuel) => discriminate : tame.
#[export] Hint Extern 1 (Ok _ <> Err Fuel) => discriminate : tame.
Ltac tm := repeat first
  [ solve [auto with tame]
  | apply tame_bind; [|intro]
  | apply tame_pure; [|intro]
  | match goal with |- tame (fun f => match ?x with _ => _ end) => destruct x end
  | match goal with |- (if ?b then _ else _) <> _ => destruct b end ].
