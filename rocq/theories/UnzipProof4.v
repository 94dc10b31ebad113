(** * What the parallel decompression gives to the client, whatever the schedule. *)
From Coq Require Import List Bool PeanoNat Wf_nat.
From Verif Require Import Base FileModel PipeModel PipeProof PipeProof2 BlockModel UnzipModel UnzipSpec UnzipProof UnzipProof2.
Import ListNotations.
Open Scope nat_scope.

Section Proof.
Variables (W : nat) (Z : zipper) (B : nat) (file : list N).
Hypothesis W_pos : 0 < W.
Notation step := (step W Z B file).
Notation steps := (steps W Z B file).
Notation inv := (inv W).
Notation next := (next Z B file).
Notation gives := (gives Z B).
Notation begins := (begins Z B file).
Notation holds := (holds Z B file).
Notation answers := (answers Z B file).
Ltac fld := cbn [ops mode outs reof running pos rtype stop rm kind hold heap pipe ws wexn lus] in *.

(** ** blocks met in the file *)
Inductive path : option N -> nat -> list (list N) -> option N -> nat -> Prop :=
| pt_nil : forall t p, path t p [] t p
| pt_cons : forall t p c q cs t' p', next t p = Edata c q -> path (Some H_DATA) q cs t' p' -> path t p (c :: cs) t' p'.
Definition ungives (c : list N) : Prop := forall y, ~ gives c y.
Definition wrong (p0 : nat) : Prop := forall D, ~ holds None p0 D.
Definition fails (t : option N) (p : nat) : Prop := (exists q, next t p = Ebad q) \/ (exists q, next t p = Eshort q).
Lemma path_snoc : forall t p cs t' p' c q, path t p cs t' p' -> next t' p' = Edata c q -> path t p (cs ++ [c]) (Some H_DATA) q.
Proof. intros t p cs t' p' c q H E. induction H as [t p|t p d q' cs t' p' Hn H IH]; cbn [app]; [eapply pt_cons; [exact E|apply pt_nil]|eapply pt_cons; [exact Hn|apply IH, E]]. Qed.
Lemma path_begins : forall cs ys rest t p t' p', path t p (cs ++ rest) t' p' -> Forall2 gives cs ys -> begins t p (concat ys).
Proof.
  intros cs ys rest t p t' p' H F. revert t p H. induction F as [|c y cs ys G F IH]; intros t p H; [apply bg_nil|]. cbn [app] in H. inversion H; subst. cbn [concat]. eapply bg_blk; eauto.
Qed.
Lemma path_holds : forall cs ys t p t' p' q, path t p cs t' p' -> Forall2 gives cs ys -> next t' p' = Eend q -> holds t p (concat ys).
Proof.
  intros cs ys t p t' p' q H F E. revert t p H. induction F as [|c y cs ys G F IH]; intros t p H; inversion H; subst; [eapply hd_end; eauto|]. cbn [concat]. eapply hd_blk; eauto.
Qed.
Lemma path_ungives : forall cs t p t' p' c, path t p cs t' p' -> In c cs -> ungives c -> forall D, ~ holds t p D.
Proof.
  intros cs t p t' p' c H. induction H as [t p|t p d q cs t' p' Hn H IH]; intros K U D Hd; [destruct K|]. inversion Hd; subst; [congruence|].
  match goal with A : next t p = Edata ?c0 ?q0 |- _ => rewrite Hn in A; injection A as <- <- end. destruct K as [<-|K]; [eapply U; eauto|eapply IH; eauto].
Qed.
Lemma path_fails : forall cs t p t' p', path t p cs t' p' -> fails t' p' -> forall D, ~ holds t p D.
Proof.
  intros cs t p t' p' H. induction H as [t p|t p d q cs t' p' Hn H IH]; intros K D Hd.
  - destruct K as [[q K]|[q K]]; inversion Hd; subst; congruence.
  - inversion Hd; subst; [congruence|]. match goal with A : next t p = Edata ?c0 ?q0 |- _ => rewrite Hn in A; injection A as <- <- end. eapply IH; eauto.
Qed.
Lemma holds_begins : forall t p D, holds t p D -> begins t p D.
Proof. intros t p D H. induction H; [apply bg_nil|eapply bg_blk; eauto]. Qed.

(** ** answers given so far *)
Inductive fine (p : nat) : list rop -> list rout -> nat -> list N -> Prop :=
| fn_nil : fine p [] [] p []
| fn_read : forall a u q G n d, fine p a u q G -> (exists more, begins None q (G ++ d ++ more)) -> length d <= n -> (length d < n -> holds None q (G ++ d)) -> fine p (a ++ [Read n]) (u ++ [OData d]) q (G ++ d)
| fn_skip : forall a u q G r, fine p a u q G -> fine p (a ++ [Skip r]) (u ++ [ODone]) r [].
Lemma fine_answers : forall p a u q G, fine p a u q G -> forall l v, answers q G l v -> answers p [] (a ++ l) (u ++ v).
Proof.
  intros p a u q G H. induction H; intros l v A; [exact A|rewrite <- !app_assoc; apply IHfine; apply an_read; assumption|]. rewrite <- !app_assoc. apply IHfine. apply an_skip. exact A.
Qed.

(** ** the state while threads run *)
Definition cont (l : list item) : list (list N) := flat_map (fun x => match x with Blk _ c => [c] | Die => [] end) l.
Lemma cont_app : forall a b, cont (a ++ b) = cont a ++ cont b.
Proof. intros. apply flat_map_app. Qed.
Definition fok (part : list N) (z : item * flag) : Prop :=
  match z with (Blk _ c, FOk d) => gives c (part ++ d) | (Blk _ c, FErr) => part = [] /\ ungives c | _ => part = [] end.
Definition lines (part : list N) (l : list (item * flag)) : Prop := match l with [] => part = [] | z :: r => fok part z /\ Forall (fok []) r end.
Definition good_read (G got : list N) (cs : list (list N)) (s : rst) : Prop :=
  stop s = false /\ reof s = false /\ announced (map dn (lus s) ++ pipe s) (ws s) /\ (forall v f, In (Done v f) (pipe s) -> fok [] (v, f)) /\
  exists ys part, Forall2 gives cs ys /\ G ++ got = concat ys ++ part /\ lines part (lus s).
Definition aim (p0 : nat) (G : list N) (c : cause) (s : rst) : Prop :=
  match c with Cerr => wrong p0 | Ceof got => holds None p0 (G ++ got) /\ reof s = true | Cskip _ | Ctell => True end.
Record runs (p0 : nat) (G : list N) (cs : list (list N)) (t1 : option N) (p1 : nat) (s : rst) : Prop := {
  d_path : path None p0 (cs ++ cont (items (hold s) (pipe s) (lus s))) t1 p1;
  d_reader : match rm s with
             | Roff => False
             | Rrun => t1 = rtype s /\ p1 = pos s
             | Rpush _ b | Rover b => (b = true -> kind s = true) /\ (if kind s then fails t1 p1 else stop s = true \/ exists q, next t1 p1 = Eend q)
             end;
  d_wexn : wexn s = true -> exists c, In c (cs ++ cont (items (hold s) (pipe s) (lus s))) /\ ungives c;
  d_fine : wexn s = false -> Forall (fun z => z = Fine \/ z = Over false) (ws s);
  d_inform : Forall (fun z => z <> Inform) (ws s);
  d_mode : match mode s with Mnext => good_read G [] cs s | Mread _ got => good_read G got cs s | Mpurge _ _ c | Mjoin c => aim p0 G c s end }.
Definition rests (p0 : nat) (G : list N) (s : rst) : Prop :=
  Forall (fun z => z = Over false) (ws s) /\ wexn s = false /\ if reof s then holds None p0 G else G = [] /\ pos s = p0.
Definition dinv (p0 : nat) (G : list N) (s : rst) : Prop := if running s then exists cs t1 p1, runs p0 G cs t1 p1 s else rests p0 G s.
Definition curop (m : mmode) (a : list rop) : Prop :=
  match m with
  | Mnext => a = []
  | Mread n got => a = [Read n] /\ length got <= n
  | Mpurge _ _ c | Mjoin c => match c with Cskip q => a = [Skip q] | Ctell => a = [Tell] | Ceof got => exists n, a = [Read n] /\ length got < n | Cerr => exists n, a = [Read n] end
  end.
Definition ok (p : nat) (L : list rop) (s : rst) : Prop :=
  (exists a p0 G b, L = a ++ b ++ ops s /\ curop (mode s) b /\ fine p a (outs s) p0 G /\ inv s /\ xinv s /\ dinv p0 G s)
  \/ forall more, answers p [] L (outs s ++ more).
Lemma ok_answers : forall p L s, ok p L s -> answers p [] L (outs s).
Proof.
  intros p L s [(a & p0 & G & b & -> & _ & F & _)|H]; [|specialize (H []); rewrite app_nil_r in H; exact H].
  rewrite <- (app_nil_r (outs s)). eapply fine_answers; [exact F|]. apply an_none.
Qed.
Lemma outs_grow : forall s t, step s t -> exists more, outs t = outs s ++ more.
Proof. intros s t H. destruct H; fld; try (exists []; rewrite app_nil_r; reflexivity); eexists; reflexivity. Qed.
Lemma ok_start : forall p l, ok p l (start W p l).
Proof.
  intros p l. left. exists [], p, [], []. split; [reflexivity|]. split; [reflexivity|]. split; [apply fn_nil|]. split; [apply inv_start|]. split; [apply xinv_start|].
  unfold dinv, start, rests. fld. repeat split; auto. apply Forall_forall. intros z H. apply repeat_spec in H. exact H.
Qed.
End Proof.
