(** * Base: conventions shared by every model file.

    Bytes are values of type [N] below 256.  The C++ exceptions libdar throws
    (src/libdar/erreurs.hpp) become constructors of [exn]; undefined behaviour is
    the distinct outcome [UB]; [Fuel] is the artefact of bounded recursion and is
    excluded by every theorem. *)
From Coq Require Export List Arith NArith ZArith Bool Lia.
From Coq Require Export ZifyBool ZifyNat ZifyN.
Export ListNotations.
Ltac Zify.zify_post_hook ::= Z.div_mod_to_equations.

Definition byte := N.
Definition is_byte (b : N) : Prop := (b < 256)%N.
Definition bytes_ok (l : list N) : Prop := Forall is_byte l.

(** Exceptions of src/libdar/erreurs.hpp, plus [UB] and [Fuel]. *)
Inductive exn : Type :=
| Erange | Elimitint | Einfinint | Edeci | Ememory | Edata | Efeature | Esecu
| Ecompilation | Ebug (* SRC_BUG *) | UB | Fuel
| Euser_abort.

Inductive res (A : Type) : Type :=
| Ok (a : A)
| Err (e : exn).
Arguments Ok {A} a.
Arguments Err {A} e.

Definition bind {A B : Type} (m : res A) (f : A -> res B) : res B :=
  match m with Ok a => f a | Err e => Err e end.
Notation "'let*' x ':=' m 'in' k" := (bind m (fun x => k))
  (at level 200, x name, m at level 100, k at level 200, right associativity).
Notation "'let*' ' p ':=' m 'in' k" := (bind m (fun x => match x with p => k end))
  (at level 200, p strict pattern, m at level 100, k at level 200, right associativity).

(** Sequential reading: a call to generic_file::read(a, n) (generic_file.cpp) returns
    at most [n] of the remaining bytes and fewer only at end of file. *)
Definition take_bytes (n : nat) (f : list N) : list N * list N := (firstn n f, skipn n f).

(** Reading one byte; [None] at end of file. *)
Definition read1 (f : list N) : option (N * list N) :=
  match f with [] => None | b :: r => Some (b, r) end.

Lemma firstn_app_exact : forall (A : Type) (l r : list A), firstn (length l) (l ++ r) = l.
Proof.
  intros A l r. rewrite firstn_app, Nat.sub_diag, firstn_O, app_nil_r.
  apply firstn_all.
Qed.

Lemma skipn_app_exact : forall (A : Type) (l r : list A), skipn (length l) (l ++ r) = r.
Proof.
  intros A l r. rewrite skipn_app, Nat.sub_diag, skipn_O, skipn_all. reflexivity.
Qed.

Lemma firstn_app_exact_n : forall (A : Type) n (l r : list A), n = length l -> firstn n (l ++ r) = l.
Proof. intros; subst; apply firstn_app_exact. Qed.

Lemma skipn_app_exact_n : forall (A : Type) n (l r : list A), n = length l -> skipn n (l ++ r) = r.
Proof. intros; subst; apply skipn_app_exact. Qed.

Lemma bytes_ok_app : forall l r, bytes_ok (l ++ r) <-> bytes_ok l /\ bytes_ok r.
Proof. intros l r; unfold bytes_ok; apply Forall_app. Qed.

Lemma bytes_ok_cons : forall b l, bytes_ok (b :: l) <-> is_byte b /\ bytes_ok l.
Proof. intros b l; unfold bytes_ok; split; intro H; [inversion H; auto | destruct H; constructor; auto]. Qed.

Lemma bytes_ok_nil : bytes_ok [].
Proof. constructor. Qed.

Lemma bytes_ok_repeat : forall b n, is_byte b -> bytes_ok (repeat b n).
Proof. intros b n Hb; induction n as [|n IH]; simpl; constructor; auto. Qed.

Lemma bytes_ok_rev : forall l, bytes_ok l -> bytes_ok (rev l).
Proof. intros l H. unfold bytes_ok. apply Forall_rev. exact H. Qed.

Lemma bytes_ok_firstn : forall n l, bytes_ok l -> bytes_ok (firstn n l).
Proof.
  intros n l H. rewrite <- (firstn_skipn n l) in H. apply bytes_ok_app in H. tauto.
Qed.

Lemma bytes_ok_skipn : forall n l, bytes_ok l -> bytes_ok (skipn n l).
Proof.
  intros n l H. rewrite <- (firstn_skipn n l) in H. apply bytes_ok_app in H. tauto.
Qed.
