(** * infinint seen as a natural number.

    Property C03 (PropInfinint.v) establishes that the operators of infinint compute these functions; the models of the
    higher layers use them directly. *)
From Verif Require Import Base.
Open Scope N_scope.

(** infinint::operator -=, real_infinint.cpp:171-239: Erange when the result would be negative *)
Definition nsub (a b : N) : res N := if a <? b then Err Erange else Ok (a - b).
(** euclide(), real_infinint.cpp:560-650: Einfinint on a null divisor *)
Definition neuclide (a b : N) : res (N * N) := if b =? 0 then Err Einfinint else Ok (a / b, a mod b).

Lemma nsub_ok : forall a b, b <= a -> nsub a b = Ok (a - b).
Proof. intros a b H. unfold nsub. destruct (N.ltb_spec a b); [lia|reflexivity]. Qed.
Lemma nsub_err : forall a b, a < b -> nsub a b = Err Erange.
Proof. intros a b H. unfold nsub. destruct (N.ltb_spec a b); [reflexivity|lia]. Qed.
