(** * Property C06: decimal notation.
    [int_to_string n] is deci(n).human(), [string_to_int s] is deci(s).computer(); strings are lists of character
    codes. [str_value] (the number a digit string denotes: Horner scheme over c - '0') and [canonical_numeral]
    (non empty, only '0'..'9', no leading '0' unless the string is "0") are defined in DeciProof.v without reference to
    the class. *)
From Verif Require Import Base DeciModel DeciProof.
Open Scope N_scope.

Theorem C06_human : forall n, exists s, int_to_string n = Ok s /\ canonical_numeral s /\ str_value s = n.
Proof. exact int_to_string_spec. Qed.
Print Assumptions C06_human.

(** there is only one canonical numeral per integer *)
Theorem C06_numeral_unique : forall s t, canonical_numeral s -> canonical_numeral t -> str_value s = str_value t -> s = t.
Proof. exact canonical_unique. Qed.
Print Assumptions C06_numeral_unique.

Theorem C06_computer : forall s,
  (s <> [] -> Forall (fun c => 48 <= c /\ c <= 57) s -> string_to_int s = Ok (str_value s)) /\
  (s <> [] -> ~ Forall (fun c => 48 <= c /\ c <= 57) s -> string_to_int s = Err Edeci) /\
  (s = [] -> string_to_int s = Err Erange).
Proof.
  intro s. split; [exact (string_to_int_spec s)|]. split.
  - intros Hn Hd. unfold string_to_int. rewrite (deci_of_string_err s Hn Hd). reflexivity.
  - intros ->. reflexivity.
Qed.
Print Assumptions C06_computer.

Theorem C06_roundtrip : forall n, exists s, int_to_string n = Ok s /\ string_to_int s = Ok n.
Proof.
  intro n. destruct (int_to_string_spec n) as (s & E & (C1 & C2 & _) & V). exists s. split; auto.
  rewrite (string_to_int_spec s C1 C2), V. reflexivity.
Qed.
Print Assumptions C06_roundtrip.

Theorem C06_roundtrip_back : forall s, canonical_numeral s -> exists n, string_to_int s = Ok n /\ int_to_string n = Ok s.
Proof.
  intros s (C1 & C2 & C3). exists (str_value s). split; [exact (string_to_int_spec s C1 C2)|].
  destruct (int_to_string_spec (str_value s)) as (t & E & C & V). rewrite E. f_equal.
  apply canonical_unique; auto. repeat split; auto.
Qed.
Print Assumptions C06_roundtrip_back.

Example C06_example : int_to_string 12345678901 = Ok [49; 50; 51; 52; 53; 54; 55; 56; 57; 48; 49]
  /\ int_to_string 0 = Ok [48] /\ string_to_int [48; 48; 55] = Ok 7 /\ string_to_int [49; 65] = Err Edeci.
Proof. vm_compute. auto. Qed.
