(** * Properties C01 - C04: the unlimited integer type infinint.

    Reading guide. [infinint] is the object's byte field, most significant byte first;
    [inf_value] is the integer it denotes (positional notation, base 256, spelled out by
    [inf_value_is_positional] below); [inf_ok] says that the field has at least one byte and that every
    cell is a byte, which every constructor establishes and every operation keeps. *)
From Verif Require Import Base InfinintModel InfinintProof InfinintProof2.
Open Scope N_scope.

(** what the integer denoted by a field means *)
Theorem inf_value_is_positional : forall a b,
  inf_value [] = 0 /\ inf_value (a ++ [b]) = inf_value a * 256 + b.
Proof. intros a b. split; [exact inf_value_nil|exact (inf_value_snoc a b)]. Qed.

(** ** C01 *)
Theorem C01_infinint_dump_read : forall (a : infinint) (rest : list N), inf_ok a ->
  exists b, inf_read (inf_dump a ++ rest) = Ok (b, rest) /\ inf_ok b /\ inf_value b = inf_value a.
Proof.
  exact (fun a rest Ha => ex_intro _ (reduce_if a)
    (conj (inf_read_dump a rest Ha) (conj (reduce_if_ok a Ha) (reduce_if_value a)))).
Qed.
Print Assumptions C01_infinint_dump_read.

(** the bytes written depend on the integer only, not on its internal representation *)
Theorem C01_infinint_dump_canonical : forall a b, inf_ok a -> inf_ok b ->
  inf_value a = inf_value b -> inf_dump a = inf_dump b.
Proof.
  exact (fun a b Ha Hb E => eq_trans (inf_dump_canonical a Ha)
    (eq_trans (f_equal dumpN E) (eq_sym (inf_dump_canonical b Hb)))).
Qed.
Print Assumptions C01_infinint_dump_canonical.

(** every natural number has a representation (so the theorems above speak of all integers), also from
    any machine integer *)
Theorem C01_every_integer : forall n, exists a, inf_ok a /\ inf_value a = n.
Proof. exact (fun n => ex_intro _ (inf_of_N n) (conj (proj1 (proj2 (inf_of_N_spec n))) (proj1 (inf_of_N_spec n)))). Qed.
Print Assumptions C01_every_integer.

Theorem C01_from_machine_integer : forall v, v < 2 ^ 64 -> inf_ok (inf_of v) /\ inf_value (inf_of v) = v.
Proof. exact (fun v H => conj (proj2 (inf_of_spec v H)) (proj1 (inf_of_spec v H))). Qed.
Print Assumptions C01_from_machine_integer.

(** Non-vacuity: a 37 byte number needs 2 preamble bytes *)
Example C01_example :
  inf_ok (1 :: repeat 7 36) /\ inf_dump (1 :: repeat 7 36) = [0; 64] ++ [0; 0; 0] ++ (1 :: repeat 7 36).
Proof. split; [split; [discriminate|repeat constructor]|vm_compute; reflexivity]. Qed.

(** ** C02 *)
(** Specification of the format: zero bytes, a byte having exactly one bit set (bit [i] from the left),
    then the announced number of groups of 4 bytes. *)
Definition format_spec (enc : list N) (n : N) : Prop :=
  exists (k : nat) (i : N) (data : list N),
    enc = repeat 0 k ++ (128 / 2 ^ i) :: data /\ i < 8 /\
    N.of_nat (length data) = 4 * (8 * N.of_nat k + i + 1) /\ n = inf_value data.

Lemma format_spec_wf : forall enc n, format_spec enc n <-> well_formed_inf enc n.
Proof.
  intros enc n. split.
  - intros (k & i & data & -> & Hi & Hl & ->). rewrite <- N.shiftr_div_pow2. constructor; auto. lia.
  - intros [k i data Hi Hl]. exists k, i, data. unfold marker. rewrite N.shiftr_div_pow2.
    repeat split; auto. lia.
Qed.

(** the reader accepts exactly the well-formed encodings, and reports everything else by Erange *)
Theorem C02_infinint_read_sound : forall (f : list N), bytes_ok f ->
  match inf_read f with
  | Ok (v, rest) => exists enc, f = enc ++ rest /\ format_spec enc (inf_value v)
  | Err e => e = Erange /\ ~ (exists enc rest n, f = enc ++ rest /\ format_spec enc n)
  end.
Proof.
  intros f Hf. destruct (inf_read f) as [[v rest]|e] eqn:E.
  - destruct (inf_read_sound f v rest Hf E) as (enc & E1 & W & _). exists enc. split; auto.
    apply format_spec_wf; auto.
  - split; [eapply inf_read_only_erange; eauto|]. intros (enc & rest & n & -> & W).
    apply format_spec_wf in W. destruct (inf_read_complete enc n rest W) as (v & E2 & _). congruence.
Qed.
Print Assumptions C02_infinint_read_sound.

(** in particular every strict prefix of what dump() writes *)
Theorem C02_infinint_truncated : forall a p q, inf_ok a -> inf_dump a = p ++ q -> q <> [] ->
  inf_read p = Err Erange.
Proof. exact inf_read_prefix. Qed.
Print Assumptions C02_infinint_truncated.

(** and any preamble byte with zero or several bits set *)
Theorem C02_infinint_bad_preamble : forall k m f, m < 256 -> m <> 0 -> (forall i, i < 8 -> m <> 128 / 2 ^ i) ->
  inf_read (repeat 0 k ++ m :: f) = Err Erange.
Proof.
  intros k m f H1 H2 H3. unfold inf_read. rewrite inf_read_zeros. apply not_marker_read; auto.
  intros i Hi. unfold marker. rewrite N.shiftr_div_pow2. auto.
Qed.
Print Assumptions C02_infinint_bad_preamble.

Example C02_example : inf_dump [1; 0] = [128; 0; 0; 1] ++ [0] /\ inf_read [128; 0; 0; 1] = Err Erange
  /\ inf_read [96; 0; 0; 1; 2; 3; 4] = Err Erange /\ inf_read [128; 0; 0; 1; 0; 9] = Ok ([1; 0], [9]).
Proof. repeat split; vm_compute; reflexivity. Qed.

(** ** C03 *)
Theorem C03_add_exact : forall a b, inf_ok a -> inf_ok b ->
  inf_value (inf_add a b) = inf_value a + inf_value b /\ inf_ok (inf_add a b).
Proof. exact inf_add_spec. Qed.
Print Assumptions C03_add_exact.

Theorem C03_sub_exact : forall a b, inf_ok a -> inf_ok b ->
  (inf_value b <= inf_value a -> exists c, inf_sub a b = Ok c /\ inf_ok c /\ inf_value c = inf_value a - inf_value b) /\
  (inf_value a < inf_value b -> inf_sub a b = Err Erange).
Proof.
  intros a b Ha Hb. split.
  - intro H. destruct (inf_sub_ok a b Ha Hb H) as (c & E & V & O & _). exists c. auto.
  - exact (inf_sub_err a b Ha Hb).
Qed.
Print Assumptions C03_sub_exact.

Theorem C03_mul_exact : forall a b, inf_ok a -> inf_ok b ->
  inf_value (inf_mul a b) = inf_value a * inf_value b /\ inf_ok (inf_mul a b).
Proof. exact inf_mul_spec. Qed.
Print Assumptions C03_mul_exact.

Theorem C03_mul_byte_exact : forall a b, inf_ok a -> b < 256 ->
  inf_value (inf_mulb a b) = inf_value a * b /\ inf_ok (inf_mulb a b).
Proof. exact inf_mulb_spec. Qed.
Print Assumptions C03_mul_byte_exact.

Theorem C03_div_mod_exact : forall a b, inf_ok a -> inf_ok b ->
  (inf_value b <> 0 -> exists q r, euclide a b = Ok (q, r) /\ inf_div a b = Ok q /\ inf_mod a b = Ok r /\
      inf_ok q /\ inf_ok r /\
      inf_value a = inf_value q * inf_value b + inf_value r /\ inf_value r < inf_value b) /\
  (inf_value b = 0 -> euclide a b = Err Einfinint /\ inf_div a b = Err Einfinint /\ inf_mod a b = Err Einfinint).
Proof.
  intros a b Ha Hb. split; intro H.
  - destruct (euclide_spec a b Ha Hb H) as (q & r & E & Oq & Or & Vq & Vr).
    exists q, r. unfold inf_div, inf_mod. rewrite E. cbn [bind]. repeat split; auto; try apply Oq; try apply Or.
    + rewrite Vq, Vr, N.mul_comm. apply N.div_mod; auto.
    + rewrite Vr. apply N.mod_lt; auto.
  - unfold inf_div, inf_mod. rewrite (euclide_zero a b (proj2 Hb) H). auto.
Qed.
Print Assumptions C03_div_mod_exact.

Theorem C03_shift_exact : forall a n, inf_ok a ->
  (inf_value (inf_shl a n) = inf_value a * 2 ^ n /\ inf_ok (inf_shl a n)) /\
  (inf_value (inf_shr a n) = inf_value a / 2 ^ n /\ inf_ok (inf_shr a n)).
Proof. exact (fun a n Ha => conj (inf_shl_spec a n Ha) (inf_shr_spec a n Ha)). Qed.
Print Assumptions C03_shift_exact.

Theorem C03_shift_by_infinint_exact : forall a n, inf_ok a ->
  (exists r, inf_shl_inf a n = Ok r /\ inf_value r = inf_value a * 2 ^ n /\ inf_ok r) /\
  (exists r, inf_shr_inf a n = Ok r /\ inf_value r = inf_value a / 2 ^ n /\ inf_ok r).
Proof. exact (fun a n Ha => conj (inf_shl_inf_spec a n Ha) (inf_shr_inf_spec a n Ha)). Qed.
Print Assumptions C03_shift_by_infinint_exact.

Theorem C03_bitwise_exact : forall a b, inf_ok a -> inf_ok b ->
  (inf_value (inf_and a b) = N.land (inf_value a) (inf_value b) /\ inf_ok (inf_and a b)) /\
  (inf_value (inf_or a b) = N.lor (inf_value a) (inf_value b) /\ inf_ok (inf_or a b)) /\
  (inf_value (inf_xor a b) = N.lxor (inf_value a) (inf_value b) /\ inf_ok (inf_xor a b)).
Proof. exact (fun a b Ha Hb => conj (inf_and_spec a b Ha Hb) (conj (inf_or_spec a b Ha Hb) (inf_xor_spec a b Ha Hb))). Qed.
Print Assumptions C03_bitwise_exact.

Theorem C03_compare_exact : forall a b, inf_ok a -> inf_ok b ->
  inf_lt a b = (inf_value a <? inf_value b) /\ inf_gt a b = (inf_value b <? inf_value a) /\
  inf_le a b = (inf_value a <=? inf_value b) /\ inf_ge a b = (inf_value b <=? inf_value a) /\
  inf_eq a b = (inf_value a =? inf_value b) /\ inf_ne a b = negb (inf_value a =? inf_value b) /\
  is_zero a = (inf_value a =? 0).
Proof.
  exact (fun a b Ha Hb => conj (inf_lt_spec a b Ha Hb) (conj (inf_gt_spec a b Ha Hb)
   (conj (inf_le_spec a b Ha Hb) (conj (inf_ge_spec a b Ha Hb) (conj (inf_eq_spec a b Ha Hb)
   (conj (inf_ne_spec a b Ha Hb) (is_zero_spec a (proj2 Ha)))))))).
Qed.
Print Assumptions C03_compare_exact.

Theorem C03_index_power_exact : forall a, inf_ok a ->
  (forall pos, inf_index a pos = (inf_value a / 256 ^ N.of_nat pos) mod 256) /\
  (forall e, inf_value (inf_power a e) = inf_value a ^ N.of_nat e /\ inf_ok (inf_power a e)).
Proof. exact (fun a Ha => conj (fun pos => inf_index_spec a pos (proj2 Ha)) (fun e => inf_power_spec a e Ha)). Qed.
Print Assumptions C03_index_power_exact.

Example C03_example : inf_ok [255; 255] /\ inf_add [255; 255] [1] = [1; 0; 0]
  /\ inf_sub [1; 0; 0] [1] = Ok [0; 255; 255] /\ inf_mul [255; 255] [255; 255] = [255; 254; 0; 1]
  /\ euclide [255; 254; 0; 1] [3; 7] = Ok ([84; 143; 92], [0; 125]).
Proof. split; [split; [discriminate|repeat constructor]|vm_compute; auto]. Qed.

(** ** C04: [maxT] is the largest value of the unsigned machine type, [size] its size in bytes *)
Theorem C04_unstack : forall size maxT a v,
  inf_ok a -> v <= maxT -> maxT < 2 ^ 64 -> maxT < 256 ^ N.of_nat size -> (1 <= size)%nat ->
  exists a' v', inf_unstack size maxT a v = Ok (a', v') /\ inf_ok a' /\
    inf_value a' + v' = inf_value a + v /\ v' <= maxT /\
    (inf_value a + v <= maxT -> inf_value a' = 0).
Proof.
  intros size maxT a v Ha Hv H1 H2 H3.
  destruct (inf_unstack_spec size maxT a v Ha Hv H1 H2 H3) as (r & v' & E & O & Ev & Er).
  exists r, v'. split; auto. split; auto. lia.
Qed.
Print Assumptions C04_unstack.

(** the drain loop used throughout libdar terminates and transfers exactly the value *)
Theorem C04_drain : forall size maxT a,
  inf_ok a -> 1 <= maxT -> maxT < 2 ^ 64 -> maxT < 256 ^ N.of_nat size -> (1 <= size)%nat ->
  exists fuel chunks, inf_drain fuel size maxT a = Ok chunks /\
    fold_right N.add 0 chunks = inf_value a /\ Forall (fun v => 0 < v /\ v <= maxT) chunks.
Proof. exact inf_drain_exists. Qed.
Print Assumptions C04_drain.

Example C04_example : inf_ok [1; 2] /\ inf_drain 4 1 255 [1; 2] = Ok [255; 3].
Proof. split; [split; [discriminate|repeat constructor]|vm_compute; auto]. Qed.
