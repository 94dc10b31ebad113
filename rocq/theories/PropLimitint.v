(** * Property C05: the 32 and 64 bit integer builds. *)
From Verif Require Import Base InfinintModel InfinintProof InfinintProof2 LimitintModel LimitintProof.
Open Scope N_scope.

(** "exact or Elimitint": the specification of an operation whose mathematical result is [r] *)
Definition exact_or_limit (w : N) (out : res N) (r : N) : Prop :=
  (out = Ok r /\ r < 2 ^ w) \/ out = Err Elimitint.

Theorem C05_add : forall w a b, (w = 32 \/ w = 64) -> a < 2 ^ w -> b < 2 ^ w ->
  (a + b < 2 ^ w -> lim_add w a b = Ok (a + b)) /\ (2 ^ w <= a + b -> lim_add w a b = Err Elimitint).
Proof. exact lim_add_spec. Qed.
Print Assumptions C05_add.

Theorem C05_sub : forall w a b,
  (b <= a -> lim_sub w a b = Ok (a - b)) /\ (a < b -> lim_sub w a b = Err Erange).
Proof. intros w a b. unfold lim_sub. destruct (N.ltb_spec a b); split; intro; auto; lia. Qed.
Print Assumptions C05_sub.

Theorem C05_mul : forall w a b, (w = 32 \/ w = 64) -> a < 2 ^ w -> b < 2 ^ w ->
  exact_or_limit w (lim_mul w a b) (a * b).
Proof. exact lim_mul_sound. Qed.
Print Assumptions C05_mul.

Theorem C05_power : forall w a e, (w = 32 \/ w = 64) -> a < 2 ^ w ->
  exact_or_limit w (lim_power w a e) (a ^ N.of_nat e).
Proof. exact lim_power_sound. Qed.
Print Assumptions C05_power.

Theorem C05_div_mod : forall w a b,
  (b <> 0 -> lim_div w a b = Ok (a / b) /\ lim_mod w a b = Ok (a mod b)) /\
  (b = 0 -> lim_div w a b = Err Einfinint /\ lim_mod w a b = Err Einfinint).
Proof. intros w a b. unfold lim_div, lim_mod. destruct (N.eqb_spec b 0); split; intro; auto; contradiction. Qed.
Print Assumptions C05_div_mod.

(** shifts by a 32 bit amount; the left shift when the amount is not within 64 of the wrap-around *)
Theorem C05_shift : forall w a bit, (w = 32 \/ w = 64) -> a < 2 ^ w ->
  lim_shr w a bit = Ok (a / 2 ^ bit) /\
  (bit + 64 <= 2 ^ w -> exact_or_limit w (lim_shl w a bit) (a * 2 ^ bit)).
Proof. exact (fun w a bit Hw Ha => conj (lim_shr_sound w a bit Hw Ha) (lim_shl_sound w a bit Hw Ha)). Qed.
Print Assumptions C05_shift.


(** no spurious overflow: a product or a power below 2^(w-1) is computed, a non-zero value is shifted as soon as the
    result fits *)
Lemma hp2_prod : forall w a b, (w = 32 \/ w = 64) -> a < 2 ^ w -> b < 2 ^ w -> 0 < a -> 0 < b -> 2 ^ (hp2 a + hp2 b) <= a * b.
Proof.
  intros w a b Hw Ha Hb Pa Pb.
  assert (A64 : a < 2 ^ 64) by (eapply N.lt_le_trans; [exact Ha|apply N.pow_le_mono_r; destruct Hw; lia]).
  assert (B64 : b < 2 ^ 64) by (eapply N.lt_le_trans; [exact Hb|apply N.pow_le_mono_r; destruct Hw; lia]).
  rewrite N.pow_add_r. apply N.mul_le_mono; apply hp2_spec; auto.
Qed.
Theorem C05_mul_complete : forall w a b, (w = 32 \/ w = 64) -> a < 2 ^ w -> b < 2 ^ w -> a * b < 2 ^ (w - 1) ->
  a < 2 ^ (w - 1) -> b < 2 ^ (w - 1) -> lim_mul w a b = Ok (a * b).
Proof.
  intros w a b Hw Ha Hb P Ha1 Hb1. apply lim_mul_small; auto.
  destruct (N.eq_dec a 0) as [->|Na]; [|destruct (N.eq_dec b 0) as [->|Nb]].
  - rewrite hp2_0. assert (hp2 b < w - 1) by (apply hp2_lt; auto; destruct Hw; lia). lia.
  - rewrite hp2_0. assert (hp2 a < w - 1) by (apply hp2_lt; auto; destruct Hw; lia). lia.
  - pose proof (hp2_prod w a b Hw Ha Hb ltac:(lia) ltac:(lia)) as Q.
    assert (2 ^ (hp2 a + hp2 b) < 2 ^ (w - 1)) as L by (eapply N.le_lt_trans; eauto).
    apply N.pow_lt_mono_r_iff in L; lia.
Qed.
Print Assumptions C05_mul_complete.
Theorem C05_power_complete : forall w a e, (w = 32 \/ w = 64) -> a < 2 ^ (w - 1) -> a ^ N.of_nat e < 2 ^ (w - 1) ->
  lim_power w a e = Ok (a ^ N.of_nat e).
Proof.
  intros w a e Hw Ha. assert (Q : 2 ^ (w - 1) <= 2 ^ w) by (apply N.pow_le_mono_r; lia).
  induction e as [|e IH]; intro He; cbn [lim_power]; [reflexivity|].
  rewrite Nat2N.inj_succ, N.pow_succ_r' in *.
  assert (Hp : a ^ N.of_nat e < 2 ^ (w - 1)).
  { destruct (N.eq_dec a 0) as [->|Na]; [|nia].
    destruct e; [cbn; destruct Hw as [->| ->]; reflexivity|rewrite N.pow_0_l by lia; lia]. }
  rewrite IH by exact Hp. cbn [bind]. rewrite (N.mul_comm a) in *. apply C05_mul_complete; auto; lia.
Qed.
Print Assumptions C05_power_complete.
Theorem C05_shl_complete : forall w a bit, (w = 32 \/ w = 64) -> 0 < a -> a < 2 ^ w -> bit + 64 <= 2 ^ w -> a * 2 ^ bit < 2 ^ w ->
  lim_shl w a bit = Ok (a * 2 ^ bit).
Proof.
  intros w a bit Hw Pa Ha Hb P. destruct (lim_shl_sound w a bit Hw Ha Hb) as [[E _]|E]; [exact E|]. exfalso.
  revert E. unfold lim_shl. rewrite bytesize_bits by auto.
  assert (A64 : a < 2 ^ 64) by (eapply N.lt_le_trans; [exact Ha|apply N.pow_le_mono_r; destruct Hw; lia]).
  destruct (hp2_spec a Pa A64) as [L _].
  assert (H : 2 ^ (bit + hp2 a) < 2 ^ w) by (rewrite N.pow_add_r, N.mul_comm; eapply N.le_lt_trans; [|exact P]; apply N.mul_le_mono_r; exact L).
  apply N.pow_lt_mono_r_iff in H; [|lia].
  assert (Hs : wrap w (bit + hp2 a) = bit + hp2 a) by (unfold wrap; apply N.mod_small; destruct Hw; subst w; lia).
  rewrite Hs. destruct (N.leb_spec w (bit + hp2 a)); [lia|]. destruct (N.leb_spec w bit); [lia|]. discriminate.
Qed.
Print Assumptions C05_shl_complete.
(** the margin is needed: multiplying by one a value of the upper half is refused *)
Theorem C05_mul_margin_refuted : lim_mul 32 2147483648 1 = Err Elimitint /\ lim_shl 32 0 32 = Err Elimitint.
Proof. split; vm_compute; reflexivity. Qed.

(** The full statement is false: (1) the left shift by 2^32-1 in the 32 bit build passes the overflow check (the
    sum of the check wraps) and reaches an undefined shift; *)
Theorem C05_shl_refuted : exists a bit, a < 2 ^ 32 /\ bit < 2 ^ 32 /\ lim_shl 32 a bit = Err UB.
Proof. exists 3, 4294967295. vm_compute. auto. Qed.
Print Assumptions C05_shl_refuted.
(** (2) the right shift by a limitint has no check: undefined as soon as the amount reaches the width. *)
Theorem C05_shr_lim_refuted : forall w, exists a bit, lim_shr_lim w a bit = Err UB.
Proof. intro w. exists 0, w. unfold lim_shr_lim. rewrite N.leb_refl. reflexivity. Qed.
Print Assumptions C05_shr_lim_refuted.

Theorem C05_from_machine_integer : forall w wT a, a < 2 ^ wT ->
  (a < 2 ^ w -> lim_from w wT a = Ok a) /\ (2 ^ w <= a -> lim_from w wT a = Err Elimitint).
Proof.
  intros w wT a Ha. unfold lim_from, wrap. split; intro H.
  - rewrite N.mod_small by auto. destruct (N.leb_spec wT w); cbn [orb]; auto.
    destruct (N.leb_spec a (2 ^ w - 1)); auto. lia.
  - destruct (N.leb_spec wT w) as [G|G]; cbn [orb].
    + assert (2 ^ wT <= 2 ^ w) by (apply N.pow_le_mono_r; lia). lia.
    + destruct (N.leb_spec a (2 ^ w - 1)); auto. pose proof (pow2_pos w). lia.
Qed.
Print Assumptions C05_from_machine_integer.

(** unstack to a type not wider than the integer type *)
Theorem C05_unstack : forall w wT maxT field a, (w = 32 \/ w = 64) -> field < 2 ^ w ->
  a <= maxT -> maxT < 2 ^ wT -> wT <= w ->
  let '(f', a') := lim_unstack w wT maxT field a in
  a' = N.min (a + field) maxT /\ f' + a' = field + a.
Proof. exact lim_unstack_spec. Qed.
Print Assumptions C05_unstack.
(** not so for the 32 bit build unstacking to a 64 bit type *)
Theorem C05_unstack_refuted : exists field a, field < 2 ^ 32 /\
  lim_unstack 32 64 (2 ^ 64 - 1) field a = (0, 2 ^ 64 - 1) /\ field + a <> 2 ^ 64 - 1.
Proof. exists 4294967295, 0. split; [reflexivity|]. split; [vm_compute; reflexivity|discriminate]. Qed.
Print Assumptions C05_unstack_refuted.

(** byte access agrees with the unlimited build *)
Theorem C05_index : forall w a pos, lim_index w a pos = (a / 256 ^ N.of_nat pos) mod 256.
Proof. exact lim_index_spec. Qed.
Print Assumptions C05_index.

(** Storage: a limited build writes the very same bytes as an unlimited build ... *)
Theorem C05_dump_same_format : forall w a, (w = 32 \/ w = 64) -> inf_ok a -> inf_value a < 2 ^ w ->
  lim_dump w (inf_value a) = inf_dump a.
Proof. exact (fun w a Hw Ha H => eq_trans (lim_dump_spec w _ Hw H) (eq_sym (inf_dump_canonical a Ha))). Qed.
Print Assumptions C05_dump_same_format.
(** ... and reads what an unlimited build wrote exactly, or reports Elimitint *)
Theorem C05_read : forall w a rest, (w = 32 \/ w = 64) -> inf_ok a ->
  (inf_value a < 2 ^ w -> lim_read w (inf_dump a ++ rest) = Ok (inf_value a, rest)) /\
  (2 ^ w <= inf_value a -> lim_read w (inf_dump a ++ rest) = Err Elimitint).
Proof.
  intros w a rest Hw Ha. rewrite (inf_dump_canonical a Ha). exact (lim_read_dumpN w (inf_value a) rest Hw).
Qed.
Print Assumptions C05_read.

(** C02 does not hold in the limited builds: the reader ignores the length of its second read, a truncated
    field is misread as another number *)
Theorem C05_truncated_read_refuted : exists a p q, inf_ok a /\ inf_dump a = p ++ q /\ q <> [] /\
  lim_read 64 p = Ok (0, []) /\ inf_value a <> 0.
Proof. exists [7], [128; 0; 0; 0], [7]. repeat split; try discriminate; repeat constructor. Qed.
Print Assumptions C05_truncated_read_refuted.

Example C05_example : lim_add 32 4294967295 1 = Err Elimitint /\ lim_mul 64 2147483648 4294967295 = Ok 9223372034707292160
  /\ lim_mul 64 4294967296 4294967296 = Err Elimitint /\ lim_shl 32 3 30 = Ok 3221225472 /\ lim_shl 32 3 31 = Err Elimitint
  /\ lim_unstack 64 32 4294967295 5000000000 1 = (705032706, 4294967295)
  /\ lim_read 32 (dumpN 4294967296) = Err Elimitint /\ lim_read 64 (dumpN 4294967296 ++ [9]) = Ok (4294967296, [9]).
Proof. vm_compute. repeat split. Qed.
