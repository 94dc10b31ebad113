(** * PropDarCp: property C55, dar_cp saves what can be read of a damaged file *)
From Coq Require Import List PeanoNat.
From Verif Require Import Base DarCpModel DarCpSpec DarCpProof.
Local Open Scope nat_scope.

Lemma positions (src : list N) bad rd : reads (length src) bad rd -> tolerant (length src) bad rd \/ sectors (length src) bad rd ->
  exists P : nat -> Prop, P 0 /\
    (forall p n k, P p -> Nat.even n = true -> 1 <= n -> rd p n = Some k -> P (p + k)) /\
    (forall p, 1 <= p -> p < length src -> bad (p - 1) = true -> bad p = false -> P p) /\
    (forall p, P p -> p < length src -> bad p = false -> rd p 2 <> None).
Proof.
  intros R [T|[S1 S2]].
  - exists (fun _ => True). repeat split; auto.
  - exists (fun p => Nat.even p = true \/ length src <= p). split; [auto|]. split; [|split].
    + intros p n k [E|E] En Ln Q.
      * destruct (S2 p n k E En Ln Q) as [H|H]; [left; rewrite Nat.even_add, E, H; reflexivity|right; lia].
      * right. lia.
    + intros p L1 L2 B1 B2. left. destruct (Nat.even p) eqn:E; [reflexivity|exfalso].
      assert (O : Nat.odd p = true) by (unfold Nat.odd; rewrite E; reflexivity). apply Nat.odd_spec in O. destruct O as [m ->].
      replace (2 * m + 1 - 1) with (2 * m) in B1 by lia. rewrite (S1 m L2) in B1. congruence.
    + intros p [E|E] L B Q; [|lia]. apply Nat.even_spec in E. destruct E as [m ->].
      destruct (R (2 * m) 2 ltac:(lia)) as [_ R2]. specialize (R2 L). rewrite Q in R2. destruct R2 as (i & Hi & Li & Bi).
      assert (C : i = 2 * m \/ i = 2 * m + 1) by lia. destruct C as [-> | ->]; [congruence|]. rewrite <- (S1 m Li) in Bi. congruence.
Qed.

(** The copy always ends; every byte of the source is at its place in the copy, except bytes
    lying between two unreadable ones, which are zeros or beyond the end of the copy; the
    number of missing bytes is zero (exit code 0) exactly when every byte was readable, and
    then the copy is the source. *)
Theorem C55_copy : forall src bad rd wfuel, reads (length src) bad rd ->
  tolerant (length src) bad rd \/ sectors (length src) bad rd -> 1 <= wfuel ->
  exists d missed, dar_cp src rd wfuel [] [] = Ok (d, missed) /\ length d <= length src /\
    (forall i, i < length src -> nth_error d i = nth_error src i \/
       (enclosed (length src) bad i /\ forall b, nth_error d i = Some b -> b = 0%N)) /\
    (missed = 0 <-> forall i, i < length src -> bad i = false) /\
    (missed = 0 -> d = src).
Proof.
  intros src bad rd wfuel R T W. destruct (positions src bad rd R T) as (P & P0 & P1 & P2 & P3).
  destruct (copy_ok src bad rd R P P1 P2 P3 wfuel (S (length src)) 0 [] 0 W) as (t & m & E & [D1 D2] & M); auto; try lia.
  { split; [cbn; lia|]. intros i Hi. lia. }
  { left. split; [reflexivity|]. split; [intros i Hi; lia|reflexivity]. }
  unfold dar_cp. rewrite E. cbn [bind]. exists (data t), m. split; [reflexivity|]. split; [exact D1|]. split; [intros i Hi; apply D2; exact Hi|].
  destruct M as [(M1 & M2 & M3)|(M1 & i & Li & Bi)].
  - split; [split; auto|auto].
  - split; [|lia]. split; [lia|]. intro H. rewrite H in Bi by exact Li. discriminate.
Qed.

(** Bytes before the first unreadable one and after the last one are all saved; in
    particular nothing readable is lost around a single damaged area. *)
Theorem C55_outside : forall src bad rd wfuel a b, reads (length src) bad rd ->
  tolerant (length src) bad rd \/ sectors (length src) bad rd -> 1 <= wfuel ->
  (forall i, i < length src -> bad i = true -> a <= i < b) ->
  exists d missed, dar_cp src rd wfuel [] [] = Ok (d, missed) /\
    forall i, i < length src -> ~ a <= i < b -> nth_error d i = nth_error src i.
Proof.
  intros src bad rd wfuel a b R T W A. destruct (C55_copy src bad rd wfuel R T W) as (d & m & E & _ & H & _).
  exists d, m. split; [exact E|]. intros i Hi Ni. destruct (H i Hi) as [Q|[(j & k & L & Lk & Bj & Bk) _]]; [exact Q|].
  pose proof (A j ltac:(lia) Bj). pose proof (A k Lk Bk). lia.
Qed.

(** A source without unreadable byte is copied exactly, whatever short writes the system
    does, or the failure to write is reported. *)
Theorem C55_clean : forall src rd wfuel ws, reads (length src) (fun _ => false) rd ->
  dar_cp src rd wfuel [] ws = Err Erange \/ dar_cp src rd wfuel [] ws = Ok (src, 0).
Proof.
  intros src rd wfuel ws R. unfold dar_cp.
  destruct (clean_ok src rd R wfuel (S (length src)) 0 {| data := []; pos := 0; answers := ws |}) as [E|(t & E & D)]; auto; try (cbn; lia).
  - left. rewrite E. reflexivity.
  - right. rewrite E. cbn [bind]. rewrite D. reflexivity.
Qed.

(** ** What is not guaranteed *)
(** A system that fails the whole read and a system that stops before the error. *)
Fixpoint first_bad (bad : nat -> bool) (p n : nat) : option nat :=
  match n with O => None | S n' => if bad p then Some p else first_bad bad (S p) n' end.
Definition whole (size : nat) (bad : nat -> bool) (p n : nat) : option nat :=
  let m := min n (size - p) in match first_bad bad p m with None => Some m | Some _ => None end.
Definition prefix (size : nat) (bad : nat -> bool) (p n : nat) : option nat :=
  let m := min n (size - p) in match first_bad bad p m with None => Some m | Some i => if i =? p then None else Some (i - p) end.

Lemma first_bad_none bad n : forall p, first_bad bad p n = None -> forall i, p <= i < p + n -> bad i = false.
Proof.
  induction n as [|n IH]; intros p E i Hi; [lia|]. cbn in E. destruct (bad p) eqn:B; [discriminate|].
  destruct (Nat.eq_dec i p) as [->|]; [exact B|]. apply (IH (S p) E). lia.
Qed.
Lemma first_bad_some bad n : forall p i, first_bad bad p n = Some i -> p <= i < p + n /\ bad i = true /\ forall j, p <= j < i -> bad j = false.
Proof.
  induction n as [|n IH]; intros p i E; [discriminate|]. cbn in E. destruct (bad p) eqn:B.
  - injection E as <-. split; [lia|]. split; [exact B|]. intros j Hj. lia.
  - apply IH in E. destruct E as (E1 & E2 & E3). split; [lia|]. split; [exact E2|]. intros j Hj.
    destruct (Nat.eq_dec j p) as [->|]; [exact B|]. apply E3. lia.
Qed.
Lemma whole_reads size bad : reads size bad (whole size bad).
Proof.
  intros p n Ln. unfold whole. split.
  - intro H. replace (min n (size - p)) with 0 by lia. reflexivity.
  - intro H. destruct (first_bad bad p (min n (size - p))) as [i|] eqn:E.
    + apply first_bad_some in E. destruct E as (E1 & E2 & _). exists i. repeat split; auto; lia.
    + split; [lia|]. split; [lia|]. apply first_bad_none, E.
Qed.
Lemma prefix_reads size bad : reads size bad (prefix size bad).
Proof.
  intros p n Ln. unfold prefix. split.
  - intro H. replace (min n (size - p)) with 0 by lia. reflexivity.
  - intro H. destruct (first_bad bad p (min n (size - p))) as [i|] eqn:E.
    + apply first_bad_some in E. destruct E as (E1 & E2 & E3). destruct (Nat.eqb_spec i p) as [->|Ne].
      * exists p. repeat split; auto; lia.
      * split; [lia|]. split; [lia|]. intros j Hj. apply E3. lia.
    + split; [lia|]. split; [lia|]. apply first_bad_none, E.
Qed.
Lemma prefix_tolerant size bad : tolerant size bad (prefix size bad).
Proof.
  intros p L B. unfold prefix. destruct (first_bad bad p (min 2 (size - p))) as [i|] eqn:E; [|discriminate].
  apply first_bad_some in E. destruct E as (_ & E & _). destruct (Nat.eqb_spec i p) as [->|]; [congruence|discriminate].
Qed.

(** Bytes that can be read, between two unreadable areas, may be lost. *)
Definition ex_src : list N := [1; 2; 3; 4; 5; 6; 7; 8; 9; 10]%N.
Definition ex_bad (i : nat) : bool := (i =? 2) || (i =? 6).
Theorem C55_between_areas_refuted : exists (src : list N) bad rd i, reads (length src) bad rd /\ tolerant (length src) bad rd /\
  i < length src /\ bad i = false /\
  exists d m, dar_cp src rd 1 [] [] = Ok (d, m) /\ nth_error src i <> nth_error d i.
Proof.
  exists ex_src, ex_bad, (prefix 10 ex_bad), 4. split; [apply prefix_reads|]. split; [apply prefix_tolerant|]. split; [cbn; lia|]. split; [reflexivity|].
  eexists _, _. split; [vm_compute; reflexivity|]. vm_compute. discriminate.
Qed.

(** When reads fail as a whole and an unreadable byte is at an odd offset, the copy is
    abandoned although readable bytes follow. *)
Definition odd_bad (i : nat) : bool := i =? 1.
Theorem C55_odd_offset_refuted : exists (src : list N) bad rd, reads (length src) bad rd /\
  (forall i, bad i = true <-> i = 1) /\ length src = 10 /\ exists m, dar_cp src rd 1 [] [] = Ok ([], m).
Proof.
  exists ex_src, odd_bad, (whole 10 odd_bad). split; [apply whole_reads|]. split; [intro i; unfold odd_bad; apply Nat.eqb_eq|]. split; [reflexivity|].
  eexists. vm_compute. reflexivity.
Qed.

(** A short write while the bytes before an error are saved loses bytes without counting them. *)
Definition pair_bad (i : nat) : bool := (4 <=? i) && (i <? 6).
Theorem C55_short_write_refuted : exists d m, reads 10 pair_bad (whole 10 pair_bad) /\
  dar_cp ex_src (whole 10 pair_bad) 1 [] [Some 1] = Ok (d, m) /\ m = 2 /\ nth_error d 2 = Some 0%N /\ pair_bad 2 = false.
Proof.
  eexists _, _. split; [apply whole_reads|]. split; [vm_compute; reflexivity|]. repeat split.
Qed.

(** With -f the former contents of the destination stay: in the place of missing bytes, and
    after the end of the copy. *)
Theorem C55_force_refuted : dar_cp [1; 2]%N (whole 2 (fun _ => false)) 1 [9; 9; 9; 9]%N [] = Ok ([1; 2; 9; 9]%N, 0) /\
  exists d, dar_cp ex_src (whole 10 pair_bad) 1 (repeat 77%N 10) [] = Ok (d, 2) /\ nth_error d 4 = Some 77%N.
Proof. split; [vm_compute; reflexivity|]. eexists. split; vm_compute; reflexivity. Qed.

(** ** Instances *)
Lemma ex_sectors : sectors 10 pair_bad (whole 10 pair_bad).
Proof.
  split.
  - intros i Hi. do 5 (destruct i as [|i]; [reflexivity|]). lia.
  - intros p n k Ep En Ln. unfold whole. intro E. destruct (first_bad pair_bad p (min n (10 - p))); [discriminate|]. assert (k = min n (10 - p)) as -> by congruence. clear E.
    destruct (Nat.le_ge_cases n (10 - p)); [left; now rewrite Nat.min_l by assumption|]. rewrite Nat.min_r by assumption.
    destruct (Nat.le_gt_cases p 10); [right; lia|left; replace (10 - p) with 0 by lia; reflexivity].
Qed.
Example C55_ex1 : dar_cp ex_src (whole 10 pair_bad) 1 [] [] = Ok ([1; 2; 3; 4; 0; 0; 7; 8; 9; 10]%N, 2).
Proof. vm_compute. reflexivity. Qed.
Example C55_ex2 : dar_cp ex_src (prefix 10 (fun i => 8 <=? i)) 1 [] [] = Ok ([1; 2; 3; 4; 5; 6; 7; 8]%N, 2).
Proof. vm_compute. reflexivity. Qed.
Example C55_ex3 : dar_cp ex_src (prefix 10 (fun _ => false)) 9 [] [Some 3; Some 0; Some 4; Some 9] = Ok (ex_src, 0)
  /\ dar_cp ex_src (prefix 10 (fun _ => false)) 9 [] [Some 3; None] = Err Erange.
Proof. split; vm_compute; reflexivity. Qed.

Print Assumptions C55_copy.
Print Assumptions C55_outside.
Print Assumptions C55_clean.
Print Assumptions C55_between_areas_refuted.
Print Assumptions C55_odd_offset_refuted.
Print Assumptions C55_short_write_refuted.
Print Assumptions C55_force_refuted.
