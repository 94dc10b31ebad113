(** * C51: a ciphered archive read with several threads gives what its clear data contains, whatever the threads' pace *)
From Coq Require Import List PeanoNat Bool.
From Verif Require Import Base FetchModel FetchSpec FetchProof FetchLive.
Open Scope nat_scope.

(** every answer and position is right, and at the end both threads are gone; a run stops before only because the schedule is over: no call fails, none blocks for ever *)
Theorem C51_reads_right : forall (W bs : nat) (F : list N) (skipok : nat -> bool),
  0 < W -> 0 < bs -> (forall k, skipok k = false -> length F <= k * bs) ->
  forall (l : list op) (e : nat) (sc : list (nat * nat)), admissible bs F 0 false l ->
  match play W bs F (fun _ => false) skipok l (start e sc) with
  | (Ok x, s') => x = expect_all F 0 l /\ tst s' = Dead /\ pc s' = REnd
  | (Err x, s') => x = Fuel /\ sched s' = []
  end.
Proof.
  intros W bs F skipok HW Hbs Hs l e sc HA.
  assert (Hskip : forall k, skipok k = false -> blk bs F k = []).
  { intros k E. unfold blk. rewrite skipn_all2 by (apply Hs; exact E). apply firstn_nil. }
  pose proof (play_right W bs F (fun _ => false) skipok HW Hbs (fun _ => eq_refl) Hskip l e sc HA) as H.
  destruct (play W bs F (fun _ => false) skipok l (start e sc)) as [[x|x] s'] eqn:E; [exact H|].
  destruct x; try contradiction. split; [reflexivity|]. exact (play_fuel W bs F (fun _ => false) skipok HW Hbs (fun _ => eq_refl) Hskip l e sc s' HA E).
Qed.
(** with a reading thread that moves between any two accesses of the main thread to what they share, all the calls return, the last one included *)
Theorem C51_ends : forall (W bs : nat) (F : list N) (skipok : nat -> bool),
  0 < W -> 0 < bs -> (forall k, skipok k = false -> length F <= k * bs) ->
  forall l, admissible bs F 0 false l ->
  exists n, forall e sc, Forall (fun t => 0 < fst t) sc -> n < length sc ->
  exists s', play W bs F (fun _ => false) skipok l (start e sc) = (Ok (expect_all F 0 l), s') /\ tst s' = Dead /\ pc s' = REnd.
Proof.
  intros W bs F skipok HW Hbs Hs l HA.
  assert (Hskip : forall k, skipok k = false -> blk bs F k = []).
  { intros k E. unfold blk. rewrite skipn_all2 by (apply Hs; exact E). apply firstn_nil. }
  exists (enough W F l). intros e sc Hf Hn. exact (play_done W bs F (fun _ => false) skipok HW Hbs (fun _ => eq_refl) Hskip l e sc HA Hf Hn).
Qed.

(** ** a case: eleven bytes in blocks of four, two workers; the script goes back and forth *)
Definition C51_data : list N := [1;2;3;4;5;6;7;8;9;10;11]%N.
Definition C51_script : list op := [Oread 3; Oskip 7; Oread 1; Orel (-6); Oahead; Oread 5; Osync; Oskip 0; Oread 2; Oeof; Oskip 9; Oread 20; Oskip 40; Oread 1; Orel (-100); Oread 4].
Definition C51_run (l : list op) (sc : list (nat * nat)) : res (list (ans * nat)) := fst (play 2 4 C51_data (fun _ => false) (fun k => k <? 3) l (start 0 sc)).
Example C51_case_hyp : admissible 4 C51_data 0 false C51_script /\ (forall k, (k <? 3) = false -> length C51_data <= k * 4).
Proof. split; [vm_compute; repeat (split; [first [reflexivity | left; lia | right; lia]|]); exact I|]. intros k E. apply Nat.ltb_ge in E. cbn. lia. Qed.
Example C51_case_run : C51_run C51_script (concat (repeat [(1, 0); (7, 2); (3, 1); (2, 5)] 60)) = Ok (expect_all C51_data 0 C51_script).
Proof. vm_compute. reflexivity. Qed.
Example C51_case_slow : C51_run C51_script (repeat (1, 0) 400) = Ok (expect_all C51_data 0 C51_script).
Proof. vm_compute. reflexivity. Qed.

(** ** what the restrictions of the statement are there for *)
(** a skip past the end, but inside the last block, then a read: internal error (parallel_tronconneuse.cpp:809-815) *)
Theorem C51_past_end_refuted : C51_run [Oskip 12; Oread 1] (repeat (9, 3) 100) = Ok [(Abool true, 12); (Abytes [], 12)]
  /\ fst (play 2 4 (firstn 10 C51_data) (fun _ => false) (fun k => k <? 3) [Oskip 11; Oread 1] (start 0 (repeat (9, 3) 100))) = Err Ebug.
Proof. split; vm_compute; reflexivity. Qed.
(** skip_to_eof just after a read that met the end: the position is the one of the last block *)
Theorem C51_eof_twice_refuted : C51_run [Oread 20; Oeof] (repeat (9, 3) 100) = Ok [(Abytes C51_data, 11); (Abool true, 8)].
Proof. vm_compute. reflexivity. Qed.
(** read_ahead just after a read that met the end, then a skip back into the last block: nothing can be read there any more *)
Theorem C51_ahead_at_end_refuted : C51_run [Oread 20; Oahead; Oskip 9; Oread 1] (repeat (9, 3) 100) = Ok [(Abytes C51_data, 11); (Anone, 11); (Abool true, 9); (Abytes [], 9)].
Proof. vm_compute. reflexivity. Qed.

(** a block that cannot be deciphered (the second of ten): the data read after a skip over it is not the one of that position, and no error is reported *)
Definition C51_forty : list N := map N.of_nat (seq 1 40).
Definition C51_bad := call 2 4 C51_forty (fun k => k =? 1) (fun k => k <? 10).
Definition C51_skip_over : res ans * nat :=
  let s1 := snd (C51_bad (Oread 1) (start 0 (repeat (9, 0) 100))) in
  let s2 := snd (C51_bad (Oskip 9) s1) in
  let x := C51_bad (Oread 1) s2 in (fst x, cur (snd x)).
Definition C51_after_failure : res ans * nat :=
  let s1 := snd (C51_bad (Oread 11) (start 0 (repeat (9, 0) 100))) in
  let s2 := snd (C51_bad (Oskip 9) s1) in
  let x := C51_bad (Oread 1) s2 in (fst x, cur (snd x)).
Theorem C51_damaged_skip_refuted : C51_skip_over = (Ok (Abytes [14%N]), 10) /\ C51_after_failure = (Ok (Abytes [18%N]), 10) /\ firstn 1 (skipn 9 C51_forty) = [10%N].
Proof. repeat split; vm_compute; reflexivity. Qed.

Print Assumptions C51_reads_right.
Print Assumptions C51_ends.
Print Assumptions C51_past_end_refuted.
Print Assumptions C51_eof_twice_refuted.
Print Assumptions C51_ahead_at_end_refuted.
Print Assumptions C51_damaged_skip_refuted.
