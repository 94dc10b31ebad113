(** * Property C09: elastic buffers are self describing in both directions.

    [shape] is not used in the statements: they speak of the bytes written by dump, the file they are put in and what
    the reader returns. *)
From Verif Require Import Base FileModel ElasticModel ElasticProof.
Open Scope N_scope.

(** exactly [t] bytes are produced, whatever the random draws *)
Theorem C09_exact_size : forall t size r draws e, elastic_create t = Ok t ->
  elastic_dump t size r draws = Ok e -> N.of_nat (length e) = t.
Proof. intros. eapply shape_length, dump_shape; eauto. Qed.
Print Assumptions C09_exact_size.

(** legal sizes are 1 .. 254^4-1; a too small output buffer is rejected *)
Theorem C09_legal_sizes : forall t, elastic_create t = (if (1 <=? t) && (t <=? 254 ^ 4 - 1) then Ok t else Err Erange).
Proof.
  intro t. unfold elastic_create, max_length. change (254 ^ 4) with 4162314256. change (254 * 254 * 254 * 254) with 4162314256.
  destruct (N.eqb_spec t 0), (N.ltb_spec (4162314256 - 1) t), (N.leb_spec 1 t), (N.leb_spec t (4162314256 - 1)); cbn [andb]; auto; lia.
Qed.
Print Assumptions C09_legal_sizes.
Theorem C09_small_buffer_rejected : forall t size r draws, size < t -> elastic_dump t size r draws = Err Erange.
Proof. intros. unfold elastic_dump. destruct (N.ltb_spec size t); [reflexivity|lia]. Qed.
Print Assumptions C09_small_buffer_rejected.

(** dump never fails otherwise, provided the generator eventually gives enough bytes that are not marks *)
Definition acceptable (r : N) : bool := let b := r mod 256 in negb ((b =? 88) || (b =? 255) || (b =? 254)).
Theorem C09_dump_succeeds : forall t size r draws, elastic_create t = Ok t -> t <= size ->
  t <= N.of_nat (length (filter acceptable draws)) -> exists e, elastic_dump t size r draws = Ok e.
Proof.
  intros t size r draws C Hs Hd. unfold elastic_create in C.
  destruct (N.eqb_spec t 0); [discriminate|]. destruct (N.ltb_spec max_length t); [discriminate|].
  unfold elastic_dump. destruct (N.ltb_spec size t); [lia|]. destruct (N.ltb_spec 2 t).
  - pose proof (size_digits_small t ltac:(lia) ltac:(lia)) as S1.
    set (len := N.of_nat (length (size_digits t))) in *. destruct (N.ltb_spec t (len + 2)); [lia|].
    set (cur := if len + 2 <? t then r mod (t - (len + 2)) else 0) in *.
    assert (Hc : cur + len + 2 <= t).
    { unfold cur. destruct (N.ltb_spec (len + 2) t); [|lia]. assert (r mod (t - (len + 2)) < t - (len + 2)) by (apply N.mod_lt; lia). lia. }
    change (filter acceptable draws) with (filter ok_draw draws) in Hd.
    destruct (fill_total (N.to_nat cur) draws) as (l1 & q & E1 & L1); [lia|].
    rewrite E1. cbn [bind].
    destruct (fill_total (N.to_nat (t - (cur + len + 2))) q) as (l2 & q2 & E2 & _); [rewrite L1; lia|].
    rewrite E2. cbn [bind]. eauto.
  - destruct (N.eqb_spec t 1); [eauto|]. destruct (N.eqb_spec t 2); [eauto|lia].
Qed.
Print Assumptions C09_dump_succeeds.

(** reading forward from the first byte, whatever lies before and after *)
Theorem C09_read_forward : forall t size r draws e pre post, elastic_create t = Ok t ->
  elastic_dump t size r draws = Ok e -> t < 2 ^ 31 ->
  elastic_read forward false (mk_file (pre ++ e ++ post) (length pre)) = Ok (t, mk_file (pre ++ e ++ post) (length pre + length e)).
Proof.
  intros t size r draws e pre post C D Ht. change (2 ^ 31) with 2147483648 in Ht.
  pose proof (dump_shape _ _ _ _ _ C D) as S. pose proof (shape_length _ _ S) as L.
  destruct (elastic_read_shape forward (mk_file (pre ++ e ++ post) (length pre)) t e post) as (c & P & Q & _ & ->); auto.
  - unfold in_file. cbn. rewrite app_length. lia.
  - unfold max_length. lia.
  - cbn [view fdata fpos]. apply skipn_app_exact.
  - rewrite final_skip_ok; [|lia|lia| |discriminate].
    + rewrite moved_moved. unfold moved. cbn [fdata fpos]. do 3 f_equal. lia.
    + unfold in_file, moved. cbn [fdata fpos]. rewrite !app_length. lia.
Qed.
Print Assumptions C09_read_forward.

(** reading backward from just after the last byte *)
Theorem C09_read_backward : forall t size r draws e pre post, elastic_create t = Ok t ->
  elastic_dump t size r draws = Ok e -> t < 2 ^ 31 ->
  elastic_read backward false (mk_file (pre ++ e ++ post) (length pre + length e)) = Ok (t, mk_file (pre ++ e ++ post) (length pre)).
Proof.
  intros t size r draws e pre post C D Ht. change (2 ^ 31) with 2147483648 in Ht.
  pose proof (dump_shape _ _ _ _ _ C D) as S. pose proof (shape_length _ _ S) as L.
  destruct (elastic_read_shape backward (mk_file (pre ++ e ++ post) (length pre + length e)) t e (rev pre)) as (c & P & Q & _ & ->); auto.
  - unfold in_file. cbn. rewrite !app_length. lia.
  - unfold max_length. lia.
  - cbn [view fdata fpos oriented]. rewrite app_assoc, <- app_length, firstn_app_exact, rev_app_distr. reflexivity.
  - rewrite final_skip_ok; [|lia|lia| |].
    + rewrite moved_moved. unfold moved. cbn [fdata fpos]. do 3 f_equal. lia.
    + unfold in_file, moved. cbn [fdata fpos]. rewrite !app_length. lia.
    + intros _. cbn [moved fdata fpos]. lia.
Qed.
Print Assumptions C09_read_backward.

(** same from memory, for any buffer shorter than 4 GiB *)
Theorem C09_buffer_forward : forall t size r draws e post, elastic_create t = Ok t ->
  elastic_dump t size r draws = Ok e -> N.of_nat (length (e ++ post)) < 2 ^ 32 - 1 ->
  elastic_read_buffer forward false (e ++ post) = Ok t.
Proof.
  intros t size r draws e post C D Hl. pose proof (dump_shape _ _ _ _ _ C D) as S.
  apply (elastic_read_buffer_shape forward (e ++ post) t e post); auto.
  unfold elastic_create in C. destruct (t =? 0); [discriminate|]. destruct (N.ltb_spec max_length t); [discriminate|lia].
Qed.
Print Assumptions C09_buffer_forward.
Theorem C09_buffer_backward : forall t size r draws e pre, elastic_create t = Ok t ->
  elastic_dump t size r draws = Ok e -> N.of_nat (length (pre ++ e)) < 2 ^ 32 - 1 ->
  elastic_read_buffer backward false (pre ++ e) = Ok t.
Proof.
  intros t size r draws e pre C D Hl. pose proof (dump_shape _ _ _ _ _ C D) as S.
  apply (elastic_read_buffer_shape backward (pre ++ e) t e (rev pre)); auto.
  - unfold elastic_create in C. destruct (t =? 0); [discriminate|]. destruct (N.ltb_spec max_length t); [discriminate|lia].
  - cbn [oriented]. apply rev_app_distr.
Qed.
Print Assumptions C09_buffer_backward.

(** the restriction t < 2^31 is needed: "f.skip_relative(taille - count)" converts the distance to a signed 32 bits
    integer. Every buffer of 2^31 + 6 bytes or more whose information is at its start (rand() = 0) is left at a wrong
    place by the forward reader. *)
Theorem C09_huge_buffer_refuted : forall t draws e post, elastic_create t = Ok t -> 2 ^ 31 + 6 <= t ->
  elastic_dump t t 0 draws = Ok e ->
  exists f, elastic_read forward false (mk_file (e ++ post) 0) = Ok (t, f) /\ fpos f <> length e.
Proof.
  intros t draws e post C Ht D. change (2 ^ 31) with 2147483648 in Ht.
  pose proof (dump_shape _ _ _ _ _ C D) as S. pose proof (shape_length _ _ S) as L.
  assert (M : t <= max_length).
  { unfold elastic_create in C. destruct (t =? 0); [discriminate|]. destruct (N.ltb_spec max_length t); [discriminate|lia]. }
  pose proof max_length_u32 as M32.
  destruct (elastic_read_shape forward (mk_file (e ++ post) 0) t e post) as (c & P & Q & K & E); auto.
  { unfold in_file. cbn. lia. }
  rewrite E. eexists. split; [reflexivity|].
  destruct K as [K|(l1 & ds & l2 & He & F1 & F2 & Ld & Hc)]; [lia|].
  assert (l1 = []).
  { (* rand() = 0 puts the mark first *)
    unfold elastic_dump in D. destruct (N.ltb_spec t t); [lia|]. destruct (N.ltb_spec 2 t); [|lia].
    destruct (t <? N.of_nat (length (size_digits t)) + 2); [discriminate|].
    assert (Z : (if N.of_nat (length (size_digits t)) + 2 <? t then 0 mod (t - (N.of_nat (length (size_digits t)) + 2)) else 0) = 0).
    { destruct (N.ltb_spec (N.of_nat (length (size_digits t)) + 2) t); reflexivity. }
    rewrite Z in D. change (fill (N.to_nat 0) draws) with (@Ok (list N * list N) ([], draws)) in D. cbn [bind] in D.
    destruct (fill _ draws) as [[q1 q2]|]; cbn [bind] in D; [|discriminate]. injection D as D. rewrite He in D.
    destruct l1 as [|x l1]; auto. exfalso. pose proof (Forall_inv F1) as (_ & _ & F).
    apply F. apply (f_equal (hd 0)) in D. cbn in D. congruence. }
  subst l1. cbn [length] in Hc.
  assert (Hlt : N.of_nat c < t) by lia.
  unfold final_skip. destruct (N.ltb_spec (N.of_nat c) t); [|lia]. unfold moved. cbn [fdata fpos].
  unfold g_skip_relative. cbn [fpos fdata].
  assert (B : (to_S_I (Z.of_N (t - N.of_nat c)) < 0)%Z) by (unfold to_S_I; lia).
  clear He E.
  destruct (Z.ltb_spec (Z.of_nat (0 + c) + to_S_I (Z.of_N (t - N.of_nat c))) 0); cbn [snd fpos]; generalize dependent (to_S_I (Z.of_N (t - N.of_nat c))); intros; lia.
Qed.
Print Assumptions C09_huge_buffer_refuted.

(** examples meeting the hypotheses: sizes 1, 2, 3 and 300 *)
Example C09_ex1 : elastic_dump 1 1 7 [] = Ok [88]. Proof. reflexivity. Qed.
Example C09_ex3 : elastic_dump 3 3 7 [] = Ok [255; 3; 254]. Proof. reflexivity. Qed.
Example C09_ex300 : match elastic_dump 300 1000 12345 (repeat 88 20 ++ repeat 1 400) with
  | Ok e => length e = 300%nat /\ elastic_read forward false (mk_file ([255; 1] ++ e ++ [88; 254]) 2) = Ok (300, mk_file ([255; 1] ++ e ++ [88; 254]) 302)
            /\ elastic_read backward false (mk_file ([255; 1] ++ e ++ [88; 254]) 302) = Ok (300, mk_file ([255; 1] ++ e ++ [88; 254]) 2)
  | Err _ => False end.
Proof. vm_compute. auto. Qed.
