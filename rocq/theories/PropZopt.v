(** * PropZopt: property C63, the argument of option -z *)
From Coq Require Import List String.
From Verif Require Import Base DeciModel HeaderModel ReadStable ArgModel ArgSpec ArgProof PropArg ZoptModel ZoptSpec ZoptProof.
Open Scope N_scope.

(** ** Numbers *)
Theorem C63_numbers : forall w s v, str2int w s = Ok v <-> integer w s v.
Proof. exact str2int_ok. Qed.
Theorem C63_other_numbers_refused : forall w s, (forall v, ~ integer w s v) <-> str2int w s = Err Erange.
Proof.
  intros w s. split.
  - intro H. destruct (str2int w s) as [v|e] eqn:E; [exfalso; apply (H v), str2int_ok, E|]. f_equal. apply str2int_err in E. exact E.
  - intros E v H. apply str2int_ok in H. congruence.
Qed.
(** Each text stands for one number at most. *)
Theorem C63_one_number : forall w s v v', integer w s v -> integer w s v' -> v = v'.
Proof. intros w s v v' H H'. apply str2int_ok in H, H'. congruence. Qed.
(** A number written with digits only is that number. *)
Theorem C63_plain_numbers : forall w ds, ds <> [] -> digits 10 ds -> number 10 ds < 2 ^ w -> str2int w ds = Ok (number 10 ds).
Proof.
  intros w ds Ne D L. apply str2int_ok. exists [], [], ds, []. rewrite app_nil_r. repeat (split; [auto|]). left. auto.
Qed.

(** ** Names of algorithms *)
Theorem C63_names : forall a c, string2compression a = Ok c <-> named a c.
Proof. exact named_ok. Qed.

(** ** The argument of -z *)
Theorem C63_asked : forall w base arg c n k, 1 < base -> (split_compression w base arg = Ok (c, n, k) <-> asks w base arg c n k).
Proof.
  intros w base arg c n k B. unfold split_compression. split.
  - destruct (split 58 arg) as [|a [|l [|b [|? ?]]]] eqn:S; intro H; try discriminate.
    + destruct (str2int w arg) as [v|e] eqn:E.
      * injection H as <- <- <-. apply as_level, str2int_ok, E.
      * destruct (string2compression arg) as [c'|] eqn:Q; [|discriminate]. injection H as <- <- <-. apply as_algo, named_ok, Q.
    + apply split_spec in S. apply bind_ok_inv in H as (c' & E1 & H). apply bind_ok_inv in H as (n' & E2 & H). injection H as <- <- <-.
      eapply as_two; [exact S|apply algo_ok, E1|apply level_ok, E2].
    + apply split_spec in S. apply bind_ok_inv in H as (c' & E1 & H). apply bind_ok_inv in H as (n' & E2 & H). apply bind_ok_inv in H as (z & E3 & H).
      destruct (N.ltb_spec (2 ^ w - 1) z) as [|L]; [discriminate|]. injection H as <- <- <-. apply C61_sizes in E3; [|exact B].
      eapply as_three; [exact S|apply algo_ok, E1|apply level_ok, E2|exact E3|]. pose proof (N.pow_nonzero 2 w). lia.
  - intros [n' H|c' H|a l c' n' F HA HL|a l b c' n' k' F HA HL HS L].
    + destruct (integer_text _ _ _ H) as [Ne NI]. rewrite (split_one arg Ne NI). apply str2int_ok in H. rewrite H. reflexivity.
    + destruct (named_text _ _ H) as [Ne NI]. rewrite (split_one arg Ne NI). destruct (str2int w arg) as [v|] eqn:E; [apply str2int_ok in E; destruct (not_both _ _ _ _ H E)|].
      apply named_ok in H. rewrite H. reflexivity.
    + apply split_spec in F. rewrite F. apply algo_ok in HA. apply level_ok in HL. rewrite HA. cbn [bind]. rewrite HL. reflexivity.
    + apply split_spec in F. rewrite F. apply algo_ok in HA. apply level_ok in HL. apply C61_sizes in HS; [|exact B]. rewrite HA. cbn [bind]. rewrite HL. cbn [bind]. rewrite HS. cbn [bind].
      destruct (N.ltb_spec (2 ^ w - 1) k'); [lia|reflexivity].
Qed.
(** Anything else is refused with an error shown to the user (never a bug report or worse). *)
Theorem C63_refused : forall w base arg, 1 < base -> (forall c n k, ~ asks w base arg c n k) ->
  split_compression w base arg = Err Erange \/ split_compression w base arg = Err Edeci.
Proof.
  intros w base arg B H. destruct (split_compression w base arg) as [[[c n] k]|e] eqn:E; [exfalso; apply (H c n k), C63_asked; assumption|].
  unfold split_compression in E.
  assert (A : forall a e, algo_field a = Err e -> e = Erange) by (intros [|x a] e' Q; [discriminate|eapply named_err, Q]).
  destruct (split 58 arg) as [|a [|l [|b [|? ?]]]]; try (left; congruence).
  - destruct (str2int w arg); [discriminate|]. destruct (string2compression arg); [discriminate|]. left. congruence.
  - destruct (algo_field a) as [c|e1] eqn:Q; cbn [bind] in E; [|apply A in Q; left; congruence]. destruct (level_field w l c) as [n|e1] eqn:Q2; cbn [bind] in E; [discriminate|apply level_err in Q2; left; congruence].
  - destruct (algo_field a) as [c|e1] eqn:Q; cbn [bind] in E; [|apply A in Q; left; congruence]. destruct (level_field w l c) as [n|e1] eqn:Q2; cbn [bind] in E; [|apply level_err in Q2; left; congruence].
    assert (Z : forall e1, ext_size base b = Err e1 -> e1 = Erange \/ e1 = Edeci).
    { intros e1. unfold ext_size. destruct (rev b) as [|x r]; [discriminate|]. destruct (suffix x) as [p|]; [|intro Y; left; congruence].
      cbv zeta. intro Y. destruct (string_to_int _) as [v|e2] eqn:Q3; cbn [bind] in Y; [discriminate|]. injection Y as <-. eapply sti_err, Q3. }
    destruct (ext_size base b) as [z|e1] eqn:Q3; cbn [bind] in E; [|destruct (Z _ eq_refl); [left|right]; congruence]. destruct (_ <? _); [left; congruence|discriminate].
Qed.
(** An argument asks for one thing at most. *)
Theorem C63_one_meaning : forall w base arg c n k c' n' k', 1 < base -> asks w base arg c n k -> asks w base arg c' n' k' -> c = c' /\ n = n' /\ k = k'.
Proof. intros w base arg c n k c' n' k' B H H'. apply C63_asked in H, H'; try assumption. rewrite H in H'. injection H' as -> -> ->. auto. Qed.
(** With a colon the level is between 1 and 9, except for zstd; the block size fits the system in all cases. *)
Theorem C63_bounds : forall w base arg c n k, 1 < base -> split_compression w base arg = Ok (c, n, k) -> k < 2 ^ w /\ (In 58 arg -> 1 <= n /\ (n <= 9 \/ c = Czstd)).
Proof.
  intros w base arg c n k B H. apply C63_asked in H; [|exact B]. assert (P : 0 < 2 ^ w) by (pose proof (N.pow_nonzero 2 w); lia).
  assert (LV : forall l, level_or_default w l c n -> 1 <= n /\ (n <= 9 \/ c = Czstd)) by (intros l [[_ ->]|(_ & _ & Q)]; [lia|exact Q]).
  destruct H as [n H|c H|a l c n F HA HL|a l b c n k F HA HL HS L].
  - split; [exact P|]. intro I. destruct (integer_text _ _ _ H) as [_ Q]. contradiction.
  - split; [exact P|]. intro I. destruct (named_text _ _ H) as [_ Q]. contradiction.
  - split; [exact P|]. intros _. eapply LV, HL.
  - split; [exact L|]. intros _. eapply LV, HL.
Qed.

(** ** The examples of the manual page *)
Example C63_manual : let z s := split_compression 64 1024 (str s) in
  map z ["9"; "lzo"; "gzip"; "bzip2"; "lzo:6"; "bzip2:2"; "gzip:1"; "xz:6"; "lz4::10k"; "::12000"; "bzip2:8:10k"; "zstd:22"]%string =
  map Ok [(Cgzip, 9, 0); (Clzo, 9, 0); (Cgzip, 9, 0); (Cbzip2, 9, 0); (Clzo, 6, 0); (Cbzip2, 2, 0); (Cgzip, 1, 0); (Cxz, 6, 0); (Clz4, 9, 10240); (Cgzip, 9, 12000); (Cbzip2, 8, 10240); (Czstd, 22, 0)] /\
  map z [""; "12:"; "lzo:12"; "gzip:0"; "gzip:5:10k:2"; "gzip::1Q"; "rar"; "9k"]%string = repeat (Err Erange) 8.
Proof. split; vm_compute; reflexivity. Qed.
(** What the manual page excludes and the program takes: a level alone is not checked, a negative one included; nor is the upper level of zstd. *)
Theorem C63_level_range_refuted : split_compression 64 1024 (str "12") = Ok (Cgzip, 12, 0) /\ split_compression 64 1024 (str "0") = Ok (Cgzip, 0, 0) /\
  split_compression 64 1024 (str "-3") = Ok (Cgzip, 2 ^ 64 - 3, 0) /\ split_compression 64 1024 (str "zstd:23") = Ok (Czstd, 23, 0).
Proof. split; [vm_compute; reflexivity|]. split; [vm_compute; reflexivity|]. split; vm_compute; reflexivity. Qed.
(** The level may be left empty when a block size follows, not at the end of the argument. *)
Theorem C63_last_field_empty_refuted : forall a c, named a c -> forall w base, 1 < base ->
  split_compression w base (a ++ [58; 58]) = Ok (c, 9, 0) /\ split_compression w base (a ++ [58]) = Err Erange.
Proof.
  intros a c H w base B. destruct (named_text _ _ H) as [Ne NI]. split.
  - apply C63_asked; [exact B|]. eapply as_two; [|right; exact H|left; auto]. split; [constructor; [exact NI|constructor; [intros []|constructor]]|]. left. cbn. rewrite <- app_assoc. reflexivity.
  - destruct (split_compression w base (a ++ [58])) as [[[c' n] k]|e] eqn:E.
    + apply C63_asked in E; [|exact B]. exfalso. assert (S : split 58 (a ++ [58]) = [a]) by (apply (C61_last_empty_field_refuted 58 a NI Ne)).
      destruct E as [n I|c' I|a' l c' n F _ _|a' l b c' n k F _ _ _ _].
      * apply integer_text in I as [_ I]. apply I, in_or_app. right. left. reflexivity.
      * apply named_text in I as [_ I]. apply I, in_or_app. right. left. reflexivity.
      * apply C61_lists in F. congruence.
      * apply C61_lists in F. congruence.
    + unfold split_compression in E. rewrite (proj1 (C61_last_empty_field_refuted 58 a NI Ne)) in E. destruct (str2int w (a ++ [58])); [discriminate|]. destruct (string2compression (a ++ [58])); congruence.
Qed.

Print Assumptions C63_numbers.
Print Assumptions C63_other_numbers_refused.
Print Assumptions C63_one_number.
Print Assumptions C63_plain_numbers.
Print Assumptions C63_names.
Print Assumptions C63_asked.
Print Assumptions C63_refused.
Print Assumptions C63_one_meaning.
Print Assumptions C63_bounds.
Print Assumptions C63_manual.
Print Assumptions C63_level_range_refuted.
Print Assumptions C63_last_field_empty_refuted.
