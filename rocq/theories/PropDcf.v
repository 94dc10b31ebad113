(** * PropDcf: C60, configuration files *)
From Coq Require Import List String Ascii.
From Verif Require Import Base DcfModel DcfSpec DcfProof DcfProof2 DcfProof3.
Local Open Scope nat_scope.

(** What makes of a file the arguments are those the manual says: for every file, operation and list of user targets. *)
Theorem C60_arguments_of_a_file : forall op targets f ws, make_args op targets f = Ok ws <-> args_of op targets f ws.
Proof.
  intros op targets f ws. destruct (make_args_eq op targets f) as (t & C & ->). rewrite split_ok. split.
  - intro S. exists t. auto.
  - intros (t' & C' & S). rewrite <- (chosen_fun _ _ _ _ C _ C'). exact S.
Qed.
(** ... and there is one outcome: the words, or Erange when a quote is left open. *)
Theorem C60_one_outcome : forall op targets f, (exists ws, make_args op targets f = Ok ws) \/ (make_args op targets f = Err Erange /\ forall ws, ~ args_of op targets f ws).
Proof.
  intros op targets f. destruct (make_args_eq op targets f) as (t & C & E). destruct (split_total t) as [(ws & S)|S]; [left; exists ws; congruence|right]. split; [congruence|].
  intros ws A. apply C60_arguments_of_a_file in A. congruence.
Qed.
Theorem C60_arguments_unique : forall op targets f ws ws', args_of op targets f ws -> args_of op targets f ws' -> ws = ws'.
Proof. intros op targets f ws ws' A B. apply C60_arguments_of_a_file in A, B. congruence. Qed.
(** A text with hidden parts behaves, for one who skips, reads byte after byte and asks where it is, as a plain file of what is shown. *)
Theorem C60_hidden_parts_do_not_exist : forall f m os, (no_comment f = Ok m \/ exists cibles, config_file cibles f = Ok m) ->
  hdo_all f m {| idx := 0; relicat := 0 |} os = Ok (pdo_all (shown f m) 0 os).
Proof.
  intros f m os H. assert (W : wfm (List.length f) m).
  { destruct H as [H|(cibles & H)]; [destruct (no_comment_ok f) as (m' & E & W & _)|destruct (config_file_ok cibles f) as (m' & E & W & _)]; congruence. }
  apply (hdo_ok f m W). apply (at_start _ _ W).
Qed.
Theorem C60_comments_removed : forall f, exists m, no_comment f = Ok m /\ shown f m = uncomment true [] (lines f).
Proof. intro f. destruct (no_comment_ok f) as (m & E & _ & S). eauto. Qed.
Theorem C60_conditions_applied : forall cibles f t, (exists m, config_file cibles f = Ok m /\ shown f m = t) <-> chosen cibles true (lines f) t.
Proof.
  intros cibles f t. destruct (config_file_ok cibles f) as (m & E & _ & C). split.
  - intros (m' & E' & <-). assert (m' = m) as -> by congruence. exact C.
  - intro C'. exists m. split; [exact E|]. symmetry. exact (chosen_fun _ _ _ _ C _ C').
Qed.
Theorem C60_words : forall t ws, split_in_words t = Ok ws <-> splits t ws.
Proof. exact split_ok. Qed.
(** Any words at all, once quoted, are read back. *)
Theorem C60_quoted_words_come_back : forall ws, split_in_words (concat (map qline ws)) = Ok ws.
Proof. intro ws. apply split_ok, qsplits. Qed.
(** A file made of sections gives the words before the first condition, then those of each section whose condition is the
    operation, "all" or a user target; words may hold anything but an end of line. *)
Theorem C60_sections : forall op targets ws secs, (forall w, In w ws -> ~ In NL w) -> (forall s, In s secs -> name_ok (fst s) /\ forall w, In w (snd s) -> ~ In NL w) ->
  make_args op targets (concat (map qline ws ++ flat_map sec_lines secs)) = Ok (ws ++ flat_map (picked (targets ++ str "all" :: op_targets op)) secs).
Proof. exact sections_ok. Qed.

(** ** Concrete cases *)
Definition nl : string := String (ascii_of_nat 10) EmptyString.
Definition tab : string := String (ascii_of_nat 9) EmptyString.
Definition dq : string := String (ascii_of_nat 34) EmptyString.
Local Open Scope string_scope.
Definition text1 : list N := str ("# a comment" ++ nl ++ "-v -s 10M" ++ nl ++ nl ++ "  # another" ++ nl ++ "create:" ++ nl ++ " -P " ++ dq ++ "my dir" ++ dq ++ nl ++ "extract:" ++ nl ++ "-w" ++ nl ++ "home:" ++ nl ++ "-R /home" ++ nl).
Theorem C60_case : make_args create [str "home"] text1 = Ok [str "-v"; str "-s"; str "10M"; str "-P"; str "my dir"; str "-R"; str "/home"] /\
  make_args extract [] text1 = Ok [str "-v"; str "-s"; str "10M"; str "-w"] /\ make_args create [] (str ("a " ++ dq ++ "b")) = Err Erange.
Proof. split; [vm_compute; reflexivity|]. split; vm_compute; reflexivity. Qed.
Theorem C60_case_sections : make_args create [] (concat (map qline [str "-s"; str "a'b"] ++ flat_map sec_lines [(str "create", [str "#x"]); (str "test", [str "y"])])) = Ok [str "-s"; str "a'b"; str "#x"].
Proof. apply (C60_sections create [] [str "-s"; str "a'b"] [(str "create", [str "#x"]); (str "test", [str "y"])]).
  - intros w [<-|[<-|[]]]; cbn; intuition discriminate.
  - intros s [<-|[<-|[]]]; (split; [cbn; auto|intros w [<-|[]]; cbn; intuition discriminate]).
Qed.

(** ** What one may expect and does not hold *)
(** A space that is a tab disappears inside quotes, while an end of line becomes a space. *)
Theorem C60_tab_in_quotes_lost : split_in_words (str (dq ++ "a" ++ tab ++ "b" ++ dq)) = Ok [str "ab"] /\ split_in_words (str (dq ++ "a" ++ nl ++ "b" ++ dq)) = Ok [str "a b"].
Proof. split; vm_compute; reflexivity. Qed.
(** An escaped character between words does not start one: it is put before the next word, or lost. *)
Theorem C60_escaped_character_between_words : split_in_words (str "\a b") = Ok [str "ab"] /\ split_in_words (str "x \a") = Ok [str "x"] /\ split_in_words (str "x\ b") = Ok [str "x b"].
Proof. split; [vm_compute; reflexivity|]. split; vm_compute; reflexivity. Qed.
(** Quotes inside a word are kept. *)
Theorem C60_quotes_inside_a_word_kept : split_in_words (str ("--key=" ++ dq ++ "a b" ++ dq)) = Ok [str ("--key=" ++ dq ++ "a b" ++ dq)].
Proof. vm_compute. reflexivity. Qed.
(** Comments and conditions are looked for inside quotes too. *)
Theorem C60_quotes_do_not_protect_lines_refuted : exists w, split_in_words (quoted w) = Ok [w] /\ make_args create [] (quoted w) <> Ok [w].
Proof. exists (str ("a" ++ nl ++ "#b")). split; [vm_compute; reflexivity|vm_compute; discriminate]. Qed.
Theorem C60_condition_inside_quotes : make_args create [] (str (dq ++ "a" ++ nl ++ "extract:" ++ nl ++ "b" ++ dq)) = Err Erange /\ split_in_words (str (dq ++ "a" ++ nl ++ "extract:" ++ nl ++ "b" ++ dq)) = Ok [str "a extract: b"].
Proof. split; vm_compute; reflexivity. Qed.
(** A condition that ends the file without an end of line is an argument. *)
Theorem C60_last_condition_needs_an_end_of_line : make_args create [] (str "extract:") = Ok [str "extract:"] /\ make_args create [] (str ("extract:" ++ nl)) = Ok [].
Proof. split; vm_compute; reflexivity. Qed.
(** Reading several bytes at once from a text of several parts does not give what reading them one at a time does. *)
Theorem C60_long_read_refuted : exists f m h' x, no_comment f = Ok m /\ hread f m {| idx := 0; relicat := 0 |} 7 = Ok (h', x) /\ List.length (shown f m) = 9 /\ List.length x = 7 /\ hposition m h' <> 7.
Proof.
  set (f := str ("ab" ++ nl ++ "#c" ++ nl ++ "defgh" ++ nl)). exists f.
  exists [{| debut := 0; longueur := 3; offset := 0 |}; {| debut := 6; longueur := 6; offset := 3 |}], {| idx := 2; relicat := 0 |}, (str ("ab" ++ nl ++ "defg")).
  split; [vm_compute; reflexivity|]. split; [vm_compute; reflexivity|]. split; [vm_compute; reflexivity|]. split; [vm_compute; reflexivity|]. vm_compute. discriminate.
Qed.

Print Assumptions C60_arguments_of_a_file.
Print Assumptions C60_one_outcome.
Print Assumptions C60_arguments_unique.
Print Assumptions C60_hidden_parts_do_not_exist.
Print Assumptions C60_comments_removed.
Print Assumptions C60_conditions_applied.
Print Assumptions C60_words.
Print Assumptions C60_quoted_words_come_back.
Print Assumptions C60_sections.
Print Assumptions C60_case.
Print Assumptions C60_case_sections.
Print Assumptions C60_tab_in_quotes_lost.
Print Assumptions C60_escaped_character_between_words.
Print Assumptions C60_quotes_inside_a_word_kept.
Print Assumptions C60_quotes_do_not_protect_lines_refuted.
Print Assumptions C60_condition_inside_quotes.
Print Assumptions C60_last_condition_needs_an_end_of_line.
Print Assumptions C60_long_read_refuted.
