(** * PropFsa: property C53, lists of filesystem specific attributes *)
From Coq Require Import List.
From Verif Require Import Base InfinintModel InfinintProof2 DatetimeModel PropDatetime FsaModel FsaSpec FsaProof.
Local Open Scope N_scope.

(** ** A list holds at most one attribute of each kind *)
Theorem C53_one_per_kind : forall l i j a b, fsa_list l ->
  nth_error l i = Some a -> nth_error l j = Some b -> same_kind a b -> i = j.
Proof.
  intros l i j a b H Hi Hj K. apply fsa_list_ok in H. destruct H as [S _]. apply key_kind in K.
  destruct (Nat.lt_trichotomy i j) as [L|[L|L]]; [|exact L|].
  - pose proof (sl_nth l S _ _ _ _ Hi Hj L). lia.
  - pose proof (sl_nth l S _ _ _ _ Hj Hi L). lia.
Qed.

(** Reading the attributes of a file loses none of them. *)
Theorem C53_sort : forall l a, In a (sort l) <-> In a l.
Proof. intros. apply sort_in. Qed.

(** Adding an attribute replaces the one of the same kind and leaves the others. *)
Theorem C53_add : forall l x a, fsa_list l ->
  (In a (add l x) <-> a = x \/ (In a l /\ ~ same_kind a x)).
Proof.
  intros l x a H. apply fsa_list_ok in H. destruct H as [S _]. unfold add. rewrite sort_in.
  destruct (priv_add_ok l x S) as [_ M]. rewrite M. rewrite <- key_kind. reflexivity.
Qed.

(** Merging: everything of the second list, and of the first what the second does not have. *)
Theorem C53_plus : forall l m a, fsa_list l -> fsa_list m ->
  (In a (plus l m) <-> In a m \/ (In a l /\ forall b, In b m -> ~ same_kind b a)).
Proof.
  intros l m a H H'. apply fsa_list_ok in H, H'. destruct H as [S _], H' as [S' _]. unfold plus. rewrite sort_in.
  destruct (fold_add_ok m l S S') as [_ M]. rewrite M. split; (intros [Q|[Q R]]; [left; exact Q|right; split; [exact Q|]]); intros b Hb K; apply (R b Hb); apply key_kind; exact K.
Qed.

(** Looking for a kind finds it if and only if it is there. *)
Theorem C53_find : forall l f n a, fsa_list l ->
  (find l f n = Some a <-> In a l /\ fam a = f /\ ntr a = n).
Proof.
  intros l f n a H. apply fsa_list_ok in H. destruct H as [S _]. unfold find.
  set (x := {| fam := f; ntr := n; v := VBool true |}).
  destruct (search_ok l x S) as (b & i & -> & T & Fa). destruct b.
  - destruct (T eq_refl) as (c & Hc & K). rewrite Hc. split.
    + intro E. inversion E; subst. split; [eapply nth_error_In, Hc|]. apply key_kind in K. exact K.
    + intros (Ha & E1 & E2). f_equal. apply (sl_kind l S); [eapply nth_error_In, Hc|exact Ha|].
      rewrite K. symmetry. apply key_kind. split; assumption.
  - destruct (Fa eq_refl) as (_ & Ne). split; [discriminate|]. intros (Ha & E1 & E2). exfalso.
    apply (Ne a Ha). apply key_kind. split; assumption.
Qed.

Theorem C53_immutable : forall l, fsa_list l ->
  exists b, has_linux_immutable_set l = Ok b /\
    (b = true <-> In {| fam := ExtX; ntr := Immutable; v := VBool true |} l).
Proof.
  intros l H. unfold has_linux_immutable_set. pose proof (fsa_list_ok l H) as [_ T]. rewrite Forall_forall in T.
  destruct (find l ExtX Immutable) as [a|] eqn:E.
  - apply (C53_find l) in E; [|exact H]. destruct E as (Ha & E1 & E2). specialize (T a Ha). unfold typed in T. rewrite E2 in T.
    destruct T as (b & V). rewrite V. exists b. split; [reflexivity|]. split.
    + intros ->. destruct a; cbn in *. congruence.
    + intro Q. assert (X : find l ExtX Immutable = Some a) by (apply C53_find; auto).
      assert (Y : find l ExtX Immutable = Some {| fam := ExtX; ntr := Immutable; v := VBool true |}) by (apply C53_find; auto).
      rewrite X in Y. injection Y as ->. cbn in V. congruence.
  - exists false. split; [reflexivity|]. split; [discriminate|]. intro Q.
    assert (Y : find l ExtX Immutable = Some {| fam := ExtX; ntr := Immutable; v := VBool true |}) by (apply C53_find; auto).
    congruence.
Qed.

(** ** Comparison (dar -d): the list of the archive against the list of the file *)
(** When the file has some attribute, a positive answer means exactly that each attribute of
    the archive in the scope is present in the file with the same value. *)
Theorem C53_included : forall l m scope, fsa_list l -> fsa_list m -> m <> [] ->
  (is_included_in l m scope = Ok true <-> forall a, In a l -> In (fam a) scope -> In a m).
Proof.
  intros l m scope H H' Ne. apply fsa_list_ok in H, H'. destruct H as [S _], H' as [S' _].
  destruct (included_spec scope l S m S' Ne) as [[E A]|[E (a & Ha & Sa & Na)]].
  - split; [|auto]. intros _ a Ha Sa. apply A; [exact Ha|]. apply in_scope_iff, Sa.
  - split.
    + intro Q. destruct E as [E|E]; rewrite E in Q; discriminate.
    + intro Q. exfalso. apply Na, Q; [exact Ha|]. apply in_scope_iff, Sa.
Qed.

(** No other outcome than yes, no, or reading beyond the end of the vector, and the last two
    only for a file that lacks an attribute, or has none at all. *)
Theorem C53_included_outcomes : forall l m scope, fsa_list l -> fsa_list m -> is_included_in l m scope <> Ok true ->
  (is_included_in l m scope = Ok false \/ is_included_in l m scope = Err UB) /\
  (m = [] \/ exists a, In a l /\ In (fam a) scope /\ ~ In a m).
Proof.
  intros l m scope H H' Q. apply fsa_list_ok in H, H'. destruct H as [S _], H' as [S' _].
  destruct m as [|y m'].
  - destruct l as [|a l]; cbn in *; [congruence|]. auto.
  - destruct (included_spec scope l S (y :: m') S' ltac:(discriminate)) as [[E _]|[E (a & Ha & Sa & Na)]]; [contradiction|].
    split; [exact E|]. right. exists a. split; [exact Ha|]. split; [apply in_scope_iff, Sa|exact Na].
Qed.

(** The end of the vector is read whenever an attribute in the scope comes after all of those
    of a file that has all the preceding ones. *)
Theorem C53_included_overrun : forall l m scope a, fsa_list (l ++ [a]) -> fsa_list m -> m <> [] -> In (fam a) scope ->
  (forall b, In b l -> In (fam b) scope -> In b m) -> (forall b, In b m -> fsa_lt b a = true) ->
  is_included_in (l ++ [a]) m scope = Err UB.
Proof.
  intros l m scope a H H' Ne Sc Hl Hm. apply fsa_list_ok in H, H'. destruct H as [S _], H' as [S' _].
  assert (Hm' : forall b, In b m -> key b < key a) by (intros b Hb; specialize (Hm b Hb); rewrite fsa_lt_key in Hm; apply N.ltb_lt in Hm; exact Hm).
  clear Hm. revert m S' Ne Hl Hm'. induction l as [|b l IH]; intros m S' Ne Hl Hm.
  - cbn [app is_included_in]. destruct m as [|y m0] eqn:EM; [congruence|]. rewrite <- EM in *.
    apply in_scope_iff in Sc. rewrite Sc. destruct (advance_spec a m S' Ne) as [(pre & r & post & E & A & B & D)|[A B]].
    + exfalso. assert (In r m) by (rewrite E; apply in_or_app; right; left; reflexivity). specialize (Hm r H). lia.
    + rewrite A. reflexivity.
  - cbn [app] in S. inversion S as [|? ? Sl Fl]; subst. cbn [app is_included_in]. destruct m as [|y m0] eqn:EM; [congruence|]. rewrite <- EM in *.
    rewrite Forall_forall in Fl.
    destruct (in_scope scope (fam b)) eqn:SB.
    + assert (Hb : In b m) by (apply Hl; [left; reflexivity|apply in_scope_iff, SB]).
      destruct (advance_spec b m S' Ne) as [(pre & r & post & E & A & B & D)|[A B]].
      2:{ specialize (B b Hb). lia. }
      rewrite A. cbn [bind].
      assert (Sp : sl (r :: post)) by (rewrite E in S'; eapply sl_suffix, S').
      assert (r = b).
      { rewrite E in Hb. apply in_app_or in Hb. destruct Hb as [Hb|[Hb|Hb]]; [specialize (B b Hb); lia|exact Hb|].
        inversion Sp as [|? ? _ Fp]; subst. rewrite Forall_forall in Fp. specialize (Fp b Hb). lia. }
      subst r. rewrite (proj2 (fsa_eq_iff b b) eq_refl). apply IH; [exact Sl|exact Sp|discriminate| |].
      * intros c Hc Sc'. specialize (Hl c (or_intror Hc) Sc'). rewrite E in Hl. apply in_app_or in Hl. destruct Hl as [Hl|Hl]; [|exact Hl].
        specialize (B c Hl). specialize (Fl c (in_or_app _ _ _ (or_introl Hc))). lia.
      * intros c Hc. apply Hm. rewrite E. apply in_or_app. right. exact Hc.
    + apply IH; [exact Sl|exact S'|exact Ne| |exact Hm]. intros c Hc. apply Hl. right. exact Hc.
Qed.

(** A file with no attribute at all is said to differ, even for attributes out of the scope. *)
Theorem C53_included_empty : forall l scope, l <> [] -> is_included_in l [] scope = Ok false.
Proof. intros [|a l] scope H; [congruence|reflexivity]. Qed.

(** ** Storage *)
Theorem C53_roundtrip : forall l, fsa_list l -> exists bytes, write l = Ok bytes /\
  forall ver rest, 9 <= ver -> read ver (bytes ++ rest) = Ok (l, rest).
Proof.
  intros l H. apply fsa_list_ok in H. destruct H as [S T].
  destruct (write_read l S T 9 [] ltac:(lia)) as (b & W & _). exists b. split; [exact W|].
  intros ver rest V. destruct (write_read l S T ver rest V) as (b' & W' & R). rewrite W in W'. injection W' as <-. exact R.
Qed.

(** The announced size is short of one byte for each date in whole seconds. *)
Theorem C53_storage_size : forall l, exists s bytes, storage_size l = Ok s /\ write l = Ok bytes /\
  N.of_nat (length bytes) = s + whole_seconds l.
Proof.
  intro l. destruct (sizes_ok l) as (s & b & E & W & L). unfold storage_size, write. rewrite E, W. cbn [bind].
  eexists _, _. split; [reflexivity|]. split; [reflexivity|]. rewrite app_length. lia.
Qed.

(** Whatever is read, an exception other than the two announced never comes out, and what was
    read never makes the library report a bug in itself. *)
Lemma dt_read_err ver f e : dt_read ver f = Err e -> e = Erange.
Proof.
  unfold dt_read. destruct (ver <? 9).
  - cbn [bind]. destruct (readN f) as [[s g]|e0] eqn:R; cbn [bind].
    + change (unit_lt tu_s tu_s) with false. cbn [bind]. destruct (C19_build s 0 tu_s) as (d & E & _). rewrite E. discriminate.
    + intro H. inversion H; subst. eapply readN_only_erange; eauto.
  - destruct (read1 f) as [[c g0]|]; [|cbn; congruence].
    destruct (char_unit c) as [u|e0] eqn:CU; cbn [bind].
    + destruct (readN g0) as [[s g]|e0] eqn:R; cbn [bind].
      * destruct (unit_lt u tu_s).
        -- destruct (readN g) as [[s' g']|e0] eqn:R2; cbn [bind].
           ++ destruct (C19_build s s' u) as (d & E & _). rewrite E. discriminate.
           ++ intro H. inversion H; subst. eapply readN_only_erange; eauto.
        -- cbn [bind]. destruct (C19_build s 0 u) as (d & E & _). rewrite E. discriminate.
      * intro H. inversion H; subst. eapply readN_only_erange; eauto.
    + unfold char_unit in CU. intro H. inversion H; subst. destruct (c =? 110); [discriminate|]. destruct (c =? 115); [discriminate|]. destruct (c =? 117); [discriminate|]. congruence.
Qed.

Lemma sig_nat_err c d e : sig_nat c d = Err e -> e = Erange.
Proof.
  unfold sig_nat. destruct ((c =? 97) && (d =? 97)); [discriminate|]. destruct (c =? 98); [|congruence].
  repeat (match goal with |- context [match ?x with _ => _ end] => is_var x; destruct x; try discriminate; try congruence end).
Qed.

Lemma read_one_err ver f e : read_one ver f = Err e -> e = Erange \/ e = Edata.
Proof.
  unfold read_one. destruct f as [|c f1]; [intro H; inversion H; auto|].
  destruct (sig_fam c) as [fa|e0] eqn:SF; cbn [bind].
  2:{ intro H. inversion H; subst. unfold sig_fam in SF. destruct (c =? 104); [discriminate|]. destruct (c =? 108); [discriminate|]. inversion SF. auto. }
  destruct f1 as [|d [|e1 f2]]; try (intro H; inversion H; auto; fail).
  destruct (sig_nat d e1) as [na|e0] eqn:SN; cbn [bind].
  2:{ intro H. inversion H; subst. left. eapply sig_nat_err; eauto. }
  assert (RB : forall e', read_bool f2 = Err e' -> e' = Erange \/ e' = Edata).
  { intro e'. destruct f2 as [|y r]; cbn; [intro H; inversion H; auto|]. destruct (y =? 84); [discriminate|]. destruct (y =? 70); [discriminate|]. intro H; inversion H; auto. }
  destruct na.
  1: { destruct (dt_read ver f2) as [[t f3]|e0] eqn:D; cbn [bind]; [discriminate|]. intro H. inversion H; subst. left. eapply dt_read_err; eauto. }
  all: destruct (read_bool f2) as [[x f3]|e0] eqn:R; cbn [bind]; [discriminate|]; intro H; inversion H; subst; apply RB; reflexivity.
Qed.

Theorem C53_damaged : forall ver f,
  (exists e, read ver f = Err e /\ (e = Erange \/ e = Edata)) \/
  (exists l rest b, read ver f = Ok (l, rest) /\ has_linux_immutable_set l = Ok b).
Proof.
  intros ver f. destruct (read ver f) as [[l rest]|e] eqn:R.
  - right. exists l, rest. unfold read in R. destruct (readN f) as [[n g]|]; [|discriminate]. cbn [bind] in R.
    destruct (read_loop (N.to_nat n) ver g) as [[l0 g']|] eqn:L; [|discriminate]. cbn [bind] in R. inversion R; subst.
    apply read_loop_kind in L. unfold has_linux_immutable_set, find.
    set (x := {| fam := ExtX; ntr := Immutable; v := VBool true |}).
    assert (B : forall fuel t mn mx i, bsearch fuel t x mn mx = (true, i) -> exists a, nth_error t i = Some a /\ same_type a x = true).
    { induction fuel as [|fuel IH]; intros t mn mx i; cbn [bsearch]; [discriminate|].
      destruct (nth_error t (Nat.div2 (mn + mx))) as [u|] eqn:T; [|discriminate].
      match goal with |- (if ?c then _ else _) = _ -> _ => destruct c end; [apply IH|].
      match goal with |- ((_ && match nth_error _ ?i' with _ => _ end), _) = _ -> _ => set (ii := i') end.
      intro Q. injection Q as Q1 <-. apply andb_true_iff in Q1. destruct Q1 as [_ Q1]. destruct (nth_error t ii) as [w|] eqn:Z; [|discriminate]. eauto. }
    destruct (binary_search (sort l0) x) as [bo i] eqn:BS. destruct bo; [|eauto].
    assert (Q : exists a, nth_error (sort l0) i = Some a /\ same_type a x = true).
    { unfold binary_search in BS. destruct (sort l0) eqn:SS; [discriminate|]. eapply B, BS. }
    destruct Q as (a & Ha & ST). rewrite Ha. rewrite Forall_forall in L. specialize (L a (proj1 (sort_in _ _) (nth_error_In _ _ Ha))).
    rewrite same_type_key, N.eqb_eq, key_kind in ST. destruct ST as [_ ST]. cbn in ST. rewrite ST in L. destruct L as (b & ->). eauto.
  - left. exists e. split; [reflexivity|]. unfold read in R. destruct (readN f) as [[n g]|e0] eqn:RN; cbn [bind] in R.
    2:{ inversion R; subst. left. eapply readN_only_erange; eauto. }
    destruct (read_loop (N.to_nat n) ver g) as [[l0 g']|e0] eqn:L; cbn [bind] in R; [discriminate|]. inversion R; subst.
    clear R RN. revert g L. induction (N.to_nat n) as [|k IH]; intros g L; cbn [read_loop] in L; [discriminate|].
    destruct (read_one ver g) as [[a g1]|e1] eqn:R1; cbn [bind] in L.
    + destruct (read_loop k ver g1) as [[l' g2]|e1] eqn:R2; cbn [bind] in L; [discriminate|]. inversion L; subst. eapply IH; eauto.
    + inversion L; subst. eapply read_one_err; eauto.
Qed.

(** ** Restoring the Linux flags of a file *)
Definition all_ok : kenv := {| k_get := true; k_set1 := true; k_capa_immut := true; k_set2 := true; k_capa_sys := true; k_set3 := true |}.

(** The flag of Linux treated by a pass: EXT2_IMMUTABLE_FL (bit 4) by the second one only. *)
Lemma W_wants imm l i b : W imm l i b <-> wants l i b /\ (i = 4 <-> imm = true).
Proof.
  unfold W, wants. split.
  - intros (a & H1 & H2 & H3 & H4 & H5). split; [exists a; auto|]. subst imm. destruct (ntr a); cbn in *; try discriminate; injection H3 as <-; split; intro; congruence.
  - intros ((a & H1 & H2 & H3 & H4) & Q). exists a. do 4 (split; [assumption|]).
    destruct (ntr a); cbn in *; try discriminate; injection H3 as <-; destruct imm; try reflexivity; exfalso; destruct Q as [Q1 Q2]; try (specialize (Q2 eq_refl); discriminate); specialize (Q1 eq_refl); discriminate.
Qed.

(** With the permission to do so, the flags recorded get their value, the others are not
    touched, and the answer tells whether something changed. *)
Theorem C53_flags : forall imm l orig, fsa_list l -> exists out r, set_extX imm l all_ok orig = (out, Ok r) /\
  (forall i b, wants l i b -> (i = 4 <-> imm = true) -> N.testbit out i = b) /\
  (forall i, (i = 4 <-> imm = false) \/ (forall b, ~ wants l i b) -> N.testbit out i = N.testbit orig i) /\
  (r = true <-> out <> orig).
Proof.
  intros imm l orig H. apply fsa_list_ok in H. destruct H as [S _].
  destruct (set_extX_spec imm l all_ok orig S) as (out & r & E & _ & R & K).
  destruct (K eq_refl eq_refl eq_refl eq_refl eq_refl eq_refl) as ((b & ->) & K1 & K2).
  exists out, b. split; [exact E|]. split; [|split].
  - intros i c Wc Q. apply K1, W_wants. auto.
  - intros i Q. apply K2. intros c Wc. apply W_wants in Wc. destruct Wc as [Wc Q'].
    destruct Q as [Q|Q]; [|eapply Q; eauto]. destruct imm, (N.eq_dec i 4); destruct Q, Q'; intuition congruence.
  - destruct R as [[R _]|(b' & R & RR)]; [discriminate|]. injection R as <-. exact RR.
Qed.

(** The two passes of a restoration give each recorded flag its value. *)
Theorem C53_two_passes : forall l orig, fsa_list l -> exists f r g s,
  set_extX false l all_ok orig = (f, Ok r) /\ set_extX true l all_ok f = (g, Ok s) /\
  (forall i b, wants l i b -> N.testbit g i = b) /\
  (forall i, (forall b, ~ wants l i b) -> N.testbit g i = N.testbit orig i).
Proof.
  intros l orig H. destruct (C53_flags false l orig H) as (f & r & E & F1 & F2 & _).
  destruct (C53_flags true l f H) as (g & s & E' & G1 & G2 & _).
  exists f, r, g, s. split; [exact E|]. split; [exact E'|]. split.
  - intros i b Wb. destruct (N.eq_dec i 4) as [D|D].
    + apply G1; [exact Wb|tauto].
    + rewrite G2 by (left; split; intro; congruence). apply F1; [exact Wb|split; intro; congruence].
  - intros i Q. rewrite G2 by (right; exact Q). apply F2. right. exact Q.
Qed.

(** Whatever call fails or is denied, no flag takes a value that was neither its own nor
    the recorded one; an exception means nothing was changed, and the answer is right. *)
Theorem C53_flags_failures : forall imm l k orig, fsa_list l -> exists out r, set_extX imm l k orig = (out, r) /\
  (forall i, N.testbit out i = N.testbit orig i \/ (wants l i (N.testbit out i) /\ (i = 4 <-> imm = true))) /\
  ((r = Err Erange /\ out = orig) \/ exists b, r = Ok b /\ (b = true <-> out <> orig)).
Proof.
  intros imm l k orig H. apply fsa_list_ok in H. destruct H as [S _].
  destruct (set_extX_spec imm l k orig S) as (out & r & E & B & R & _). exists out, r. split; [exact E|]. split; [|exact R].
  intro i. destruct (B i) as [Q|Q]; [left; exact Q|right]. apply W_wants, Q.
Qed.

(** ** Instances *)
Definition ex_a := {| fam := ExtX; ntr := Immutable; v := VBool true |}.
Definition ex_b := {| fam := ExtX; ntr := No_dump; v := VBool false |}.
Definition ex_c := {| fam := Hfs; ntr := Creation_date; v := VTime (DT 100 tu_s) |}.
Definition ex_d := {| fam := ExtX; ntr := No_dump; v := VBool true |}.
Definition ex_l := add (add (add [] ex_a) ex_b) ex_c.
Lemma ex_l_ok : fsa_list ex_l.
Proof.
  unfold ex_l. repeat apply fl_add; try apply fl_empty; cbn; eauto. eexists. split; [reflexivity|]. constructor.
Qed.
Example C53_ex1 : ex_l = [ex_c; ex_b; ex_a] /\ plus ex_l (add [] ex_d) = [ex_c; ex_d; ex_a].
Proof. split; reflexivity. Qed.
Example C53_ex2 : is_included_in (add [] ex_b) ex_l [Hfs; ExtX] = Ok true /\ is_included_in ex_l (add [] ex_b) [Hfs; ExtX] = Ok false
  /\ is_included_in ex_l (add [] ex_b) [ExtX] = Err UB /\ is_included_in (add [] ex_c) [] [ExtX] = Ok false.
Proof. repeat split. Qed.
Example C53_ex3 : exists s bytes, storage_size ex_l = Ok s /\ write ex_l = Ok bytes /\ N.of_nat (length bytes) = s + 1.
Proof. eexists _, _. split; [reflexivity|]. split; [reflexivity|]. vm_compute. reflexivity. Qed.
Example C53_ex4 : set_extX false ex_l all_ok 64 = (0, Ok true) /\ set_extX true ex_l all_ok 0 = (16, Ok true).
Proof. split; reflexivity. Qed.

Print Assumptions C53_one_per_kind.
Print Assumptions C53_sort.
Print Assumptions C53_add.
Print Assumptions C53_plus.
Print Assumptions C53_find.
Print Assumptions C53_immutable.
Print Assumptions C53_included.
Print Assumptions C53_included_outcomes.
Print Assumptions C53_included_overrun.
Print Assumptions C53_included_empty.
Print Assumptions C53_roundtrip.
Print Assumptions C53_storage_size.
Print Assumptions C53_damaged.
Print Assumptions C53_flags.
Print Assumptions C53_two_passes.
Print Assumptions C53_flags_failures.
