(** * Property C15: slice names. *)
From Verif Require Import Base DeciModel DeciProof SarNameModel.
Open Scope N_scope.

Lemma is_prefix_spec : forall p s, is_prefix p s = true <-> exists r, s = p ++ r.
Proof.
  induction p as [|a p IH]; intros s; cbn [is_prefix].
  - split; [intros _; exists s; reflexivity|reflexivity].
  - destruct s as [|b s]; [split; [discriminate|intros (r & E); discriminate]|].
    rewrite andb_true_iff, N.eqb_eq, IH. split.
    + intros (-> & r & ->). exists r. reflexivity.
    + intros (r & E). cbn in E. injection E as -> ->. eauto.
Qed.
Lemma is_suffix_spec : forall p s, is_suffix p s = true <-> exists r, s = r ++ p.
Proof.
  intros p s. unfold is_suffix. rewrite is_prefix_spec. split; intros (r & E).
  - exists (rev r). rewrite <- (rev_involutive s), E, rev_app_distr, rev_involutive. reflexivity.
  - exists (rev r). rewrite E, rev_app_distr. reflexivity.
Qed.
(** padding adds zeros in front, up to the width *)
Lemma pad_loop_spec : forall fuel s d, d <= N.of_nat (length s + fuel) ->
  exists k, pad_loop fuel s d = repeat 48 k ++ s /\ (N.of_nat (k + length s) = N.max d (N.of_nat (length s))).
Proof.
  induction fuel as [|fuel IH]; intros s d H; cbn [pad_loop].
  - exists 0%nat. split; [reflexivity|]. lia.
  - destruct (N.ltb_spec (N.of_nat (length s)) d) as [L|L].
    + destruct (IH (48 :: s) d) as (k & E & W); [cbn [length]; lia|]. exists (S k). rewrite E. split.
      * change (48 :: s) with ([48] ++ s). rewrite app_assoc, <- repeat_cons. reflexivity.
      * cbn [length] in W. lia.
    + exists 0%nat. split; [reflexivity|]. lia.
Qed.
Lemma str_value_zeros : forall k s, str_value (repeat 48 k ++ s) = str_value s.
Proof.
  induction k as [|k IH]; intro s; [reflexivity|]. exact (IH s).
Qed.
Lemma padded_spec : forall n d s, int_to_string n = Ok s ->
  make_padded s d <> [] /\ Forall is_digit (make_padded s d) /\ string_to_int (make_padded s d) = Ok n /\ d <= N.of_nat (length (make_padded s d)).
Proof.
  intros n d s H. destruct (int_to_string_spec n) as (s' & E & (C1 & C2 & _) & V). rewrite H in E. injection E as <-.
  unfold make_padded. destruct (pad_loop_spec (N.to_nat d) s d) as (k & -> & W); [lia|].
  assert (Dg : Forall is_digit (repeat 48 k ++ s)).
  { apply Forall_app. split; [|exact C2]. clear. induction k; cbn; constructor; auto. unfold is_digit. lia. }
  assert (Ne : repeat 48 k ++ s <> []) by (intro Q; apply app_eq_nil in Q; tauto).
  split; [exact Ne|]. split; [exact Dg|]. split.
  - rewrite string_to_int_spec by auto. rewrite str_value_zeros, V. reflexivity.
  - rewrite app_length, repeat_length. lia.
Qed.

(** a slice name has a prefix, a middle and a suffix; the middle is what is read as a number *)
Lemma extract_shape : forall base c1 mid c2 ext d, mid <> [] -> d <= N.of_nat (length mid) ->
  extract_num (base ++ c1 :: mid ++ c2 :: ext) base d ext = match string_to_int mid with Ok n => Some n | Err _ => None end.
Proof.
  intros base c1 mid c2 ext d Hm Hd. unfold extract_num.
  assert (L : length (base ++ c1 :: mid ++ c2 :: ext) = (length base + length ext + 2 + length mid)%nat).
  { rewrite app_length. cbn [length]. rewrite app_length. cbn [length]. lia. }
  rewrite L. assert (length mid <> 0)%nat by (destruct mid; [congruence|discriminate]).
  destruct (Nat.leb_spec (length base + length ext + 2 + length mid) (length base + length ext + 2)); [lia|].
  replace (length base + length ext + 2 + length mid - (length base + length ext + 2))%nat with (length mid) by lia.
  destruct (N.ltb_spec (N.of_nat (length mid)) d); [lia|]. cbn [andb].
  assert (is_prefix base (base ++ c1 :: mid ++ c2 :: ext) = true) as -> by (apply is_prefix_spec; eauto). cbn [negb].
  assert (is_suffix ext (base ++ c1 :: mid ++ c2 :: ext) = true) as ->.
  { apply is_suffix_spec. exists (base ++ c1 :: mid ++ [c2]). rewrite <- app_assoc. cbn [app]. rewrite <- app_assoc. reflexivity. }
  cbn [negb]. replace (length base + length ext + 2 + length mid - length ext - 1 - (length base + 1))%nat with (length mid) by lia.
  replace (skipn (length base + 1) (base ++ c1 :: mid ++ c2 :: ext)) with (mid ++ c2 :: ext).
  - rewrite firstn_app_exact. reflexivity.
  - change (base ++ c1 :: mid ++ c2 :: ext) with (base ++ [c1] ++ (mid ++ c2 :: ext)). rewrite app_assoc.
    symmetry. apply skipn_app_exact_n. rewrite app_length. reflexivity.
Qed.

(** The number of a slice is recovered from its name, for every archive basename and extension (whatever characters they
    contain), number and padding width; also by a reader configured with no more digits than the writer. *)
Theorem C15_name_roundtrip : forall base n d d' ext, d' <= d ->
  exists name, make_filename base n d ext = Ok name /\ extract_num name base d' ext = Some n.
Proof.
  intros base n d d' ext Hd. unfold make_filename. destruct (int_to_string_spec n) as (s & E & _). rewrite E. cbn [bind].
  eexists. split; [reflexivity|]. destruct (padded_spec n d s E) as (P1 & P2 & P3 & P4).
  change (base ++ [DOT] ++ make_padded s d ++ [DOT] ++ ext) with (base ++ DOT :: make_padded s d ++ DOT :: ext).
  rewrite extract_shape by (auto; lia). rewrite P3. reflexivity.
Qed.
Print Assumptions C15_name_roundtrip.
(** two slices of the same archive never share a name *)
Theorem C15_names_distinct : forall base n m d ext name, make_filename base n d ext = Ok name -> make_filename base m d ext = Ok name -> n = m.
Proof.
  intros base n m d ext name Hn Hm. destruct (C15_name_roundtrip base n d d ext ltac:(lia)) as (x & E1 & X1).
  destruct (C15_name_roundtrip base m d d ext ltac:(lia)) as (y & E2 & X2). rewrite Hn in E1. rewrite Hm in E2.
  injection E1 as <-. injection E2 as <-. congruence.
Qed.
Print Assumptions C15_names_distinct.

(** What is recognised as a slice name: basename, any character, a decimal number, any character, extension, and
    nothing else. The two characters need not be dots, see the refutation below. *)
Theorem C15_recognised : forall name base d ext n, extract_num name base d ext = Some n ->
  exists c1 c2 mid, name = base ++ [c1] ++ mid ++ [c2] ++ ext /\ mid <> [] /\ Forall (fun c => 48 <= c /\ c <= 57) mid /\
    str_value mid = n /\ d <= N.of_nat (length mid).
Proof.
  intros name base d ext n H. unfold extract_num in H.
  destruct (Nat.leb_spec (length name) (length base + length ext + 2)) as [|L]; [discriminate|].
  destruct ((N.of_nat (length name - (length base + length ext + 2)) <? d) && negb (d =? 0)) eqn:Hd; [discriminate|].
  destruct (is_prefix base name) eqn:Hp; [|discriminate]. destruct (is_suffix ext name) eqn:Hs; [|discriminate]. cbn [negb] in H.
  apply is_prefix_spec in Hp. destruct Hp as (r & ->). rewrite app_length in *.
  destruct r as [|c1 r]; [cbn in L; lia|]. cbn [length] in *.
  assert (exists mid c2, r = mid ++ c2 :: ext /\ mid <> []) as (mid & c2 & -> & Hm).
  { apply is_suffix_spec in Hs. destruct Hs as (z & Hs).
    assert (Lz : (length base + S (length r) = length z + length ext)%nat).
    { apply (f_equal (@length N)) in Hs. rewrite !app_length in Hs. cbn [length] in Hs. exact Hs. }
    assert (R : r = firstn (length r - length ext - 1) r ++ skipn (length r - length ext - 1) r) by (symmetry; apply firstn_skipn).
    assert (E : skipn (length r - length ext) r = ext).
    { apply (f_equal (skipn (length base + (1 + (length r - length ext))))) in Hs.
      rewrite skipn_app in Hs. rewrite skipn_all2 in Hs by lia. rewrite app_nil_l in Hs.
      replace (length base + (1 + (length r - length ext)) - length base)%nat with (S (length r - length ext)) in Hs by lia.
      cbn [skipn] in Hs. rewrite Hs. apply skipn_app_exact_n. lia. }
    destruct (skipn (length r - length ext - 1) r) as [|c2 t] eqn:Et.
    - exfalso. apply (f_equal (@length N)) in Et. rewrite skipn_length in Et. cbn in Et. lia.
    - exists (firstn (length r - length ext - 1) r), c2.
      assert (t = ext) as ->.
      { assert (Q : skipn 1 (skipn (length r - length ext - 1) r) = skipn (length r - length ext) r).
        { clear - L. replace (length r - length ext)%nat with (S (length r - length ext - 1)) by lia. replace (S (length r - length ext - 1) - 1)%nat with (length r - length ext - 1)%nat by lia.
          generalize (length r - length ext - 1)%nat. clear. intro k. revert r. induction k as [|k IH]; intro r; [reflexivity|]. destruct r as [|x r]; [reflexivity|]. cbn [skipn]. apply IH. }
        rewrite Et, E in Q. exact Q. }
      split; [exact R|]. intro Q. apply (f_equal (@length N)) in Q. rewrite firstn_length in Q. cbn in Q. lia. }
  exists c1, c2, mid. split; [reflexivity|]. split; [exact Hm|].
  assert (Ld : d <= N.of_nat (length mid)).
  { rewrite app_length in Hd. cbn [length] in Hd. apply andb_false_iff in Hd. destruct Hd as [Hd|Hd].
    - apply N.ltb_ge in Hd. lia.
    - apply negb_false_iff, N.eqb_eq in Hd. lia. }
  assert (X : extract_num (base ++ c1 :: mid ++ c2 :: ext) base d ext = Some n).
  { rewrite extract_shape by auto. 
    rewrite app_length in H. cbn [length] in H.
    replace (length base + S (length mid + S (length ext)) - length ext - 1 - (length base + 1))%nat with (length mid) in H by lia.
    replace (skipn (length base + 1) (base ++ c1 :: mid ++ c2 :: ext)) with (mid ++ c2 :: ext) in H.
    - rewrite firstn_app_exact in H. exact H.
    - change (base ++ c1 :: mid ++ c2 :: ext) with (base ++ [c1] ++ (mid ++ c2 :: ext)). rewrite app_assoc.
      symmetry. apply skipn_app_exact_n. rewrite app_length. reflexivity. }
  rewrite extract_shape in X by auto.
  destruct (Forall_dec is_digit (fun c => match Bool.bool_dec ((48 <=? c) && (c <=? 57)) true with left e => left (conj (proj1 (N.leb_le _ _) (proj1 (andb_prop _ _ e))) (proj1 (N.leb_le _ _) (proj2 (andb_prop _ _ e)))) | right n => right (fun h => n (proj2 (andb_true_iff _ _) (conj (proj2 (N.leb_le _ _) (proj1 h)) (proj2 (N.leb_le _ _) (proj2 h))))) end) mid) as [Dg|Dg].
  - rewrite string_to_int_spec in X by auto. injection X as X. auto.
  - unfold string_to_int in X. rewrite deci_of_string_err in X by auto. discriminate.
Qed.
Print Assumptions C15_recognised.
Theorem C15_recognised_conversely : forall base c1 c2 mid d ext, mid <> [] -> Forall (fun c => 48 <= c /\ c <= 57) mid ->
  d <= N.of_nat (length mid) -> extract_num (base ++ [c1] ++ mid ++ [c2] ++ ext) base d ext = Some (str_value mid).
Proof.
  intros base c1 c2 mid d ext Hm Dg Hd. cbn [app]. rewrite extract_shape by auto. rewrite string_to_int_spec by auto. reflexivity.
Qed.
Print Assumptions C15_recognised_conversely.

(** "archive-12_dar" is taken for slice 12 of archive "archive" with extension "dar" *)
Theorem C15_foreign_name_refuted : exists name base ext n,
  extract_num name base 0 ext = Some n /\ forall m d, make_filename base m d ext <> Ok name.
Proof.
  exists [97; 45; 49; 50; 95; 100], [97], [100], 12. split; [vm_compute; reflexivity|].
  intros m d H. unfold make_filename in H. destruct (int_to_string m); [|discriminate]. cbn [bind] in H.
  injection H as H. discriminate.
Qed.
Print Assumptions C15_foreign_name_refuted.

(** Removing the slices above [keep]: exactly the entries recognised with a higher number go. *)
Theorem C15_remove_higher : forall dir base d ext keep e,
  In e (remove_higher dir base d ext keep) <-> In e dir /\ ~ (exists n, extract_num e base d ext = Some n /\ keep < n).
Proof.
  intros dir base d ext keep e. induction dir as [|x dir IH]; cbn [remove_higher]; [cbn; tauto|].
  assert (Case : (exists n, extract_num x base d ext = Some n /\ keep < n) \/
    (~ (exists n, extract_num x base d ext = Some n /\ keep < n))).
  { destruct (extract_num x base d ext) as [n|].
    - destruct (N.lt_ge_cases keep n); [left; eauto|right]. intros (m & E & Hm). injection E as ->. lia.
    - right. intros (m & E & _). discriminate. }
  destruct (extract_num x base d ext) as [n|] eqn:Ex.
  - destruct (N.ltb_spec keep n) as [L|L].
    + rewrite IH. cbn [In]. split; [intros (H1 & H2); auto|]. intros ([->|H1] & H2); [|auto].
      exfalso. apply H2. exists n. auto.
    + cbn [In]. rewrite IH. split.
      * intros [->|(H1 & H2)]; [|auto]. split; [auto|]. intros (m & E & Hm). rewrite Ex in E. injection E as ->. lia.
      * intros ([->|H1] & H2); auto.
  - cbn [In]. rewrite IH. split.
    + intros [->|(H1 & H2)]; [|auto]. split; [auto|]. intros (m & E & Hm). rewrite Ex in E. discriminate.
    + intros ([->|H1] & H2); auto.
Qed.
Print Assumptions C15_remove_higher.
(** in particular no slice to keep disappears ... *)
Theorem C15_kept_slices_stay : forall dir base d ext keep n name, make_filename base n d ext = Ok name -> n <= keep ->
  In name dir -> In name (remove_higher dir base d ext keep).
Proof.
  intros dir base d ext keep n name Hn Hk Hi. apply C15_remove_higher. split; [exact Hi|]. intros (m & E & Hm).
  destruct (C15_name_roundtrip base n d d ext ltac:(lia)) as (x & E1 & X1). rewrite Hn in E1. injection E1 as <-.
  rewrite X1 in E. injection E as ->. lia.
Qed.
Print Assumptions C15_kept_slices_stay.
(** ... all the slices above go ... *)
Theorem C15_higher_slices_go : forall dir base d ext keep n name, make_filename base n d ext = Ok name -> keep < n ->
  ~ In name (remove_higher dir base d ext keep).
Proof.
  intros dir base d ext keep n name Hn Hk Hi. apply C15_remove_higher in Hi. destruct Hi as [_ Hi]. apply Hi.
  destruct (C15_name_roundtrip base n d d ext ltac:(lia)) as (x & E1 & X1). rewrite Hn in E1. injection E1 as <-. eauto.
Qed.
(** ... but a file that is no slice of this archive may be removed too *)
Theorem C15_foreign_file_removed_refuted : exists dir base ext keep name,
  In name dir /\ (forall m d, make_filename base m d ext <> Ok name) /\ ~ In name (remove_higher dir base 0 ext keep).
Proof.
  destruct C15_foreign_name_refuted as (name & base & ext & n & E & F). 
  exists [[97; 45; 49; 50; 95; 100]], [97], [100], 1, [97; 45; 49; 50; 95; 100]. split; [left; reflexivity|]. split.
  - intros m d H. unfold make_filename in H. destruct (int_to_string m); [|discriminate]. cbn [bind] in H.
    injection H as H. discriminate.
  - vm_compute. auto.
Qed.

(** The highest slice number found in a directory is the maximum over the recognised names. *)
Theorem C15_higher_number : forall dir base d ext,
  match get_higher dir base d ext with
  | Some m => (exists e, In e dir /\ extract_num e base d ext = Some m) /\
              forall e n, In e dir -> extract_num e base d ext = Some n -> n <= m
  | None => forall e, In e dir -> extract_num e base d ext = None
  end.
Proof.
  intros dir base d ext.
  assert (G : forall dir ret somme, let '(r, s) := higher_loop dir base d ext ret somme in
     (s = true <-> somme = true \/ exists e n, In e dir /\ extract_num e base d ext = Some n) /\
     ret <= r /\ (forall e n, In e dir -> extract_num e base d ext = Some n -> n <= r) /\
     (r = ret \/ exists e, In e dir /\ extract_num e base d ext = Some r)).
  { clear dir. induction dir as [|x dir IH]; intros ret somme; cbn [higher_loop].
    - split; [split; [auto|intros [H|(e & n & [] & _)]; auto]|]. split; [lia|]. split; [intros ? ? []|auto].
    - destruct (extract_num x base d ext) as [cur|] eqn:Ex.
      + specialize (IH (if ret <? cur then cur else ret) true). destruct (higher_loop dir base d ext (if ret <? cur then cur else ret) true) as [r s].
        destruct IH as (I1 & I2 & I3 & I4). split; [|split; [|split]].
        * split; [intros _; right; exists x, cur; cbn; auto|]. intros _. apply I1. auto.
        * destruct (N.ltb_spec ret cur); lia.
        * intros e n [->|H] E; [|eauto]. rewrite Ex in E. injection E as ->. destruct (N.ltb_spec ret n); lia.
        * destruct I4 as [->|(e & He & E)]; [|right; exists e; cbn; auto].
          destruct (N.ltb_spec ret cur); [right; exists x; cbn; auto|left; reflexivity].
      + specialize (IH ret somme). destruct (higher_loop dir base d ext ret somme) as [r s].
        destruct IH as (I1 & I2 & I3 & I4). split; [|split; [|split]].
        * rewrite I1. split; intros [H|(e & n & H1 & H2)]; auto; right.
          -- exists e, n. cbn. auto.
          -- destruct H1 as [->|H1]; [congruence|eauto].
        * auto.
        * intros e n [->|H] E; [congruence|eauto].
        * destruct I4 as [->|(e & He & E)]; [auto|]. right. exists e. cbn. auto. }
  specialize (G dir 0 false). unfold get_higher. destruct (higher_loop dir base d ext 0 false) as [r s].
  destruct G as (G1 & G2 & G3 & G4). destruct s.
  - split; [|exact G3]. destruct (proj1 G1 eq_refl) as [H|(e & n & He & E)]; [discriminate|].
    destruct G4 as [->|G4]; [|exact G4]. exists e. split; [exact He|]. rewrite E. f_equal. specialize (G3 e n He E). lia.
  - intros e He. destruct (extract_num e base d ext) as [n|] eqn:E; auto. exfalso.
    assert (false = true) by (apply G1; eauto). discriminate.
Qed.
Print Assumptions C15_higher_number.

Example C15_instance : (* base "a.b", number 7 on 3 digits, extension "dar" *)
  make_filename [97; 46; 98] 7 3 [100; 97; 114] = Ok [97; 46; 98; 46; 48; 48; 55; 46; 100; 97; 114] /\
  extract_num [97; 46; 98; 46; 48; 48; 55; 46; 100; 97; 114] [97; 46; 98] 3 [100; 97; 114] = Some 7.
Proof. vm_compute. auto. Qed.
