(** * PropEa: property C62, lists of extended attributes *)
From Coq Require Import List Sorted.
From Verif Require Import Base InfinintModel InfinintProof2 HeaderModel HeaderProof2 ReadStable CatProof EaModel EaSpec EaProof EaProof2.
Open Scope N_scope.

(** ** A list is a map *)
Theorem C62_empty : forall k, find k empty = None /\ forall o, find k (clear o) = None.
Proof. intro k. split; reflexivity. Qed.
Theorem C62_add : forall o k v k', built o -> find k' (add k v o) = if s_eqb k' k then Some v else find k' o.
Proof. intros o k v k' B. apply built_valid in B as [S _]. apply (get_put (attr o) k v k' S). Qed.
Theorem C62_add_same : forall o k v, built o -> find k (add k v o) = Some v.
Proof. intros o k v B. rewrite C62_add by exact B. rewrite (proj2 (s_eqb_eq k k)) by reflexivity. reflexivity. Qed.
Theorem C62_add_others : forall o k v k', built o -> k' <> k -> find k' (add k v o) = find k' o.
Proof. intros o k v k' B N. rewrite C62_add by exact B. rewrite (proj2 (s_eqb_neq k' k)) by exact N. reflexivity. Qed.
(** Nothing else changes what is found. *)
Theorem C62_consulting : forall o, same (copy o) o /\ same (reset_read o) o /\ same (snd (read o)) o /\ forall cov other, same (snd (diff cov o other)) o.
Proof.
  intro o. split; [intro; reflexivity|]. split; [intro; reflexivity|]. split.
  - intro k. unfold find. rewrite read_attr. reflexivity.
  - intros cov other k. unfold find, diff. destruct (diff_attr (S (length (attr o))) cov (reset_read o) other) as (E & _). rewrite E. reflexivity.
Qed.
(** a + b: all of b, and of a what b does not have; b is left as it was. *)
Theorem C62_plus : forall a b k, built a -> built b ->
  find k (fst (plus a b)) = (match find k b with Some v => Some v | None => find k a end) /\ same (snd (plus a b)) b.
Proof.
  intros a b k Ba Bb. apply built_valid in Ba, Bb. unfold plus. split.
  - unfold find. rewrite plus_ok; [|apply valid_reset, Bb|rewrite reset_rest by exact Bb; lia]. rewrite reset_rest by exact Bb. apply fold_put; [apply Bb|apply Ba].
  - intro x. unfold find. destruct (plus_valid (S (length (attr b))) (copy a) (reset_read b) (valid_reset a Ba) (valid_reset b Bb)) as (_ & _ & E). rewrite E. reflexivity.
Qed.

(** ** Reading, from the beginning, gives each attribute once, in the order of the names *)
Lemma sorted_before : forall l, sorted l -> StronglySorted before (map fst l).
Proof.
  induction 1 as [|p l S IH F]; cbn [map]; constructor; [exact IH|]. apply Forall_map. eapply Forall_impl; [|exact F]. intros q Q. apply lt_before, Q.
Qed.
Lemma space_ok : forall l n, fold_left (fun ret p => ret + (N.of_nat (length (fst p)) + N.of_nat (length (snd p)))) l n = n + bytes_of l.
Proof.
  induction l as [|p l IH]; intro n; cbn [fold_left]; [cbn; lia|]. rewrite IH. change (bytes_of (p :: l)) with (N.of_nat (length (fst p)) + N.of_nat (length (snd p)) + bytes_of l). lia.
Qed.
Theorem C62_enumeration : forall o, built o -> exists l o',
  reads (reset_read o) l o' /\ (forall l2 o2, reads (reset_read o) l2 o2 -> l2 = l) /\
  (forall k v, In (k, v) l <-> find k o = Some v) /\ NoDup (map fst l) /\
  StronglySorted before (map fst l) /\ size o = N.of_nat (length l) /\ space_used o = bytes_of l /\ same o' o.
Proof.
  intros o B. apply built_valid in B. pose proof (valid_reset o B) as V. destruct (reads_rest _ (reset_read o) V eq_refl) as (o' & R & E).
  rewrite reset_rest in R by exact B. exists (attr o), o'. destruct B as [S _]. split; [exact R|]. split; [intros l2 o2 R2; symmetry; eapply reads_fun; eassumption|].
  split; [intros k v; symmetry; apply get_in, S|]. split; [apply sorted_nodup, S|]. split; [apply sorted_before, S|]. split; [reflexivity|].
  split; [apply (space_ok (attr o) 0)|intro k; unfold find; rewrite E; reflexivity].
Qed.
(** A copy is read from its beginning, wherever the reading of the original is; so is a list read from an archive. *)
Theorem C62_copies_from_the_beginning : forall o, (forall l o', reads (copy o) l o' <-> reads (reset_read o) l o') /\
  forall ver f r, construct ver f = Ok (o, r) -> forall l o', reads o l o' <-> reads (reset_read o) l o'.
Proof.
  intro o. split; [reflexivity|]. intros ver f r H. unfold construct in H. apply bind_ok_inv in H as ([t f1] & _ & H). cbv zeta in H. apply bind_ok_inv in H as ([m f2] & _ & H). injection H as <- _. reflexivity.
Qed.
(** Without a call to reset_read, what was added to a new list is not read. *)
Theorem C62_reading_needs_reset : forall k v, fst (read (add k v empty)) = None /\ fst (read (reset_read (add k v empty))) = Some (k, v).
Proof. intros k v. split; [reflexivity|]. cbn. rewrite lt_irrefl. reflexivity. Qed.

(** ** Comparisons *)
Theorem C62_equal : forall a b, built a -> built b -> (equal a b = true <-> same a b).
Proof.
  intros a b Ba Bb. apply built_valid in Ba, Bb. unfold equal. rewrite m_eqb_eq. split.
  - intros E k. unfold find. rewrite E. reflexivity.
  - intro H. apply sorted_ext; [apply Ba|apply Bb|exact H].
Qed.
(** diff tells whether an attribute, among those the filter covers, is missing from the other list or has another value there. *)
Theorem C62_diff : forall cov a b, built a -> built b ->
  (fst (diff cov a b) = true <-> exists k v, find k a = Some v /\ cov k = true /\ find k b <> Some v).
Proof.
  intros cov a b Ba Bb. apply built_valid in Ba, Bb. unfold diff. rewrite diff_ok; [|apply valid_reset, Ba|rewrite reset_rest by exact Ba; lia].
  rewrite reset_rest by exact Ba. rewrite existsb_exists. unfold differs. split.
  - intros ([k v] & I & H). cbn [fst snd] in H. apply andb_prop in H as [C H]. exists k, v. split; [apply get_in; [apply Ba|exact I]|]. split; [exact C|].
    intro E. rewrite E in H. rewrite (proj2 (s_eqb_eq v v)) in H by reflexivity. discriminate.
  - intros (k & v & G & C & Ne). exists (k, v). split; [apply get_in; [apply Ba|exact G]|]. cbn [fst snd]. rewrite C. cbn [andb]. destruct (find k b) as [w|]; [|reflexivity].
    destruct (s_eqb w v) eqn:E; [|reflexivity]. apply s_eqb_eq in E. congruence.
Qed.
(** Seen from both sides, diff finds nothing if and only if the lists agree on what the filter covers. *)
Theorem C62_diff_both_sides : forall cov a b, built a -> built b ->
  (fst (diff cov a b) = false /\ fst (diff cov b a) = false <-> forall k, cov k = true -> find k a = find k b).
Proof.
  intros cov a b Ba Bb. pose proof (C62_diff cov a b Ba Bb) as D. pose proof (C62_diff cov b a Bb Ba) as D'. split.
  - intros [E E'] k C. destruct (find k a) as [v|] eqn:Fa.
    + destruct (find k b) as [w|] eqn:Fb.
      * destruct (s_eqb w v) eqn:Q; [apply s_eqb_eq in Q; congruence|]. exfalso. apply s_eqb_neq in Q. assert (X : fst (diff cov a b) = true) by (apply D; exists k, v; repeat split; congruence). congruence.
      * exfalso. assert (X : fst (diff cov a b) = true) by (apply D; exists k, v; repeat split; congruence). congruence.
    + destruct (find k b) as [w|] eqn:Fb; [|reflexivity]. exfalso. assert (X : fst (diff cov b a) = true) by (apply D'; exists k, w; repeat split; congruence). congruence.
  - intro H. split; [destruct (fst (diff cov a b)) eqn:E|destruct (fst (diff cov b a)) eqn:E]; try reflexivity; exfalso.
    + destruct (proj1 D eq_refl) as (k & v & G & C & Ne). rewrite (H k C) in G. contradiction.
    + destruct (proj1 D' eq_refl) as (k & v & G & C & Ne). rewrite <- (H k C) in G. contradiction.
Qed.
(** From one side only, an attribute that only the other list has is not seen. *)
Theorem C62_diff_one_side_refuted : exists a b, built a /\ built b /\ fst (diff (fun _ => true) a b) = false /\ equal a b = false.
Proof. exists empty, (add [117] [1] empty). repeat split; repeat constructor. Qed.

(** ** Storage *)
Lemma nul_names : forall o, valid o -> no_nul o -> Forall (fun p => nulfree (fst p)) (attr o).
Proof.
  intros o [S _] H. apply Forall_forall. intros [k v] I. apply get_in in I; [|exact S]. apply Forall_forall. intros c Hc ->. exact (H k v I Hc).
Qed.
Lemma dump_recs : forall ver l, 5 <= ver -> concat (map pair_bytes l) = concat (map (rec_bytes ver) (map (fun p => (0, fst p, snd p)) l)).
Proof.
  intros ver l V. f_equal. rewrite map_map. apply map_ext. intros [k v]. unfold rec_bytes, pair_bytes. cbn [fst snd]. destruct (N.ltb_spec ver 5); [lia|]. reflexivity.
Qed.
(** What is stored is read back, from the formats 5 and later, whatever the values, the names having no null byte. *)
Theorem C62_stored : forall o ver rest, built o -> 5 <= ver -> no_nul o ->
  construct ver (dump o ++ rest) = Ok (reset_read o, rest).
Proof.
  intros o ver rest B V NZ. apply built_valid in B. unfold dump, size. rewrite <- app_assoc. rewrite (dump_recs ver) by exact V.
  replace (length (attr o)) with (length (map (fun p => (0, fst p, snd p)) (attr o))) by apply map_length. rewrite construct_ok.
  - f_equal. f_equal. unfold reset_read. cbn [attr alire].
    assert (E : fold_left (fun m '(fl, n, v) => put (rec_key ver fl n) v m) (map (fun p => (0, fst p, snd p)) (attr o)) [] = attr o).
    { rewrite <- (fold_rebuild (attr o) []) at 2; [|contradiction|constructor|apply B]. generalize (@nil (str * str)). induction (attr o) as [|[k v] l IH]; intro m; cbn [map fold_left fst snd]; [reflexivity|].
      rewrite IH. unfold rec_key. destruct (N.ltb_spec ver 5); [lia|]. reflexivity. }
    rewrite E. reflexivity.
  - apply Forall_map. eapply Forall_impl; [|apply nul_names; eassumption]. intros p Hp. exact Hp.
Qed.
(** The bytes depend on the attributes only, not on the history; and tell them. *)
Theorem C62_canonical : forall a b, built a -> built b -> no_nul a -> no_nul b -> (dump a = dump b <-> same a b).
Proof.
  intros a b Ba Bb Na Nb. split.
  - intro E. pose proof (C62_stored a 6 [] Ba) as Ra. pose proof (C62_stored b 6 [] Bb) as Rb. rewrite E in Ra. rewrite Ra in Rb by (assumption || lia).
    specialize (Rb ltac:(lia) Nb). injection Rb as E1 E2. intro k. unfold find. rewrite E1. reflexivity.
  - intro H. apply built_valid in Ba, Bb. unfold dump, size. rewrite (sorted_ext (attr a) (attr b)); [reflexivity|apply Ba|apply Bb|exact H].
Qed.
(** Cut anywhere, what was stored never gives a list. *)
Theorem C62_truncated : forall o ver p q, built o -> 5 <= ver -> no_nul o -> dump o = p ++ q -> q <> [] -> forall x, construct ver p <> Ok x.
Proof.
  intros o ver p q B V NZ E Q [o' r] H. destruct (framed_construct ver _ _ _ H) as (p1 & -> & F). pose proof (C62_stored o ver [] B V NZ) as S. rewrite app_nil_r, E, <- app_assoc, F in S.
  injection S as _ S. apply app_eq_nil in S as [_ S]. contradiction.
Qed.
(** But it may never return: a value shorter than announced is waited for without end, however long the loop is let run. *)
Theorem C62_value_cut_never_returns : forall turns n f, N.of_nat (length f) < n -> read_string_size turns n f = Err Fuel.
Proof. intros. apply rss_never. assumption. Qed.
(** Reading depends on the bytes of the list only. *)
Theorem C62_reads_its_bytes : forall ver f o r, construct ver f = Ok (o, r) -> exists p, f = p ++ r /\ forall q, construct ver (p ++ q) = Ok (o, q).
Proof. intros ver f o r H. exact (framed_construct ver f o r H). Qed.
(** Before format 5 the domain of an attribute is a byte: its name is given the prefix of the domain; among attributes of the same name the last counts. *)
Lemma fold_last : forall (l : list old_record) m k, sorted m ->
  get k (fold_left (fun m '(fl, n, v) => put (old_name fl n) v m) l m) =
  match List.find (fun '(fl, n, _) => s_eqb (old_name fl n) k) (rev l) with Some (_, _, v) => Some v | None => get k m end.
Proof.
  unfold old_record. induction l as [|[[fl n] v] l IH]; intros m k S; [reflexivity|]. cbn [fold_left rev]. rewrite IH by apply put_sorted, S. rewrite get_put by exact S.
  assert (G : forall A (f : A -> bool) a b, List.find f (a ++ b) = match List.find f a with Some x => Some x | None => List.find f b end).
  { intros A f a b. induction a as [|x a IHa]; [reflexivity|]. cbn. destruct (f x); [reflexivity|exact IHa]. }
  rewrite G. destruct (List.find _ (rev l)) as [[[? ?] ?]|]; [reflexivity|]. cbn [List.find].
  destruct (s_eqb (old_name fl n) k) eqn:E.
  - apply s_eqb_eq in E. rewrite (proj2 (s_eqb_eq k _)) by congruence. reflexivity.
  - apply s_eqb_neq in E. rewrite (proj2 (s_eqb_neq k _)) by congruence. reflexivity.
Qed.
Lemma domain : forall fl, fl < 256 -> negb (N.land fl 128 =? 0) = (128 <=? fl).
Proof.
  intros fl H. assert (K : forallb (fun i => Bool.eqb (negb (N.land (N.of_nat i) 128 =? 0)) (128 <=? N.of_nat i)) (seq 0 256) = true) by (vm_compute; reflexivity).
  rewrite forallb_forall in K. specialize (K (N.to_nat fl)). rewrite N2Nat.id in K. apply Bool.eqb_prop, K, in_seq. lia.
Qed.
Theorem C62_old_format : forall ver (l : list old_record) rest, ver < 5 -> Forall (fun '(fl, n, _) => fl < 256 /\ ~ In 0 n) l ->
  exists o, construct ver (old_bytes l ++ rest) = Ok (o, rest) /\ built o /\
  forall k, find k o = match List.find (fun '(fl, n, _) => s_eqb (old_name fl n) k) (rev l) with Some (_, _, v) => Some v | None => None end.
Proof.
  intros ver l rest V F. assert (E : old_bytes l = dumpN (N.of_nat (length l)) ++ concat (map (rec_bytes ver) l)).
  { unfold old_bytes. f_equal. f_equal. apply map_ext. intros [[fl n] v]. unfold rec_bytes. destruct (N.ltb_spec ver 5); [|lia]. reflexivity. }
  assert (C : construct ver (old_bytes l ++ rest) = Ok (reset_read {| attr := fold_left (fun m '(fl, n, v) => put (rec_key ver fl n) v m) l []; alire := None |}, rest)).
  { rewrite E, <- app_assoc. apply construct_ok. eapply Forall_impl; [|exact F]. intros [[fl n] v] [_ H]. apply Forall_forall. intros c Hc ->. contradiction. }
  eexists. split; [exact C|]. split; [eapply bl_construct; exact C|]. intro k. unfold find. cbn [attr reset_read].
  assert (FL := fold_last l [] k (SSorted_nil _)). cbn [get] in FL. unfold old_record in *. rewrite <- FL. f_equal. clear E C FL. generalize (@nil (str * str)). induction l as [|[[fl n] v] l IH]; intro m; [reflexivity|]. inversion F as [|? ? Q F2]; subst. cbv beta iota in Q. destruct Q as [F1 _].
  cbn [fold_left]. rewrite IH by exact F2. unfold rec_key, old_name, system_, user_. destruct (N.ltb_spec ver 5); [|lia]. rewrite domain by exact F1. reflexivity.
Qed.
(** The null byte must be excluded: a name that has one is cut there, and the rest is read as something else. *)
Theorem C62_null_in_name_refuted : exists o, built o /\ construct 6 (dump o) <> Ok (reset_read o, []).
Proof. exists (add [117; 0; 118] [] empty). split; [repeat constructor|]. vm_compute. discriminate. Qed.

(** ** A case *)
Definition sample : ea := add [117; 46; 98] [7; 0; 9] (add [117; 46; 97] [] (add [117; 46; 98] [1] (add [115; 46; 200] [255] empty))).
Example C62_sample : built sample /\ no_nul sample /\ size sample = 3 /\ find [117; 46; 98] sample = Some [7; 0; 9] /\
  construct 6 (dump sample ++ [1; 2]) = Ok (reset_read sample, [1; 2]) /\ construct 6 (removelast (dump sample)) = Err Fuel /\
  fst (diff (fun _ => true) sample (add [117; 46; 97] [3] sample)) = true /\
  fst (diff (fun k => negb (s_eqb k [117; 46; 97])) sample (add [117; 46; 97] [3] sample)) = false.
Proof.
  assert (B : built sample) by (unfold sample; repeat constructor).
  split; [exact B|]. split.
  { intros k v H. apply get_in in H; [|apply built_valid, B]. vm_compute in H. intro Z. repeat (destruct H as [H|H]; [injection H as <- <-; repeat (destruct Z as [Z|Z]; [discriminate|]); contradiction|]). contradiction. }
  split; [reflexivity|]. split; [reflexivity|]. split; [vm_compute; reflexivity|]. split; [vm_compute; reflexivity|]. split; vm_compute; reflexivity.
Qed.

Print Assumptions C62_empty.
Print Assumptions C62_add.
Print Assumptions C62_add_same.
Print Assumptions C62_add_others.
Print Assumptions C62_consulting.
Print Assumptions C62_plus.
Print Assumptions C62_enumeration.
Print Assumptions C62_copies_from_the_beginning.
Print Assumptions C62_reading_needs_reset.
Print Assumptions C62_equal.
Print Assumptions C62_diff.
Print Assumptions C62_diff_both_sides.
Print Assumptions C62_diff_one_side_refuted.
Print Assumptions C62_stored.
Print Assumptions C62_canonical.
Print Assumptions C62_truncated.
Print Assumptions C62_value_cut_never_returns.
Print Assumptions C62_reads_its_bytes.
Print Assumptions C62_old_format.
Print Assumptions C62_null_in_name_refuted.
Print Assumptions C62_sample.
