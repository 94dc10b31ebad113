(** Proofs for C42, part 2: merging, name by name; the two constant policies; an archive merged with itself. *)
From Coq Require Import NArith List Bool Lia.
From Verif Require Import Base DatetimeModel PropDatetime PropChange CritModel RestoreModel RestoreSpec RestoreProof MergeModel MergeSpec.
Import ListNotations.
Open Scope N_scope.
Local Set Warnings "-notation-overridden".

Definition put_get (p : put) (old : option cnode) : option cnode :=
  match p with PSame => old | PSet e => Some e | PMove e => Some e | PDel => None end.
Lemma adel_in : forall A n m (l : list (name * A)), In m (map fst (adel n l)) -> In m (map fst l) /\ m <> n.
Proof.
  induction l as [|[k b] r IH]; cbn; intro H; [destruct H|]. destruct (name_eqb n k) eqn:E.
  - destruct (IH H). auto.
  - cbn in H. destruct H as [H|H]; [subst m; split; [auto|apply neqb_false in E; congruence]|destruct (IH H); auto].
Qed.
Lemma adel_nodup : forall A n (l : list (name * A)), NoDup (map fst l) -> NoDup (map fst (adel n l)).
Proof.
  induction l as [|[k b] r IH]; cbn; intro H; [exact H|]. inversion H; subst. destruct (name_eqb n k); [auto|]. cbn. constructor; [|auto].
  intro F. apply adel_in in F. tauto.
Qed.
Lemma nodup_snoc : forall A (l : list A) a, NoDup l -> ~ In a l -> NoDup (l ++ [a]).
Proof.
  induction l as [|b l IH]; cbn; intros a Nd H; [constructor; [tauto|constructor]|]. inversion Nd; subst. constructor; [|apply IH; tauto].
  rewrite in_app_iff. cbn. intros [F|[F|[]]]; [auto|subst; tauto].
Qed.
Lemma aset_nodup : forall A n (e : A) l, NoDup (map fst l) -> NoDup (map fst (aset n e l)).
Proof.
  intros A n e l Nd. destruct (aget n l) eqn:E; [rewrite aset_fst by congruence; exact Nd|].
  replace (aset n e l) with (l ++ [(n, e)]). { rewrite map_app. apply nodup_snoc; [exact Nd|]. apply aget_none_inv. exact E. }
  clear Nd. induction l as [|[k b] r IH]; cbn in *; [reflexivity|]. destruct (name_eqb n k); [discriminate|]. f_equal. auto.
Qed.
Lemma put_other : forall n m p l, m <> n -> aget m (apply_put n p l) = aget m l.
Proof.
  intros n m p l H. destruct p; cbn [apply_put]; [reflexivity|apply aget_set_other; exact H| |apply aget_del_other; exact H].
  rewrite aget_app, aget_del_other by exact H. destruct (aget m l); [reflexivity|]. cbn. rewrite neqb_ne by exact H. reflexivity.
Qed.
Lemma put_same : forall n p l, aget n (apply_put n p l) = put_get p (aget n l).
Proof.
  intros n p l. destruct p; cbn [apply_put put_get]; [reflexivity|apply aget_set_same| |apply aget_del_same].
  rewrite aget_app, aget_del_same. cbn. rewrite neqb_refl. reflexivity.
Qed.
Lemma put_nodup : forall n p l, NoDup (map fst l) -> NoDup (map fst (apply_put n p l)).
Proof.
  intros n p l Nd. destruct p; cbn [apply_put]; [exact Nd|apply aset_nodup; exact Nd| |apply adel_nodup; exact Nd].
  rewrite map_app. apply nodup_snoc; [apply adel_nodup; exact Nd|]. cbn. intro F. apply adel_in in F. tauto.
Qed.

Section M.
Variable pol : cnode -> cnode -> res (adata * aea).
Variable cov : rpath -> bool -> bool.
Variable decr : bool.
Notation merge_entry := (merge_entry pol cov decr).
Notation merge_node := (merge_node pol cov decr).
Notation merge_list := (merge_list pol cov decr).
Lemma merge_node_CIno : forall rp h l, merge_node rp (CIno h l) = merge_list rp l. Proof. reflexivity. Qed.
Lemma merge_cons : forall rp n x l cur, merge_list rp ((n, x) :: l) cur =
  let* p := merge_entry (merge_node (n :: rp) x) rp n x (aget n cur) in merge_list rp l (apply_put n p cur).
Proof. reflexivity. Qed.
(** name by name *)
Lemma merge_names : forall rp l cur, NoDup (map fst l) ->
  (forall n x, In (n, x) l -> exists p, merge_entry (merge_node (n :: rp) x) rp n x (aget n cur) = Ok p) ->
  exists M, merge_list rp l cur = Ok M /\
    (forall n x p, aget n l = Some x -> merge_entry (merge_node (n :: rp) x) rp n x (aget n cur) = Ok p -> aget n M = put_get p (aget n cur)) /\
    (forall n, aget n l = None -> aget n M = aget n cur) /\ (NoDup (map fst cur) -> NoDup (map fst M)).
Proof.
  intros rp. induction l as [|[m x] r IH]; intros cur Nd H.
  - exists cur. split; [reflexivity|]. split; [cbn; discriminate|]. auto.
  - inversion Nd as [|? ? Nn Nd']; subst. destruct (H m x (or_introl eq_refl)) as (p & E). rewrite merge_cons, E. cbn [bind].
    destruct (IH (apply_put m p cur) Nd') as (M & EM & HM & HN & HD).
    { intros n y I. rewrite put_other. apply H; right; exact I. intros ->. apply Nn. apply (in_map fst) in I. exact I. }
    exists M. split; [exact EM|]. split; [|split].
    + intros n y q. cbn [aget]. destruct (name_eqb n m) eqn:En.
      * apply neqb_spec in En. subst m. intros Q. injection Q as <-. rewrite E. intro Q. injection Q as <-. rewrite HN by (apply aget_none; exact Nn). apply put_same.
      * apply neqb_false in En. intros Q1 Q2. rewrite (HM n y q Q1); rewrite put_other by exact En; [reflexivity|exact Q2].
    + intros n. cbn [aget]. destruct (name_eqb n m) eqn:En; [discriminate|]. apply neqb_false in En. intro Q. rewrite (HN n Q). apply put_other. exact En.
    + intro Q. apply HD. apply put_nodup. exact Q.
Qed.
End M.

Lemma dir_of_is : forall e, dir_of e = is_directory e.
Proof. intros [h c|k|]; reflexivity. Qed.
Lemma below_entries : forall e, below_of e = entries e. Proof. intros [h c|k|]; reflexivity. Qed.
Lemma tidy_get : forall l n e, tidy l -> aget n l = Some e -> (is_directory e = false -> entries e = []) /\ tidy (entries e).
Proof. intros l n e T E. inversion T; subst. eapply H0. apply aget_in. exact E. Qed.
Lemma tidy_nodup : forall l, tidy l -> NoDup (map fst l). Proof. intros l T. inversion T; assumption. Qed.
Lemma tidy_nil : tidy []. Proof. constructor; [constructor|intros ? ? []]. Qed.
Lemma tidy_in : forall l n e, tidy l -> In (n, e) l -> (is_directory e = false -> entries e = []) /\ tidy (entries e).
Proof. intros l n e T E. inversion T; subst. eapply H0. exact E. Qed.
Lemma cnode_cases : forall x, (forall P : list (name * cnode) -> Prop, P (entries x) -> P (below_of x)). Proof. intros [h c|k|] P H; exact H. Qed.
(** induction over the entries of an archive *)
Lemma entries_ind : forall (P : list (name * cnode) -> Prop), (forall l, (forall n x, In (n, x) l -> P (entries x)) -> P l) -> forall l, P l.
Proof.
  intros P H. assert (N : P []) by (apply H; intros ? ? []).
  assert (G : forall x, P (entries x)).
  { apply cnode_rect'; [|intros; exact N|exact N]. intros h l IH. apply H. exact IH. }
  intro l. exact (G (CIno (CHead KDir 0 0 0 (DT 0 tu_s) (DT 0 tu_s) 0 true [] EA_none) l)).
Qed.
Lemma merge_node_entries : forall pol cov decr rp x cur, merge_node pol cov decr rp x cur = merge_list pol cov decr rp (entries x) cur.
Proof. intros pol cov decr rp [h c|k|] cur; reflexivity. Qed.
Lemma found_cons : forall cov rp l n r, found cov rp l (n :: r) =
  match aget n l with None => None | Some e => if cov (n :: rp) (is_directory e) then match r with [] => Some (alone e) | _ => found cov (n :: rp) (entries e) r end else None end.
Proof. intros. cbn [found]. rewrite aget_named. reflexivity. Qed.
Lemma found_nil : forall cov rp p, found cov rp [] p = None. Proof. intros cov rp [|n r]; reflexivity. Qed.
Lemma found_all_rp : forall p rp rp' l, found all_of_it rp l p = found all_of_it rp' l p.
Proof.
  induction p as [|n r IH]; intros rp rp' l; [reflexivity|]. rewrite !found_cons. destruct (aget n l) as [e|]; [|reflexivity]. unfold all_of_it at 1 3. destruct r; [reflexivity|]. apply IH.
Qed.

Definition pol_p : cnode -> cnode -> res (adata * aea) := fun _ _ => Ok (D_preserve, A_preserve).
Definition pol_o : cnode -> cnode -> res (adata * aea) := fun _ _ => Ok (D_overwrite, A_overwrite).

Lemma blocked_one : forall f p, length p = 1%nat -> ~ blocked f p.
Proof. intros f p H (q & r & e & E & Q & R & _). apply (f_equal (@length name)) in E. rewrite app_length in E. destruct q; [congruence|]. destruct r; [congruence|]. cbn in E. lia. Qed.
(** going one level down *)
Lemma blocked_down : forall cov rp l n e r, aget n l = Some e -> cov (n :: rp) (is_directory e) = true -> r <> [] ->
  (blocked (found cov rp l) (n :: r) <-> is_directory e = false \/ blocked (found cov (n :: rp) (entries e)) r).
Proof.
  intros cov rp l n e r E C R. split.
  - intros (q & r' & e' & Ep & Q & R' & F & D). destruct q as [|m q]; [congruence|]. cbn in Ep. injection Ep as <- Ep. rewrite found_cons, E, C in F. destruct q as [|m q].
    + injection F as <-. left. destruct e; exact D.
    + right. exists (m :: q), r', e'. repeat split; auto. discriminate.
  - intros [D|(q & r' & e' & Ep & Q & R' & F & D)].
    + exists [n], r, (alone e). repeat split; auto; try discriminate. rewrite found_cons, E, C. reflexivity. destruct e; exact D.
    + exists (n :: q), r', e'. split; [cbn; congruence|]. repeat split; auto; try discriminate. rewrite found_cons, E, C. destruct q; [congruence|exact F].
Qed.
Lemma blocked_none : forall cov rp l n r, (forall e, aget n l = Some e -> cov (n :: rp) (is_directory e) = false) -> ~ blocked (found cov rp l) (n :: r).
Proof.
  intros cov rp l n r H (q & r' & e' & Ep & Q & R' & F & D). destruct q as [|m q]; [congruence|]. cbn in Ep. injection Ep as <- Ep. rewrite found_cons in F.
  destruct (aget n l) as [e|]; [|discriminate]. rewrite (H e eq_refl) in F. discriminate.
Qed.
Definition combined (f g h : list name -> option cnode) : Prop := forall p,
  (forall e, f p = Some e -> h p = Some e) /\ (f p = None -> blocked f p -> h p = None) /\ (f p = None -> ~ blocked f p -> h p = g p).

Section Const.
Variable cov : rpath -> bool -> bool.
Lemma found_nodir : forall c rp e r, (is_directory e = false -> entries e = []) -> is_directory e = false -> found c rp (entries e) r = None.
Proof. intros c rp e r H D. rewrite (H D). apply found_nil. Qed.

Lemma preserve_list : forall B, tidy B -> forall rp cur, tidy cur ->
  exists M, merge_list pol_p cov false rp B cur = Ok M /\ tidy M /\ combined (found all_of_it rp cur) (found cov rp B) (found all_of_it rp M).
Proof.
  intro B. induction B as [B IH] using entries_ind. intros TB rp cur TC.
  assert (U : forall n x, In (n, x) B -> forall c, tidy c -> exists M, merge_node pol_p cov false (n :: rp) x c = Ok M /\ tidy M /\
    combined (found all_of_it (n :: rp) c) (found cov (n :: rp) (entries x)) (found all_of_it (n :: rp) M)).
  { intros n x I c Tc. rewrite merge_node_entries. apply (IH n x I); [|exact Tc]. exact (proj2 (tidy_in _ _ _ TB I)). }
  assert (S : forall n x, In (n, x) B -> exists p, merge_entry pol_p cov false (merge_node pol_p cov false (n :: rp) x) rp n x (aget n cur) = Ok p /\
    match cov (n :: rp) (is_directory x), aget n cur with
    | false, _ => p = PSame
    | true, None => exists c, p = PMove (with_below x c) /\ tidy c /\ (is_directory x = false -> c = []) /\
        combined (fun _ => None) (found cov (n :: rp) (entries x)) (found all_of_it (n :: rp) c)
    | true, Some y => exists c, p = PSet (with_below y c) /\ tidy c /\ (is_directory y = false -> c = []) /\
        combined (found all_of_it (n :: rp) (entries y)) (if is_directory y then found cov (n :: rp) (entries x) else fun _ => None) (found all_of_it (n :: rp) c)
    end).
  { intros n x I. destruct (tidy_in _ _ _ TB I) as [Tx _]. unfold merge_entry. rewrite !dir_of_is. destruct (cov (n :: rp) (is_directory x)); [|eexists; split; reflexivity].
    destruct (aget n cur) as [y|] eqn:Ey.
    - destruct (tidy_get _ _ _ TC Ey) as [Ty1 Ty2]. change (pol_p y x) with (@Ok (adata * aea) (D_preserve, A_preserve)). cbn [bind].
      assert (K : kept_entry D_preserve A_preserve y x = Ok y) by (destruct y as [h c|k|]; reflexivity). rewrite K. cbn [bind]. rewrite ?dir_of_is.
      destruct (is_directory y) eqn:Dy; cbn [andb].
      + destruct (is_directory x) eqn:Dx.
        * rewrite below_entries. destruct (U n x I (entries y) Ty2) as (M & E & TM & Cm). rewrite E. cbn [bind]. eexists. split; [reflexivity|]. exists M.
          split; [reflexivity|]. split; [exact TM|]. split; [discriminate|exact Cm].
        * eexists. split; [reflexivity|]. exists (entries y). split; [destruct y; reflexivity|]. split; [exact Ty2|]. split; [discriminate|].
          rewrite (Tx eq_refl). intro p. split; [auto|]. split; [auto|]. rewrite found_nil. auto.
      + eexists. split; [reflexivity|]. exists []. split; [destruct y as [h c|k|]; cbn in *; try reflexivity; rewrite Ty1; reflexivity|]. split; [apply tidy_nil|]. split; [reflexivity|].
        rewrite (Ty1 eq_refl). intro p. split; [auto|]. split; [auto|]. rewrite found_nil. auto.
    - destruct (is_directory x) eqn:Dx.
      + destruct (U n x I [] tidy_nil) as (M & E & TM & Cm). rewrite E. cbn [bind]. eexists. split; [reflexivity|]. exists M. split; [reflexivity|]. split; [exact TM|]. split; [discriminate|].
        intro p. destruct (Cm p) as (_ & C2 & C3). rewrite found_nil in *. split; [discriminate|]. split.
        * intros _ (q & r & e & _ & _ & _ & F & _). discriminate.
        * intros _ _. apply C3; [reflexivity|]. intros (q & r & e & _ & _ & _ & F & _). rewrite found_nil in F. discriminate.
      + cbn [bind]. eexists. split; [reflexivity|]. exists []. split; [reflexivity|]. split; [apply tidy_nil|]. split; [reflexivity|]. rewrite (Tx eq_refl). intro p. rewrite !found_nil. auto. }
  destruct (merge_names pol_p cov false rp B cur (tidy_nodup _ TB)) as (M & EM & HM & HN & HD).
  { intros n x I. destruct (S n x I) as (p & E & _). eauto. }
  assert (Dw : forall e c, (is_directory e = false -> c = []) -> is_directory (with_below e c) = is_directory e /\ entries (with_below e c) = match e with CIno _ _ => c | _ => [] end /\ alone (with_below e c) = alone e).
  { intros [h c0|k|] c _; auto. }
  (* the entry under a name *)
  assert (G : forall n, match aget n B with
    | None => aget n M = aget n cur
    | Some x => if cov (n :: rp) (is_directory x) then match aget n cur with
        | None => exists c, aget n M = Some (with_below x c) /\ tidy c /\ (is_directory x = false -> c = []) /\ combined (fun _ => None) (found cov (n :: rp) (entries x)) (found all_of_it (n :: rp) c)
        | Some y => exists c, aget n M = Some (with_below y c) /\ tidy c /\ (is_directory y = false -> c = []) /\
            combined (found all_of_it (n :: rp) (entries y)) (if is_directory y then found cov (n :: rp) (entries x) else fun _ => None) (found all_of_it (n :: rp) c)
        end else aget n M = aget n cur end).
  { intro n. destruct (aget n B) as [x|] eqn:Ex; [|apply HN; exact Ex]. destruct (S n x (aget_in _ _ _ Ex)) as (p & E & Q). specialize (HM n x p Ex E).
    destruct (cov (n :: rp) (is_directory x)); [|subst p; exact HM]. destruct (aget n cur) as [y|]; destruct Q as (c & -> & Q); exists c; (split; [exact HM|exact Q]). }
  exists M. split; [exact EM|]. split.
  - constructor; [apply HD, tidy_nodup, TC|]. intros n e I. apply in_aget in I; [|apply HD, tidy_nodup, TC]. specialize (G n).
    assert (Old : aget n M = aget n cur -> (is_directory e = false -> entries e = []) /\ tidy (entries e)).
    { intro Q. rewrite I in Q. eapply tidy_get; [exact TC|]. symmetry. exact Q. }
    destruct (aget n B) as [x|]; [|auto]. destruct (cov (n :: rp) (is_directory x)); [|auto].
    assert (W : forall z c, aget n M = Some (with_below z c) -> tidy c -> (is_directory z = false -> c = []) -> (is_directory e = false -> entries e = []) /\ tidy (entries e)).
    { intros z c Q Tc Zc. rewrite I in Q. injection Q as ->. destruct (Dw z c Zc) as (-> & -> & _). destruct z; split; auto; apply tidy_nil. }
    destruct (aget n cur) as [y|]; destruct G as (c & Q & Tc & Zc & _); eauto.
  - intro p. destruct p as [|n r]; [split; [discriminate|]; split; reflexivity|]. specialize (G n).
    rewrite !found_cons. unfold all_of_it at 1 2 3 5 6 8.
    assert (Old : aget n M = aget n cur -> match aget n B with None => True | Some x => cov (n :: rp) (is_directory x) = false end ->
       (forall e, match aget n cur with None => None | Some e0 => match r with [] => Some (alone e0) | _ => found all_of_it (n :: rp) (entries e0) r end end = Some e ->
           match aget n M with None => None | Some e0 => match r with [] => Some (alone e0) | _ => found all_of_it (n :: rp) (entries e0) r end end = Some e) /\
       (match aget n cur with None => None | Some e0 => match r with [] => Some (alone e0) | _ => found all_of_it (n :: rp) (entries e0) r end end = None ->
          match aget n M with None => None | Some e0 => match r with [] => Some (alone e0) | _ => found all_of_it (n :: rp) (entries e0) r end end = None) /\
       match aget n B with None => None | Some e0 => if cov (n :: rp) (is_directory e0) then match r with [] => Some (alone e0) | _ => found cov (n :: rp) (entries e0) r end else None end = None).
    { intros Q1 Q2. rewrite Q1. split; [auto|]. split; [auto|]. destruct (aget n B) as [x|]; [|reflexivity]. rewrite Q2. reflexivity. }
    destruct (aget n B) as [x|] eqn:Ex; [destruct (cov (n :: rp) (is_directory x)) eqn:Ec|].
    2: { destruct (Old G eq_refl) as (O1 & O2 & O3). split; [exact O1|]. split; [auto|]. auto. }
    2: { destruct (Old G I) as (O1 & O2 & O3). split; [exact O1|]. split; [auto|]. auto. }
    clear Old. destruct (aget n cur) as [y|] eqn:Ey.
    + destruct G as (c & -> & Tc & Zc & Cm). destruct (Dw y c Zc) as (D1 & D2 & D3). rewrite D3, D2.
      destruct r as [|m r]; [split; [auto|]; split; discriminate|].
      assert (Ny : is_directory y = false -> found all_of_it (n :: rp) (entries y) (m :: r) = None).
      { intro Q. destruct (tidy_get _ _ _ TC Ey) as [Z _]. rewrite (Z Q). apply found_nil. }
      destruct y as [yh yc|k|].
      * destruct (Cm (m :: r)) as (C1 & C2 & C3). rewrite (blocked_down all_of_it rp cur n (CIno yh yc) (m :: r) Ey eq_refl) by discriminate.
        split; [exact C1|]. destruct (is_directory (CIno yh yc)) eqn:Dy.
        -- split; [intros F [Q|Q]; [discriminate|]; auto|]. intros F Q. apply C3; [exact F|]. tauto.
        -- rewrite (Zc eq_refl). split; [intros; apply found_nil|]. intros F Q. exfalso. apply Q. left. reflexivity.
      * rewrite (blocked_down all_of_it rp cur n (CDet k) (m :: r) Ey eq_refl) by discriminate. cbn [entries]. rewrite found_nil. split; [discriminate|]. split; [reflexivity|]. intros _ Q. exfalso. apply Q. left. reflexivity.
      * rewrite (blocked_down all_of_it rp cur n CIgn (m :: r) Ey eq_refl) by discriminate. cbn [entries]. rewrite found_nil. split; [discriminate|]. split; [reflexivity|]. intros _ Q. exfalso. apply Q. left. reflexivity.
    + destruct G as (c & -> & Tc & Zc & Cm). destruct (Dw x c Zc) as (D1 & D2 & D3). rewrite D3, D2. split; [discriminate|]. split.
      * intros _ Q. exfalso. revert Q. apply blocked_none. intros e Q. congruence.
      * intros _ _. destruct r as [|m r]; [reflexivity|]. destruct x as [xh xc|k|]; [|cbn [entries]; rewrite !found_nil; reflexivity|cbn [entries]; rewrite !found_nil; reflexivity].
        destruct (Cm (m :: r)) as (_ & _ & C3). apply C3; [reflexivity|]. intros (q & r' & e & _ & _ & _ & F & _). discriminate.
Qed.

Lemma overwrite_list : forall B, tidy B -> forall rp cur, tidy cur ->
  exists M, merge_list pol_o cov false rp B cur = Ok M /\ tidy M /\ combined (found cov rp B) (found all_of_it rp cur) (found all_of_it rp M).
Proof.
  intro B. induction B as [B IH] using entries_ind. intros TB rp cur TC.
  assert (U : forall n x, In (n, x) B -> forall c, tidy c -> exists M, merge_node pol_o cov false (n :: rp) x c = Ok M /\ tidy M /\
    combined (found cov (n :: rp) (entries x)) (found all_of_it (n :: rp) c) (found all_of_it (n :: rp) M)).
  { intros n x I c Tc. rewrite merge_node_entries. apply (IH n x I); [|exact Tc]. exact (proj2 (tidy_in _ _ _ TB I)). }
  pose (ye := fun n => match aget n cur with Some y => entries y | None => [] end).
  assert (S : forall n x, In (n, x) B -> exists p, merge_entry pol_o cov false (merge_node pol_o cov false (n :: rp) x) rp n x (aget n cur) = Ok p /\
    if cov (n :: rp) (is_directory x) then
      exists c, put_get p (aget n cur) = Some (with_below x c) /\ tidy c /\ (is_directory x = false -> c = []) /\
        (is_directory x = true -> combined (found cov (n :: rp) (entries x)) (found all_of_it (n :: rp) (ye n)) (found all_of_it (n :: rp) c))
    else p = PSame).
  { intros n x I. destruct (tidy_in _ _ _ TB I) as [Tx _]. unfold merge_entry. rewrite !dir_of_is. destruct (cov (n :: rp) (is_directory x)); [|eexists; split; reflexivity].
    unfold ye. destruct (aget n cur) as [y|] eqn:Ey.
    - destruct (tidy_get _ _ _ TC Ey) as [Ty1 Ty2]. change (pol_o y x) with (@Ok (adata * aea) (D_overwrite, A_overwrite)). cbn [bind].
      assert (K : new_entry D_overwrite A_overwrite y x = Ok x) by (destruct x as [h c|k|]; reflexivity). rewrite K. cbn [bind]. rewrite ?dir_of_is.
      destruct (is_directory x) eqn:Dx.
      + destruct (is_directory y) eqn:Dy; cbn [andb].
        * rewrite below_entries. destruct (U n x I (entries y) Ty2) as (M & E & TM & Cm). rewrite E. cbn [bind]. eexists. split; [reflexivity|]. exists M.
          split; [reflexivity|]. split; [exact TM|]. split; [discriminate|]. intros _. exact Cm.
        * destruct (U n x I [] tidy_nil) as (M & E & TM & Cm). rewrite E. cbn [bind]. eexists. split; [reflexivity|]. exists M.
          split; [reflexivity|]. split; [exact TM|]. split; [discriminate|]. intros _. rewrite (Ty1 eq_refl). exact Cm.
      + rewrite andb_false_r. cbn [bind]. eexists. split; [reflexivity|]. exists []. split; [reflexivity|]. split; [apply tidy_nil|]. split; [reflexivity|discriminate].
    - destruct (is_directory x) eqn:Dx.
      + destruct (U n x I [] tidy_nil) as (M & E & TM & Cm). rewrite E. cbn [bind]. eexists. split; [reflexivity|]. exists M. split; [reflexivity|]. split; [exact TM|]. split; [discriminate|]. auto.
      + cbn [bind]. eexists. split; [reflexivity|]. exists []. split; [reflexivity|]. split; [apply tidy_nil|]. split; [reflexivity|discriminate]. }
  destruct (merge_names pol_o cov false rp B cur (tidy_nodup _ TB)) as (M & EM & HM & HN & HD).
  { intros n x I. destruct (S n x I) as (p & E & _). eauto. }
  assert (Dw : forall e c, is_directory (with_below e c) = is_directory e /\ entries (with_below e c) = match e with CIno _ _ => c | _ => [] end /\ alone (with_below e c) = alone e).
  { intros [h c0|k|] c; auto. }
  assert (G : forall n, match aget n B with
    | None => aget n M = aget n cur
    | Some x => if cov (n :: rp) (is_directory x) then
        exists c, aget n M = Some (with_below x c) /\ tidy c /\ (is_directory x = false -> c = []) /\
          (is_directory x = true -> combined (found cov (n :: rp) (entries x)) (found all_of_it (n :: rp) (ye n)) (found all_of_it (n :: rp) c))
        else aget n M = aget n cur end).
  { intro n. destruct (aget n B) as [x|] eqn:Ex; [|apply HN; exact Ex]. destruct (S n x (aget_in _ _ _ Ex)) as (p & E & Q). specialize (HM n x p Ex E).
    destruct (cov (n :: rp) (is_directory x)); [|subst p; exact HM]. destruct Q as (c & Q1 & Q). exists c. split; [congruence|exact Q]. }
  exists M. split; [exact EM|]. split.
  - constructor; [apply HD, tidy_nodup, TC|]. intros n e I. apply in_aget in I; [|apply HD, tidy_nodup, TC]. specialize (G n).
    assert (Old : aget n M = aget n cur -> (is_directory e = false -> entries e = []) /\ tidy (entries e)).
    { intro Q. rewrite I in Q. eapply tidy_get; [exact TC|]. symmetry. exact Q. }
    destruct (aget n B) as [x|]; [|auto]. destruct (cov (n :: rp) (is_directory x)); [|auto].
    destruct G as (c & Q & Tc & Zc & _). rewrite I in Q. injection Q as ->. destruct (Dw x c) as (-> & -> & _). destruct x; split; auto; apply tidy_nil.
  - intro p. destruct p as [|n r]; [split; [discriminate|]; split; reflexivity|]. specialize (G n). rewrite !found_cons. unfold all_of_it at 1 3 5 7.
    destruct (aget n B) as [x|] eqn:Ex; [destruct (cov (n :: rp) (is_directory x)) eqn:Ec|].
    2: { rewrite G. split; [discriminate|]. split; [|reflexivity]. intros _ Q. exfalso. revert Q. apply blocked_none. intros e Q. congruence. }
    2: { rewrite G. split; [discriminate|]. split; [|reflexivity]. intros _ Q. exfalso. revert Q. apply blocked_none. intros e Q. congruence. }
    destruct G as (c & -> & Tc & Zc & Cm). destruct (Dw x c) as (D1 & D2 & D3). rewrite D3, D2.
    destruct r as [|m r]; [split; [auto|]; split; discriminate|]. rewrite (blocked_down cov rp B n x (m :: r) Ex Ec) by discriminate.
    destruct (is_directory x) eqn:Dx.
    + destruct (Cm eq_refl (m :: r)) as (C1 & C2 & C3). destruct x as [xh xc|k|]; [|discriminate|discriminate].
      split; [exact C1|]. split; [intros F [Q|Q]; [discriminate|]; auto|]. intros F Q.
      rewrite C3 by tauto. unfold ye. destruct (aget n cur) as [y|]; [reflexivity|apply found_nil].
    + assert (Z : match x with CIno _ _ => c | _ => [] end = []) by (destruct x; auto). rewrite Z, found_nil.
      assert (Zx : entries x = []) by (apply (proj1 (tidy_get _ _ _ TB Ex)); exact Dx). rewrite Zx, found_nil.
      split; [discriminate|]. split; [reflexivity|]. intros _ Q. exfalso. apply Q. left. reflexivity.
Qed.
Lemma blocked_ext : forall f g p, (forall q, f q = g q) -> blocked f p -> blocked g p.
Proof. intros f g p H (q & r & e & A & B & C & D & E). exists q, r, e. rewrite <- H. auto 10. Qed.
(** the first archive, over an empty catalogue *)
Lemma first_pass : forall pol A, tidy A -> forall rp, exists C, merge_list pol cov false rp A [] = Ok C /\ tidy C /\ forall p, found all_of_it rp C p = found cov rp A p.
Proof.
  intros pol A. induction A as [A IH] using entries_ind. intros TA rp.
  assert (S : forall n x, In (n, x) A -> exists p, merge_entry pol cov false (merge_node pol cov false (n :: rp) x) rp n x (@aget cnode n []) = Ok p /\
    if cov (n :: rp) (is_directory x) then
      exists c, p = PMove (with_below x c) /\ tidy c /\ (is_directory x = false -> c = []) /\
        (is_directory x = true -> forall q, found all_of_it (n :: rp) c q = found cov (n :: rp) (entries x) q)
    else p = PSame).
  { intros n x I. unfold merge_entry. cbn [aget]. rewrite !dir_of_is. destruct (cov (n :: rp) (is_directory x)); [|eexists; split; reflexivity].
    destruct (is_directory x) eqn:Dx.
    - destruct (IH n x I (proj2 (tidy_in _ _ _ TA I)) (n :: rp)) as (C & E & TC & H). rewrite merge_node_entries, E. cbn [bind]. eexists. split; [reflexivity|]. exists C. split; [reflexivity|]. split; [exact TC|]. split; [discriminate|auto].
    - cbn [bind]. eexists. split; [reflexivity|]. exists []. split; [reflexivity|]. split; [apply tidy_nil|]. split; [reflexivity|discriminate]. }
  destruct (merge_names pol cov false rp A [] (tidy_nodup _ TA)) as (M & EM & HM & HN & HD).
  { intros n x I. destruct (S n x I) as (p & E & _). eauto. }
  assert (Dw : forall e c, is_directory (with_below e c) = is_directory e /\ entries (with_below e c) = match e with CIno _ _ => c | _ => [] end /\ alone (with_below e c) = alone e).
  { intros [h c0|k|] c; auto. }
  assert (G : forall n, match aget n A with
    | None => aget n M = None
    | Some x => if cov (n :: rp) (is_directory x) then
        exists c, aget n M = Some (with_below x c) /\ tidy c /\ (is_directory x = false -> c = []) /\
          (is_directory x = true -> forall q, found all_of_it (n :: rp) c q = found cov (n :: rp) (entries x) q)
        else aget n M = None end).
  { intro n. destruct (aget n A) as [x|] eqn:Ex; [|apply HN; exact Ex]. destruct (S n x (aget_in _ _ _ Ex)) as (p & E & Q). specialize (HM n x p Ex E).
    destruct (cov (n :: rp) (is_directory x)); [|subst p; exact HM]. destruct Q as (c & -> & Q). exists c. split; [exact HM|exact Q]. }
  exists M. split; [exact EM|]. specialize (HD (NoDup_nil _)). split.
  - constructor; [exact HD|]. intros n e I. apply in_aget in I; [|exact HD]. specialize (G n). rewrite I in G.
    destruct (aget n A) as [x|]; [|discriminate]. destruct (cov (n :: rp) (is_directory x)); [|discriminate].
    destruct G as (c & Q & Tc & Zc & _). injection Q as ->. destruct (Dw x c) as (-> & -> & _). destruct x; split; auto; apply tidy_nil.
  - intros [|n r]; [reflexivity|]. specialize (G n). rewrite !found_cons. unfold all_of_it at 1.
    destruct (aget n A) as [x|] eqn:Ex; [|rewrite G; reflexivity]. destruct (cov (n :: rp) (is_directory x)) eqn:Ec; [|rewrite G; reflexivity].
    destruct G as (c & -> & Tc & Zc & Q). destruct (Dw x c) as (D1 & D2 & D3). rewrite D3, D2. destruct r as [|m r]; [reflexivity|].
    destruct (is_directory x) eqn:Dx; [destruct x; [apply Q; reflexivity|discriminate|discriminate]|].
    rewrite (proj1 (tidy_get _ _ _ TA Ex) Dx), found_nil. destruct x; [rewrite (Zc eq_refl)| |]; apply found_nil.
Qed.
End Const.

(** an archive over itself with the policy "Ss" *)
Definition mark_both (h : chead) : chead := put_ea (if c_saved h then drop_data h else h) (mark_ea (c_ea h)).
Definition pol_s : cnode -> cnode -> res (adata * aea) := fun _ _ => Ok (D_preserve_mark, A_preserve_mark).
Lemma aset_mid : forall A n (e : A) l y r, ~ In n (map fst l) -> aset n e (l ++ (n, y) :: r) = l ++ (n, e) :: r.
Proof.
  induction l as [|[m b] l IH]; intros y r H; cbn.
  - rewrite neqb_refl. reflexivity.
  - rewrite neqb_ne by (cbn in H; intros ->; apply H; left; reflexivity). f_equal. apply IH. cbn in H. tauto.
Qed.
Lemma aget_mid : forall A n (e : A) l r, ~ In n (map fst l) -> aget n (l ++ (n, e) :: r) = Some e.
Proof. intros A n e l r H. rewrite aget_app, aget_none by exact H. cbn. rewrite neqb_refl. reflexivity. Qed.
Lemma with_below_entries : forall e, with_below e (entries e) = e. Proof. intros [h c|k|]; reflexivity. Qed.
Definition iso := map (fun ne : name * cnode => (fst ne, isolated (snd ne))).
Lemma isolated_CIno : forall h c, isolated (CIno h c) = CIno (mark_both h) (iso c).
Proof. intros h c. cbn [isolated]. unfold mark_both, put_ea, drop_data. destruct (c_saved h) eqn:E; cbn; rewrite ?E; f_equal; destruct (c_ea h); reflexivity. Qed.
Lemma self_merge : forall A, tidy A -> forall rp, merge_list pol_s all_of_it false rp A A = Ok (iso A).
Proof.
  intro A. induction A as [A IH] using entries_ind. intros TA rp.
  assert (G : forall R L, A = L ++ R -> merge_list pol_s all_of_it false rp R (iso L ++ R) = Ok (iso A)).
  { induction R as [|[n x] R IHR]; intros L E.
    - cbn. rewrite app_nil_r in *. subst. reflexivity.
    - assert (Nd := tidy_nodup _ TA). assert (I : In (n, x) A) by (rewrite E; apply in_or_app; right; left; reflexivity).
      assert (Nn : ~ In n (map fst (iso L))).
      { unfold iso. rewrite map_map. cbn [fst]. rewrite E, map_app in Nd. cbn [map fst] in Nd. apply NoDup_remove_2 in Nd. rewrite in_app_iff in Nd. tauto. }
      rewrite merge_cons, aget_mid by exact Nn.
      assert (K : merge_entry pol_s all_of_it false (merge_node pol_s all_of_it false (n :: rp) x) rp n x (Some x) = Ok (PSet (isolated x))).
      { unfold merge_entry, all_of_it at 1. change (pol_s x x) with (@Ok (adata * aea) (D_preserve_mark, A_preserve_mark)). cbn [bind]. destruct (tidy_in _ _ _ TA I) as [Tx Tx'].
        destruct x as [h c|k|]; [|reflexivity|reflexivity]. cbn [kept_entry bind].
        rewrite isolated_CIno. replace (put_ea (if c_saved h then drop_data h else h) (mark_ea (c_ea (if c_saved h then drop_data h else h)))) with (mark_both h) by (unfold mark_both; destruct (c_saved h); reflexivity).
        rewrite !dir_of_is. destruct (is_directory (CIno h c)) eqn:D; cbn [andb].
        - assert (Q := IH n (CIno h c) I Tx' (n :: rp)). change (merge_node pol_s all_of_it false (n :: rp) (CIno h c) (below_of (CIno h c))) with (merge_list pol_s all_of_it false (n :: rp) (entries (CIno h c)) (entries (CIno h c))). rewrite Q. reflexivity.
        - cbn [entries] in Tx. rewrite (Tx eq_refl). reflexivity. }
      rewrite K. cbn [bind apply_put]. rewrite aset_mid by exact Nn.
      replace (iso L ++ (n, isolated x) :: R) with (iso (L ++ [(n, x)]) ++ R) by (unfold iso; rewrite map_app, <- app_assoc; reflexivity).
      apply IHR. rewrite <- app_assoc. exact E. }
  apply (G A []). reflexivity.
Qed.
(** nothing is changed by the first pass when everything is selected *)
Lemma first_all : forall pol A, tidy A -> forall rp, merge_list pol all_of_it false rp A [] = Ok A.
Proof.
  intros pol A. induction A as [A IH] using entries_ind. intros TA rp.
  assert (G : forall R L, A = L ++ R -> merge_list pol all_of_it false rp R L = Ok A).
  { induction R as [|[n x] R IHR]; intros L E.
    - cbn. rewrite app_nil_r in *. subst. reflexivity.
    - assert (Nd := tidy_nodup _ TA). assert (I : In (n, x) A) by (rewrite E; apply in_or_app; right; left; reflexivity).
      assert (Nn : ~ In n (map fst L)).
      { rewrite E, map_app in Nd. cbn [map fst] in Nd. apply NoDup_remove_2 in Nd. rewrite in_app_iff in Nd. tauto. }
      rewrite merge_cons, aget_none by exact Nn. destruct (tidy_in _ _ _ TA I) as [Tx Tx'].
      assert (K : merge_entry pol all_of_it false (merge_node pol all_of_it false (n :: rp) x) rp n x None = Ok (PMove x)).
      { unfold merge_entry, all_of_it at 1. rewrite dir_of_is. destruct (is_directory x) eqn:D.
        - rewrite merge_node_entries, (IH n x I Tx'). cbn [bind]. rewrite with_below_entries. reflexivity.
        - cbn [bind]. rewrite <- (Tx eq_refl), with_below_entries. reflexivity. }
      rewrite K. cbn [bind apply_put].
      assert (Z : adel n L = L). { clear -Nn. induction L as [|[m b] L IHL]; [reflexivity|]. cbn in *. rewrite neqb_ne by (intros ->; tauto). f_equal. tauto. }
      rewrite Z. apply IHR. rewrite <- app_assoc. exact E. }
  apply (G A []). reflexivity.
Qed.
