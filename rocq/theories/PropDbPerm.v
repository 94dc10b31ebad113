(** * Property C20: reordering the archives of a database. *)
From Verif Require Import Base NumModel InfinintModel DatetimeModel CrcModel PropDatetime DbModel DbMap PropDbDelta.
From Coq Require Import Sorting.Sorted.
Open Scope N_scope.

(** ** Specification *)
(** every file of the database has its records in order of archive, as std::map guarantees *)
Definition in_order (m : amap statusp) (c : amap status) : Prop := sorted m /\ sorted c.
(** the records of a file in archive x, up to the usability flag of patches (C22) *)
Definition same_data (a b : option statusp) : Prop :=
  match a, b with Some s, Some s' => same_but_flag s s' | None, None => True | _, _ => False end.

(** ** numbers *)
Lemma perm_cases : forall src dst x, let y := perm src dst x in
  (x = src /\ y = dst) \/ (src < x <= dst /\ y + 1 = x) \/ (dst <= x < src /\ y = x + 1) \/
  (x <> src /\ (x < src \/ dst < x) /\ (src < x \/ x < dst) /\ y = x).
Proof.
  intros src dst x. unfold perm.
  destruct (N.ltb_spec src dst); [|destruct (N.eqb_spec src dst)].
  - destruct (N.ltb_spec x src), (N.ltb_spec dst x); cbn [orb]; try lia. destruct (N.eqb_spec x src); lia.
  - lia.
  - destruct (N.ltb_spec src x), (N.ltb_spec x dst); cbn [orb]; try lia. destruct (N.eqb_spec x src); lia.
Qed.
Lemma perm_back : forall src dst x, perm dst src (perm src dst x) = x.
Proof.
  intros. pose proof (perm_cases src dst x) as H1. pose proof (perm_cases dst src (perm src dst x)) as H2. cbn in *. lia.
Qed.
Lemma perm_inj : forall src dst a b, perm src dst a = perm src dst b -> a = b.
Proof. intros src dst a b H. rewrite <- (perm_back src dst a), <- (perm_back src dst b), H. reflexivity. Qed.

(** the numbers change as the positions in the list of archives do, when the element at [src] is taken out and put back at [dst] *)
Lemma nth_skipn : forall A (l : list A) n i, nth_error (skipn n l) i = nth_error l (n + i).
Proof. induction l as [|x l IH]; intros [|n] i; cbn; try reflexivity; [destruct i; reflexivity|apply IH]. Qed.
Lemma nth_firstn : forall A (l : list A) n i, (i < n)%nat -> nth_error (firstn n l) i = nth_error l i.
Proof. induction l as [|x l IH]; intros [|n] [|i] H; cbn; try reflexivity; try lia. apply IH. lia. Qed.
Lemma nth_erase : forall A (l : list A) n i, (n < length l)%nat ->
  nth_error (erase_at n l) i = nth_error l (if (i <? n)%nat then i else S i).
Proof.
  intros A l n i H. unfold erase_at. assert (L : length (firstn n l) = n) by (rewrite firstn_length; lia).
  destruct (Nat.ltb_spec i n).
  - rewrite nth_error_app1 by lia. apply nth_firstn. assumption.
  - rewrite nth_error_app2 by lia. rewrite L, nth_skipn. f_equal. lia.
Qed.
Lemma nth_insert : forall A (l : list A) n x i, (n <= length l)%nat ->
  nth_error (insert_at n x l) i = if (i <? n)%nat then nth_error l i else if (i =? n)%nat then Some x else nth_error l (i - 1).
Proof.
  intros A l n x i H. unfold insert_at. assert (L : length (firstn n l) = n) by (rewrite firstn_length; lia).
  destruct (Nat.ltb_spec i n).
  - rewrite nth_error_app1 by lia. apply nth_firstn. assumption.
  - rewrite nth_error_app2 by lia. rewrite L. destruct (Nat.eqb_spec i n); [subst; rewrite Nat.sub_diag; reflexivity|].
    replace (i - n)%nat with (S (i - n - 1)) by lia. cbn. rewrite nth_skipn. f_equal. lia.
Qed.
Lemma erase_length : forall A (l : list A) n, (n < length l)%nat -> length (erase_at n l) = (length l - 1)%nat.
Proof. intros A l n H. unfold erase_at. rewrite app_length, firstn_length, skipn_length. lia. Qed.
Theorem C20_numbers_follow : forall A (l : list A) src dst x m, src < N.of_nat (length l) -> dst < N.of_nat (length l) -> x < N.of_nat (length l) ->
  nth_error l (N.to_nat src) = Some m ->
  nth_error (insert_at (N.to_nat dst) m (erase_at (N.to_nat src) l)) (N.to_nat (perm src dst x)) = nth_error l (N.to_nat x).
Proof.
  intros A l src dst x m Hs Hd Hx Hm.
  assert (Le := erase_length A l (N.to_nat src) ltac:(lia)).
  rewrite nth_insert by lia. rewrite !nth_erase by lia. unfold perm.
  destruct (N.ltb_spec src dst).
  - destruct (N.ltb_spec x src), (N.ltb_spec dst x); cbn [orb]; try lia.
    + replace (N.to_nat x <? N.to_nat dst)%nat with true by lia. replace (N.to_nat x <? N.to_nat src)%nat with true by lia. reflexivity.
    + replace (N.to_nat x <? N.to_nat dst)%nat with false by lia. replace (N.to_nat x =? N.to_nat dst)%nat with false by lia.
      replace (N.to_nat x - 1 <? N.to_nat src)%nat with false by lia. f_equal. lia.
    + destruct (N.eqb_spec x src).
      * rewrite Nat.ltb_irrefl, Nat.eqb_refl. subst x. symmetry. exact Hm.
      * replace (N.to_nat (x - 1) <? N.to_nat dst)%nat with true by lia. replace (N.to_nat (x - 1) <? N.to_nat src)%nat with false by lia. f_equal. lia.
  - destruct (N.eqb_spec src dst).
    + subst dst. destruct (N.to_nat x <? N.to_nat src)%nat eqn:E1; [reflexivity|].
      destruct (N.to_nat x =? N.to_nat src)%nat eqn:E2; [replace x with src by lia; symmetry; exact Hm|].
      replace (N.to_nat x - 1 <? N.to_nat src)%nat with false by lia. f_equal. lia.
    + destruct (N.ltb_spec src x), (N.ltb_spec x dst); cbn [orb]; try lia.
      * replace (N.to_nat x <? N.to_nat dst)%nat with false by lia. replace (N.to_nat x =? N.to_nat dst)%nat with false by lia.
        replace (N.to_nat x - 1 <? N.to_nat src)%nat with false by lia. f_equal. lia.
      * replace (N.to_nat x <? N.to_nat dst)%nat with true by lia. replace (N.to_nat x <? N.to_nat src)%nat with true by lia. reflexivity.
      * destruct (N.eqb_spec x src).
        -- rewrite Nat.ltb_irrefl, Nat.eqb_refl. subst x. symmetry. exact Hm.
        -- replace (N.to_nat (x + 1) <? N.to_nat dst)%nat with false by lia. replace (N.to_nat (x + 1) =? N.to_nat dst)%nat with false by lia.
           replace (N.to_nat (x + 1) - 1 <? N.to_nat src)%nat with true by lia. f_equal. lia.
Qed.
Theorem C20_back_number : forall src dst x, perm dst src (perm src dst x) = x.
Proof. exact perm_back. Qed.

(** ** records *)
Lemma forall2_find : forall (m m' : amap statusp) x,
  Forall2 (fun x y => fst x = fst y /\ same_but_flag (snd x) (snd y)) m m' -> same_data (mfind x m) (mfind x m').
Proof.
  intros m m' x H. induction H as [|[k s] [k' s'] r r' [E1 E2] H IH]; [exact I|]. cbn in *. subst k'. destruct (x =? k); [exact E2|exact IH].
Qed.
Lemma forall2_sorted : forall (m m' : amap statusp),
  Forall2 (fun x y => fst x = fst y /\ same_but_flag (snd x) (snd y)) m m' -> sorted m -> sorted m'.
Proof.
  intros m m' H. induction H as [|[k s] [k' s'] r r' [E1 E2] H IH]; intro S; [constructor|]. cbn in *. subst k'.
  pose proof (sorted_inv _ _ _ S) as [S1 S2]. constructor; [apply IH; exact S1|].
  apply Forall_forall. intros [k2 v2] Hin. cbn.
  assert (X : exists w, In (k2, w) r).
  { clear -H Hin. induction H as [|[a b] [a' b'] l l' [E _] _ IH]; [destruct Hin|]. cbn in E. subst. destruct Hin as [E|Hin]; [injection E as -> ->; exists b; left; reflexivity|].
    destruct (IH Hin) as [w Hw]. exists w; right; exact Hw. }
  destruct X as [w Hw]. exact (S2 _ _ Hw).
Qed.
Lemma check_delta_sorted : forall m m', check_delta m = Ok m' -> sorted m -> sorted m'.
Proof. intros m m' H. apply forall2_sorted. apply C22_only_flags. exact H. Qed.
Lemma check_delta_find : forall m m' x, check_delta m = Ok m' -> same_data (mfind x m) (mfind x m').
Proof. intros m m' x H. apply forall2_find. apply C22_only_flags. exact H. Qed.

Lemma read_child_apply : forall src dst n l l', Forall2 (fun x y => apply_permutation src dst x = Ok y) l l' ->
  match read_child n l, read_child n l' with
  | Some u, Some u' => apply_permutation src dst u = Ok u' /\ In u l
  | None, None => True
  | _, _ => False
  end.
Proof.
  intros src dst n l l' H. induction H as [|x y r r' E H IH]; [exact I|]. cbn.
  assert (En : t_name y = t_name x).
  { destruct x as [nx mx cx kx]. cbn in E. destruct (check_delta _); cbn in E; [|discriminate].
    match type of E with bind ?X _ = _ => destruct X; cbn in E; [|discriminate] end. injection E as <-. reflexivity. }
  rewrite En. destruct (name_eqb (t_name x) n); [split; [exact E|left; reflexivity]|].
  destruct (read_child n r), (read_child n r'); try exact IH. destruct IH as [IH1 IH2]. split; [exact IH1|right; exact IH2].
Qed.
(** the file found at a path keeps all its records, those of archive x being now those of archive [perm src dst x] *)
Definition moved (src dst : N) (u u' : tree) : Prop :=
  t_name u' = t_name u /\
  (forall x, same_data (mfind x (t_mods u)) (mfind (perm src dst x) (t_mods u'))) /\
  (forall x, mfind (perm src dst x) (t_chg u') = mfind x (t_chg u)) /\
  flags_right (t_mods u').
Lemma apply_inv : forall src dst n m c k t', apply_permutation src dst (Tree n m c k) = Ok t' ->
  exists m' k', t' = Tree n m' (rekey (perm src dst) c []) k' /\ check_delta (rekey (perm src dst) m []) = Ok m' /\
    match k, k' with None, None => True | Some l, Some l' => Forall2 (fun x y => apply_permutation src dst x = Ok y) l l' | _, _ => False end.
Proof.
  intros src dst n m c k t' H. cbn in H. destruct (check_delta _) as [m'|] eqn:E; cbn in H; [|discriminate].
  destruct k as [l|].
  - destruct (mapM (apply_permutation src dst) l) as [l'|] eqn:E2; cbn in H; [|discriminate]. injection H as <-. apply mapM_ok in E2. eauto 10.
  - cbn in H. injection H as <-. eauto 10.
Qed.
Lemma moved_node : forall src dst t t', nodes in_order t -> apply_permutation src dst t = Ok t' -> moved src dst t t'.
Proof.
  intros src dst [n m c k] t' Hn H. apply apply_inv in H as (m' & k' & -> & Em & _).
  destruct Hn as [[Sm Sc] _].
  unfold moved. cbn. split; [reflexivity|]. split; [|split].
  - intro x. pose proof (check_delta_find _ _ (perm src dst x) Em) as X. rewrite rekey_at in X; [exact X|intros a b; apply perm_inj|exact Sm].
  - intro x. apply rekey_at; [intros a b; apply perm_inj|exact Sc].
  - eapply C22_flags; eauto.
Qed.
Theorem C20_records : forall src dst t t', nodes in_order t -> apply_permutation src dst t = Ok t' -> forall path,
  match tree_find path t, tree_find path t' with
  | Some u, Some u' => moved src dst u u'
  | None, None => True
  | _, _ => False
  end.
Proof.
  intros src dst t t' Hn H path. revert t t' Hn H. induction path as [|n path IH]; intros t t' Hn H; [apply moved_node; assumption|].
  destruct t as [nm m c k]. pose proof H as H0. apply apply_inv in H as (m' & k' & -> & Em & Hk). cbn [tree_find t_kids].
  destruct k as [l|], k' as [l'|]; try contradiction; [|exact I].
  apply nodes_kids in Hn as [_ Hl]. rewrite Forall_forall in Hl.
  pose proof (read_child_apply _ _ n _ _ Hk) as X. destruct (read_child n l) as [u|], (read_child n l') as [u'|]; try contradiction; [|exact I].
  destruct X as [X1 X2]. apply IH; auto.
Qed.

(** ** moving back *)
Lemma rekey_back : forall A (m : amap A) src dst, sorted m -> rekey (perm dst src) (rekey (perm src dst) m []) [] = m.
Proof.
  intros A m src dst S. apply map_ext_sorted; [apply rekey_sorted; constructor|exact S|].
  intro x. rewrite <- (perm_back src dst x) at 1. rewrite rekey_at; [|intros a b; apply perm_inj|apply rekey_sorted; constructor].
  apply rekey_at; [intros a b; apply perm_inj|exact S].
Qed.
(** what a database in good order satisfies at every file *)
Definition good_node (m : amap statusp) (c : amap status) : Prop :=
  sorted m /\ sorted c /\ narrow m /\ patches_have_base m /\ flags_right m.

(** check_delta only depends on the records up to the flags *)
Lemma delta_loop_ext : forall m m2, Forall2 (fun x y => fst x = fst y /\ same_but_flag (snd x) (snd y)) m m2 ->
  forall p, delta_loop p m = delta_loop p m2.
Proof.
  intros m m2 H. induction H as [|[k s] [k' s'] r r' [E1 (Ed & Eb & Er & Ep)] H IH]; intro p; [reflexivity|].
  cbn in *. subst k'. destruct s as [d e b x], s' as [d' e' b' x']. cbn in *. subst d' b' x'.
  assert (X : match e with
      | et_saved => Ok (Sp d e b x, x, true)
      | et_patch | et_patch_unusable => match b with None => Err Ebug | Some b0 =>
          let* good := match p with Some p0 => crc_cmp p0 b0 | None => Ok false end in
          if good : bool then Ok (set_present (Sp d e b x) et_patch, x, true) else Ok (set_present (Sp d e b x) et_patch_unusable, x, false) end
      | et_present | et_inode => Ok (Sp d e b x, p, true) | et_removed | et_absent => Ok (Sp d e b x, None, true) end =
      match e' with
      | et_saved => Ok (Sp d e' b x, x, true)
      | et_patch | et_patch_unusable => match b with None => Err Ebug | Some b0 =>
          let* good := match p with Some p0 => crc_cmp p0 b0 | None => Ok false end in
          if good : bool then Ok (set_present (Sp d e' b x) et_patch, x, true) else Ok (set_present (Sp d e' b x) et_patch_unusable, x, false) end
      | et_present | et_inode => Ok (Sp d e' b x, p, true) | et_removed | et_absent => Ok (Sp d e' b x, None, true) end).
  { destruct Ep as [<-|[[->| ->] [->| ->]]]; reflexivity. }
  rewrite X. match goal with |- bind ?Y _ = _ => destruct Y as [[[s' q] o]|]; cbn; [rewrite (IH q); reflexivity|reflexivity] end.
Qed.
Lemma check_delta_ext : forall m m2, Forall2 (fun x y => fst x = fst y /\ same_but_flag (snd x) (snd y)) m m2 -> check_delta m = check_delta m2.
Proof. intros m m2 H. unfold check_delta. rewrite (delta_loop_ext _ _ H). reflexivity. Qed.
(** sorted maps with the same records *)
Lemma same_forall2 : forall m m', sorted m -> sorted m' -> (forall k, same_data (mfind k m) (mfind k m')) ->
  Forall2 (fun x y => fst x = fst y /\ same_but_flag (snd x) (snd y)) m m'.
Proof.
  induction m as [|[k v] r IH]; intros m' S S' H.
  - destruct m' as [|[k v] r]; [constructor|]. specialize (H k). cbn in H. rewrite N.eqb_refl in H. destruct H.
  - destruct m' as [|[k' v'] r'].
    + specialize (H k). cbn in H. rewrite N.eqb_refl in H. destruct H.
    + pose proof (sorted_inv _ _ _ S) as [S1 S2]. pose proof (sorted_inv _ _ _ S') as [S1' S2'].
      assert (Ek : k = k').
      { pose proof (H k) as Hk. pose proof (H k') as Hk'. cbn in Hk, Hk'. rewrite N.eqb_refl in Hk, Hk'.
        destruct (N.eqb_spec k k') as [|Hne]; [assumption|]. destruct (N.eqb_spec k' k); [congruence|].
        destruct (mfind k r') as [w|] eqn:W; [|destruct Hk]. destruct (mfind k' r) as [w'|] eqn:W'; [|destruct Hk'].
        apply mfind_in in W. apply mfind_in in W'. specialize (S2' _ _ W). specialize (S2 _ _ W'). lia. }
      subst k'. pose proof (H k) as Hk. cbn in Hk. rewrite N.eqb_refl in Hk. constructor; [cbn; auto|].
      apply IH; auto. intro x. specialize (H x). cbn in H. destruct (N.eqb_spec x k); [|exact H]. subst x.
      assert (E1 : mfind k r = None).
      { apply mfind_none. intro Hin. apply in_map_iff in Hin as [[k2 v2] [E Hin]]. cbn in E; subst. specialize (S2 _ _ Hin). lia. }
      assert (E2 : mfind k r' = None).
      { apply mfind_none. intro Hin. apply in_map_iff in Hin as [[k2 v2] [E Hin]]. cbn in E; subst. specialize (S2' _ _ Hin). lia. }
      rewrite E1, E2. exact I.
Qed.
Lemma same_data_sym : forall a b, same_data a b -> same_data b a.
Proof.
  intros [s|] [s'|]; cbn; auto. unfold same_but_flag. intros (A & B & C & D). repeat split; auto. destruct D as [D|[D1 D2]]; auto.
Qed.
Lemma same_data_trans : forall a b c, same_data a b -> same_data b c -> same_data a c.
Proof.
  intros [s|] [s'|] [s2|]; cbn; try tauto. unfold same_but_flag. intros (A & B & C & D) (A' & B' & C' & D').
  repeat split; try congruence. destruct D as [D|[D1 D2]], D' as [D'|[D1' D2']]; [left; congruence| | |auto].
  - right. rewrite D. auto.
  - right. rewrite <- D'. auto.
Qed.
Lemma same_data_refl : forall a, same_data a a.
Proof. intros [s|]; cbn; auto. unfold same_but_flag. auto. Qed.

Theorem C20_move_back : forall src dst t, nodes good_node t -> forall t', apply_permutation src dst t = Ok t' -> apply_permutation dst src t' = Ok t.
Proof.
  intros src dst. induction t as [n m c|n m c l IH] using tree_ind2; intros Hn t' H;
    apply apply_inv in H as (m' & k' & -> & Em & Hk); destruct k' as [l'|]; try contradiction.
  - destruct Hn as [(Sm & Sc & Hnar & Hb & Hf) _]. cbn.
    assert (X : check_delta (rekey (perm dst src) m' []) = Ok m).
    { rewrite (check_delta_ext _ m); [apply C22_stable; assumption|].
      assert (Sm' : sorted m') by (eapply check_delta_sorted; [exact Em|apply rekey_sorted; constructor]).
      apply same_forall2; [apply rekey_sorted; constructor|exact Sm|]. intro x.
      rewrite <- (perm_back src dst x) at 1. rewrite rekey_at; [|intros a b; apply perm_inj|exact Sm'].
      apply same_data_sym. eapply same_data_trans; [|apply (check_delta_find _ _ _ Em)].
      rewrite rekey_at; [apply same_data_refl|intros a b; apply perm_inj|exact Sm]. }
    rewrite X. cbn. rewrite rekey_back by exact Sc. reflexivity.
  - apply nodes_kids in Hn as [(Sm & Sc & Hnar & Hb & Hf) Hl]. cbn.
    assert (X : check_delta (rekey (perm dst src) m' []) = Ok m).
    { rewrite (check_delta_ext _ m); [apply C22_stable; assumption|].
      assert (Sm' : sorted m') by (eapply check_delta_sorted; [exact Em|apply rekey_sorted; constructor]).
      apply same_forall2; [apply rekey_sorted; constructor|exact Sm|]. intro x.
      rewrite <- (perm_back src dst x) at 1. rewrite rekey_at; [|intros a b; apply perm_inj|exact Sm'].
      apply same_data_sym. eapply same_data_trans; [|apply (check_delta_find _ _ _ Em)].
      rewrite rekey_at; [apply same_data_refl|intros a b; apply perm_inj|exact Sm]. }
    rewrite X. cbn. rewrite rekey_back by exact Sc.
    assert (Y : mapM (apply_permutation dst src) l' = Ok l).
    { apply mapM_ok. clear -IH Hl Hk. induction Hk as [|x y r r' E Hk IH2]; [constructor|].
      inversion IH; subst. inversion Hl; subst. constructor; auto. }
    rewrite Y. reflexivity.
Qed.
(** the operation succeeds on every such database *)
Lemma narrow_rekey : forall f (m : amap statusp), sorted m -> (forall a b, f a = f b -> a = b) -> forall k s, In (k, s) (rekey f m []) -> exists k', In (k', s) m.
Proof.
  intros f m S Hf k s Hin. apply mfind_sorted in Hin; [|apply rekey_sorted; constructor].
  rewrite rekey_find in Hin; [|intros; apply Hf; assumption|exact S].
  destruct (find _ m) as [[k2 v2]|] eqn:E; [|discriminate]. injection Hin as ->. apply find_some in E as [E _]. eauto.
Qed.
Theorem C20_succeeds : forall src dst t, nodes good_node t -> exists t', apply_permutation src dst t = Ok t'.
Proof.
  intros src dst. induction t as [n m c|n m c l IH] using tree_ind2; intros Hn.
  - destruct Hn as [(Sm & Sc & Hnar & Hb & Hf) _]. cbn.
    destruct (C22_total (rekey (perm src dst) m [])) as [m' ->].
    + intros k s Hin. apply narrow_rekey in Hin as [k' Hin]; [|exact Sm|intros a b; apply perm_inj]. eapply Hnar; eauto.
    + intros k s Hin. apply narrow_rekey in Hin as [k' Hin]; [|exact Sm|intros a b; apply perm_inj]. eapply Hb; eauto.
    + cbn. eauto.
  - apply nodes_kids in Hn as [(Sm & Sc & Hnar & Hb & Hf) Hl]. cbn.
    destruct (C22_total (rekey (perm src dst) m [])) as [m' ->].
    + intros k s Hin. apply narrow_rekey in Hin as [k' Hin]; [|exact Sm|intros a b; apply perm_inj]. eapply Hnar; eauto.
    + intros k s Hin. apply narrow_rekey in Hin as [k' Hin]; [|exact Sm|intros a b; apply perm_inj]. eapply Hb; eauto.
    + cbn. assert (X : exists l', mapM (apply_permutation src dst) l = Ok l').
      { clear -IH Hl. induction l as [|x r IHr]; [cbn; eauto|]. inversion IH; subst. inversion Hl; subst.
        destruct (H1 H3) as [y Ey]. destruct (IHr H2 H4) as [r' Er]. exists (y :: r'). cbn. rewrite Ey. cbn. rewrite Er. reflexivity. }
      destruct X as [l' ->]. cbn. eauto.
Qed.

(** ** Finding: the re-finalisation set_permutation performs resurrects removed files, even when nothing moves
    (finalize, data_tree.cpp:517-522, takes the "absent" record of the very archive under consideration as the previous state) *)
Definition fileA : list N := [97].
Definition ino (d : datetime) : inode_info := Ino ss_saved ea_none d d (Some crcA) None None true.
(** archive 1 holds file "a" and file "b"; archive 2 only "b" *)
Definition db2 : res database :=
  let* db := add_archive new_database (day 1) [CInode fileA (ino (day 1)) None; CInode [98] (ino (day 1)) None] in
  add_archive db (day 5) [CInode [98] (ino (day 5)) None].
Definition ask (db : database) (path : list (list N)) : res (list N * lookup) :=
  match tree_find path (files db) with Some u => get_data (t_mods u) date0 false | None => Err Erange end.
Theorem C20_set_permutation_refuted : exists db db', db2 = Ok db /\ set_permutation db 2 2 = Ok db' /\ ask db [fileA] = Ok ([2], found_removed) /\ ask db' [fileA] = Ok ([1], found_present).
Proof. eexists. eexists. split; [vm_compute; reflexivity|]. repeat split; vm_compute; reflexivity. Qed.

(** ** Witness *)
Example C20_example : exists db, db2 = Ok db /\ nodes good_node (files db).
Proof.
  eexists. split; [vm_compute; reflexivity|]. apply nodes_kids.
  assert (G : forall m c, sorted m -> sorted c -> narrow m -> (forall k s, In (k, s) m -> ~ is_patch (present s)) -> good_node m c).
  { intros m c Sm Sc Hn Hp. repeat split; auto; [intros k s Hin Hi; destruct (Hp _ _ Hin Hi)| |];
      exfalso; eapply Hp; [subst m; apply in_or_app; right; left; reflexivity|eassumption| subst m; apply in_or_app; right; left; reflexivity|eassumption]. }
  split; [|constructor; [|constructor; [|constructor]]; apply nodes_leaf].
  all: apply G; [repeat constructor|repeat constructor| |].
  all: repeat (intros k s Hin; cbn in Hin; repeat destruct Hin as [Hin|Hin]; try contradiction; injection Hin as <- <-).
  all: try (intros c [E|E]; cbn in E; try discriminate; injection E as <-; vm_compute; reflexivity).
  all: try (intros [E|E]; discriminate).
Qed.
