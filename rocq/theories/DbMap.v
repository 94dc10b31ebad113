(** * Facts about the maps and trees of DbModel *)
From Verif Require Import Base NumModel InfinintModel DatetimeModel CrcModel PropDatetime DbModel.
From Coq Require Import Sorting.Sorted.
Open Scope N_scope.

(** ** maps *)
Definition key_lt {A} (x y : N * A) : Prop := fst x < fst y.
Definition sorted {A} (m : amap A) : Prop := StronglySorted key_lt m.
Definition keys {A} (m : amap A) : list N := map fst m.

Section Maps.
Context {A : Type}.
Implicit Types m : amap A.

Lemma sorted_nil : sorted (@nil (N * A)). Proof. constructor. Qed.
Lemma sorted_inv : forall k v m, sorted ((k, v) :: m) -> sorted m /\ (forall k' v', In (k', v') m -> k < k').
Proof.
  intros k v m H. inversion H as [|? ? H1 H2]; subst. split; [exact H1|].
  intros k' v' Hin. rewrite Forall_forall in H2. apply (H2 (k', v') Hin).
Qed.
Lemma mfind_in : forall m k v, mfind k m = Some v -> In (k, v) m.
Proof.
  induction m as [|[k' v'] r IH]; intros k v H; cbn in H; [discriminate|].
  destruct (N.eqb_spec k k'); [injection H as <-; subst; left; reflexivity|right; auto].
Qed.
Lemma mfind_sorted : forall m k v, sorted m -> In (k, v) m -> mfind k m = Some v.
Proof.
  induction m as [|[k' v'] r IH]; intros k v S H; [destruct H|].
  apply sorted_inv in S as [S1 S2]. cbn. destruct H as [E|H].
  - injection E as <- <-. rewrite N.eqb_refl. reflexivity.
  - destruct (N.eqb_spec k k'); [subst; specialize (S2 _ _ H); lia|]. apply IH; assumption.
Qed.
Lemma mfind_none : forall m k, mfind k m = None <-> ~ In k (keys m).
Proof.
  induction m as [|[k' v'] r IH]; intros k; cbn; [tauto|].
  destruct (N.eqb_spec k k').
  - subst. split; [discriminate|]. intro H; exfalso; apply H; auto.
  - rewrite IH. split; intros H; intuition.
Qed.
Lemma mfind_mset : forall m k k' v, mfind k (mset k' v m) = if k =? k' then Some v else mfind k m.
Proof.
  induction m as [|[k1 v1] r IH]; intros k k' v; cbn; [reflexivity|].
  destruct (N.ltb_spec k' k1); cbn; [reflexivity|].
  destruct (N.eqb_spec k' k1); cbn; [subst; destruct (k =? k1); reflexivity|].
  rewrite IH. destruct (N.eqb_spec k k1), (N.eqb_spec k k'); subst; try reflexivity; congruence.
Qed.
Lemma in_mset : forall m k k' v x, In (k, x) (mset k' v m) -> (k = k' /\ x = v) \/ In (k, x) m.
Proof.
  induction m as [|[k1 v1] r IH]; intros k k' v x H; cbn in H.
  - destruct H as [E|[]]. injection E as -> ->. auto.
  - destruct (N.ltb_spec k' k1); [destruct H as [E|H]; [injection E as -> ->; auto|right; exact H]|].
    destruct (N.eqb_spec k' k1).
    + destruct H as [E|H]; [injection E as -> ->; auto|right; right; exact H].
    + destruct H as [E|H]; [injection E as -> ->; right; left; reflexivity|]. apply IH in H as [H|H]; auto. right; right; auto.
Qed.
Lemma sorted_mset : forall m k v, sorted m -> sorted (mset k v m).
Proof.
  induction m as [|[k1 v1] r IH]; intros k v S; cbn; [repeat constructor|].
  pose proof (sorted_inv _ _ _ S) as [S1 S2].
  destruct (N.ltb_spec k k1).
  - constructor; [exact S|]. constructor; [exact H|]. apply Forall_forall. intros [k' v'] Hin. cbv [key_lt fst]. specialize (S2 _ _ Hin). lia.
  - destruct (N.eqb_spec k k1).
    + subst. constructor; [exact S1|]. apply Forall_forall. intros [k' v'] Hin. apply (S2 _ _ Hin).
    + constructor; [apply IH; exact S1|]. apply Forall_forall. intros [k' v'] Hin. apply in_mset in Hin as [[-> _]|Hin]; cbv [key_lt fst]; [lia|].
      exact (S2 _ _ Hin).
Qed.
Lemma in_mdel : forall m k k' x, In (k, x) (mdel k' m) -> In (k, x) m.
Proof.
  induction m as [|[k1 v1] r IH]; intros k k' x H; cbn in H; [destruct H|].
  destruct (N.eqb_spec k' k1); [right; exact H|]. destruct H as [H|H]; [left; exact H|right; eauto].
Qed.
Lemma sorted_mdel : forall m k, sorted m -> sorted (mdel k m).
Proof.
  induction m as [|[k1 v1] r IH]; intros k S; cbn; [constructor|].
  pose proof (sorted_inv _ _ _ S) as [S1 S2].
  destruct (N.eqb_spec k k1); [exact S1|].
  constructor; [apply IH; exact S1|]. apply Forall_forall. intros [k' v'] Hin. apply (S2 k' v'). eapply in_mdel; eauto.
Qed.
Lemma mfind_mdel : forall m k k', sorted m -> mfind k (mdel k' m) = if k =? k' then None else mfind k m.
Proof.
  induction m as [|[k1 v1] r IH]; intros k k' S; cbn; [destruct (k =? k'); reflexivity|].
  pose proof (sorted_inv _ _ _ S) as [S1 S2].
  destruct (N.eqb_spec k' k1).
  - subst k1. destruct (N.eqb_spec k k'); [|reflexivity]. subst k. apply mfind_none. intro Hin. unfold keys in Hin.
    apply in_map_iff in Hin as [[k2 v2] [E Hin]]. cbn in E. subst k2. specialize (S2 _ _ Hin). lia.
  - cbn. rewrite IH by exact S1. destruct (N.eqb_spec k k1), (N.eqb_spec k k'); subst; try reflexivity; congruence.
Qed.
Lemma mdel_none : forall m k, mfind k m = None -> mdel k m = m.
Proof.
  induction m as [|[k1 v1] r IH]; intros k H; cbn in *; [reflexivity|]. destruct (k =? k1); [discriminate|]. rewrite IH; auto.
Qed.
Lemma map_ext_sorted : forall m m', sorted m -> sorted m' -> (forall k, mfind k m = mfind k m') -> m = m'.
Proof.
  induction m as [|[k v] r IH]; intros m' S S' H.
  - destruct m' as [|[k v] r]; [reflexivity|]. specialize (H k). cbn in H. rewrite N.eqb_refl in H. discriminate.
  - destruct m' as [|[k' v'] r'].
    + specialize (H k). cbn in H. rewrite N.eqb_refl in H. discriminate.
    + pose proof (sorted_inv _ _ _ S) as [S1 S2]. pose proof (sorted_inv _ _ _ S') as [S1' S2'].
      assert (Ek : k = k').
      { pose proof (H k) as Hk. pose proof (H k') as Hk'. cbn in Hk, Hk'. rewrite N.eqb_refl in Hk, Hk'.
        destruct (N.eqb_spec k k') as [|Hne]; [assumption|]. destruct (N.eqb_spec k' k); [congruence|].
        symmetry in Hk. apply mfind_in in Hk. apply mfind_in in Hk'. specialize (S2' _ _ Hk). specialize (S2 _ _ Hk'). lia. }
      subst k'. pose proof (H k) as Hk. cbn in Hk. rewrite N.eqb_refl in Hk. injection Hk as <-. f_equal.
      apply IH; auto. intro x. specialize (H x). cbn in H. destruct (N.eqb_spec x k); [|exact H]. subst x.
      assert (E1 : mfind k r = None).
      { apply mfind_none. intro Hin. apply in_map_iff in Hin as [[k2 v2] [E Hin]]. cbn in E; subst. specialize (S2 _ _ Hin). lia. }
      assert (E2 : mfind k r' = None).
      { apply mfind_none. intro Hin. apply in_map_iff in Hin as [[k2 v2] [E Hin]]. cbn in E; subst. specialize (S2' _ _ Hin). lia. }
      congruence.
Qed.
Lemma mset_in : forall m k v, mfind k (mset k v m) = Some v.
Proof. intros. rewrite mfind_mset, N.eqb_refl. reflexivity. Qed.

(** ** rekey *)
Lemma rekey_sorted : forall f m acc, sorted acc -> sorted (rekey f m acc).
Proof. intros f m; induction m as [|[k v] r IH]; intros acc S; cbn; [exact S|]. apply IH, sorted_mset, S. Qed.
Lemma rekey_find : forall f m acc y, (forall a b, In a (keys m) -> In b (keys m) -> f a = f b -> a = b) -> sorted m ->
  mfind y (rekey f m acc) = match find (fun p => f (fst p) =? y) m with Some (_, v) => Some v | None => mfind y acc end.
Proof.
  intros f m; induction m as [|[k v] r IH]; intros acc y Hf S; cbn [rekey find fst]; [reflexivity|].
  pose proof (sorted_inv _ _ _ S) as [S1 S2].
  rewrite IH; [|intros a b Ha Hb; apply Hf; right; assumption|exact S1].
  destruct (N.eqb_spec (f k) y).
  - subst y. destruct (find _ r) as [[k2 v2]|] eqn:E.
    + apply find_some in E as [Hin E]. cbn in E. apply N.eqb_eq in E.
      assert (k2 = k) by (apply Hf; [right; apply in_map_iff; exists (k2, v2); auto|left; reflexivity|exact E]).
      subst. specialize (S2 _ _ Hin). lia.
    + apply mset_in.
  - destruct (find _ r) as [[k2 v2]|]; [reflexivity|]. rewrite mfind_mset. destruct (N.eqb_spec y (f k)); [congruence|reflexivity].
Qed.
End Maps.

(** on maps, [rekey] by an injection moves each record to its new key *)
Lemma find_inj : forall A (f : N -> N) (m : amap A) x, (forall a b, f a = f b -> a = b) ->
  find (fun p => f (fst p) =? f x) m = match mfind x m with Some v => Some (x, v) | None => None end.
Proof.
  intros A f m x Hf. induction m as [|[k v] r IH]; cbn; [reflexivity|].
  destruct (N.eqb_spec x k); [subst; rewrite N.eqb_refl; reflexivity|].
  destruct (N.eqb_spec (f k) (f x)) as [E|]; [apply Hf in E; congruence|exact IH].
Qed.
Lemma rekey_at : forall A (f : N -> N) (m : amap A) x, (forall a b, f a = f b -> a = b) -> sorted m ->
  mfind (f x) (rekey f m []) = mfind x m.
Proof.
  intros A f m x Hf S. rewrite rekey_find; [|intros; apply Hf; assumption|exact S].
  rewrite find_inj by exact Hf. destruct (mfind x m); reflexivity.
Qed.

(** ** dates *)
Lemma dlt_spec : forall a b, dlt a b = (instant a <? instant b).
Proof. intros. unfold dlt. rewrite C19_order. reflexivity. Qed.
Lemma dge_spec : forall a b, dge a b = (instant b <=? instant a).
Proof. intros. unfold dge. rewrite dlt_spec. lia. Qed.
Lemma dle_spec : forall a b, dle a b = (instant a <=? instant b).
Proof. intros. unfold dle. rewrite dlt_spec. lia. Qed.
Lemma dgt_spec : forall a b, dgt a b = (instant b <? instant a).
Proof. intros. unfold dgt. apply dlt_spec. Qed.

(** ** induction on trees *)
Lemma tree_ind2 : forall P : tree -> Prop,
  (forall n m c, P (Tree n m c None)) ->
  (forall n m c l, Forall P l -> P (Tree n m c (Some l))) -> forall t, P t.
Proof.
  intros P H0 H1. fix IH 1. intros [n m c [l|]]; [|apply H0].
  apply H1. induction l as [|x r IHr]; constructor; [apply IH|exact IHr].
Qed.
Lemma mapM_ok : forall A B (f : A -> res B) l l', mapM f l = Ok l' <-> Forall2 (fun x y => f x = Ok y) l l'.
Proof.
  intros A B f l; induction l as [|x r IH]; intros l'; cbn.
  - split; [intro E; injection E as <-; constructor|intro H; inversion H; reflexivity].
  - split.
    + intro H. destruct (f x) as [y|] eqn:E; cbn in H; [|discriminate]. destruct (mapM f r) as [r'|] eqn:E2; cbn in H; [|discriminate].
      injection H as <-. constructor; [exact E|]. apply IH. reflexivity.
    + intro H. inversion H as [|? y ? r' E1 E2]; subst. rewrite E1. cbn. apply IH in E2. rewrite E2. reflexivity.
Qed.

(** every node of a tree *)
Fixpoint nodes (P : amap statusp -> amap status -> Prop) (t : tree) : Prop :=
  let 'Tree _ m c k := t in
  P m c /\ match k with None => True | Some l => (fix go l := match l with [] => True | x :: r => nodes P x /\ go r end) l end.
Lemma nodes_kids : forall P n m c l, nodes P (Tree n m c (Some l)) <-> P m c /\ Forall (nodes P) l.
Proof.
  intros P n m c l. cbn. assert (H : (fix go l := match l with [] => True | x :: r => nodes P x /\ go r end) l <-> Forall (nodes P) l).
  { induction l as [|x r IH]; [split; constructor|]. rewrite IH. split; [intros [H1 H2]; constructor; assumption|intro H; inversion H; auto]. }
  rewrite H. reflexivity.
Qed.
Lemma nodes_leaf : forall P n m c, nodes P (Tree n m c None) <-> P m c.
Proof. intros. cbn. tauto. Qed.

Lemma name_eqb_spec : forall a b, name_eqb a b = true <-> a = b.
Proof.
  induction a as [|x a IH]; destruct b as [|y b]; cbn; split; intro H; try congruence.
  - apply andb_true_iff in H as [H1 H2]. apply N.eqb_eq in H1. apply IH in H2. congruence.
  - injection H as -> ->. rewrite N.eqb_refl. cbn. apply IH. reflexivity.
Qed.
Lemma name_eqb_refl : forall a, name_eqb a a = true.
Proof. intro a. apply name_eqb_spec. reflexivity. Qed.
