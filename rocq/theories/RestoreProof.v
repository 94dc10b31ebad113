(** Proofs for C40, part 1: association lists, paths, trees, and what a backup writes. *)
From Coq Require Import NArith List Bool Lia.
From Verif Require Import Base DatetimeModel PropDatetime PropChange CritModel RestoreModel RestoreSpec.
Import ListNotations.
Open Scope N_scope.
Local Set Warnings "-notation-overridden".

Lemma neqb_spec : forall a b, name_eqb a b = true <-> a = b.
Proof. intros. unfold name_eqb. destruct (list_eq_dec N.eq_dec a b); split; intro; congruence. Qed.
Lemma neqb_refl : forall a, name_eqb a a = true. Proof. intro. apply neqb_spec. reflexivity. Qed.
Lemma neqb_ne : forall a b, a <> b -> name_eqb a b = false.
Proof. intros a b H. destruct (name_eqb a b) eqn:E; [|reflexivity]. apply neqb_spec in E. contradiction. Qed.
Lemma neqb_false : forall a b, name_eqb a b = false -> a <> b. Proof. intros a b H ->. rewrite neqb_refl in H. discriminate. Qed.
Lemma neqb_sym : forall a b, name_eqb a b = name_eqb b a.
Proof. intros. destruct (name_eqb a b) eqn:E. apply neqb_spec in E. subst. symmetry. apply neqb_refl. symmetry. apply neqb_ne. apply neqb_false in E. congruence. Qed.
Lemma kind_eqb_spec : forall a b, kind_eqb a b = true <-> a = b.
Proof. intros [| | |x] [| | |y]; cbn; split; intro H; try congruence. apply N.eqb_eq in H. congruence. injection H as ->. apply N.eqb_refl. Qed.
Lemma kind_eqb_refl : forall a, kind_eqb a a = true. Proof. intro. apply kind_eqb_spec. reflexivity. Qed.
Lemma is_dir_spec : forall k, is_dir k = true <-> k = KDir. Proof. intros [| | |x]; cbn; split; intro; congruence. Qed.

Section A.
Context {A : Type}.
Implicit Types l : list (list N * A).
Lemma aget_named : forall n l, aget n l = entry_named n l.
Proof. induction l as [|[m a] r IH]; cbn; [reflexivity|]. unfold name_eqb. destruct (list_eq_dec N.eq_dec n m); [reflexivity|apply IH]. Qed.
Lemma aget_set_same : forall n a l, aget n (aset n a l) = Some a.
Proof. induction l as [|[m b] r IH]; cbn. - rewrite neqb_refl. reflexivity. - destruct (name_eqb n m) eqn:E; cbn; rewrite E; auto. Qed.
Lemma aget_set_other : forall m n a l, m <> n -> aget m (aset n a l) = aget m l.
Proof.
  induction l as [|[k b] r IH]; cbn; intro H. - rewrite neqb_ne by exact H. reflexivity.
  - destruct (name_eqb n k) eqn:E; cbn. apply neqb_spec in E. subst k. rewrite neqb_ne by exact H. reflexivity. destruct (name_eqb m k); auto.
Qed.
Lemma aget_del_same : forall n l, aget n (adel n l) = None.
Proof. induction l as [|[m b] r IH]; cbn; [reflexivity|]. destruct (name_eqb n m) eqn:E; [exact IH|]. cbn. rewrite E. exact IH. Qed.
Lemma aget_del_other : forall m n l, m <> n -> aget m (adel n l) = aget m l.
Proof.
  induction l as [|[k b] r IH]; cbn; intro H; [reflexivity|]. destruct (name_eqb n k) eqn:E.
  - apply neqb_spec in E. subst k. rewrite neqb_ne by exact H. auto.
  - cbn. destruct (name_eqb m k); auto.
Qed.
Lemma aget_app : forall n l l', aget n (l ++ l') = match aget n l with Some a => Some a | None => aget n l' end.
Proof. induction l as [|[m b] r IH]; cbn; intro l'; [reflexivity|]. destruct (name_eqb n m); auto. Qed.
Lemma aget_in : forall n a l, aget n l = Some a -> In (n, a) l.
Proof. induction l as [|[m b] r IH]; cbn; intro H; [discriminate|]. destruct (name_eqb n m) eqn:E. apply neqb_spec in E. left. congruence. right. auto. Qed.
Lemma aget_none : forall n l, ~ In n (map fst l) -> aget n l = None.
Proof. induction l as [|[m b] r IH]; cbn; intro H; [reflexivity|]. rewrite neqb_ne by (intro; subst; tauto). apply IH. tauto. Qed.
Lemma aget_none_inv : forall n l, aget n l = None -> ~ In n (map fst l).
Proof. induction l as [|[m b] r IH]; cbn; intros H; [tauto|]. destruct (name_eqb n m) eqn:E; [discriminate|]. apply neqb_false in E. intros [F|F]; [congruence|]. exact (IH H F). Qed.
Lemma in_aget : forall n a l, NoDup (map fst l) -> In (n, a) l -> aget n l = Some a.
Proof.
  induction l as [|[m b] r IH]; cbn; intros Nd H; [tauto|]. inversion Nd; subst. destruct H as [H|H].
  - injection H as -> ->. rewrite neqb_refl. reflexivity.
  - rewrite neqb_ne; [auto|]. intros ->. apply H2. apply (in_map fst) in H. exact H.
Qed.
Lemma aset_id : forall n a l, aget n l = Some a -> aset n a l = l.
Proof. induction l as [|[m b] r IH]; cbn; intro H; [discriminate|]. destruct (name_eqb n m) eqn:E. congruence. rewrite IH by exact H. reflexivity. Qed.
Lemma aset_set : forall n a b l, aset n a (aset n b l) = aset n a l.
Proof. induction l as [|[m c] r IH]; cbn. - rewrite neqb_refl. reflexivity. - destruct (name_eqb n m) eqn:E; cbn; rewrite E; congruence. Qed.
Lemma aset_fst : forall n a l, aget n l <> None -> map fst (aset n a l) = map fst l.
Proof.
  induction l as [|[m c] r IH]; cbn; intro H; [congruence|]. destruct (name_eqb n m) eqn:E; cbn; [reflexivity|]. f_equal. auto.
Qed.
End A.

Lemma ea_write_app : forall l old, NoDup (map fst (old ++ l)) -> ea_write old l = old ++ l.
Proof.
  unfold ea_write. induction l as [|[k v] r IH]; cbn; intros old Nd. - rewrite app_nil_r. reflexivity.
  - assert (E : aset k v old = old ++ [(k, v)]).
    { assert (K : ~ In k (map fst old)).
      { rewrite map_app in Nd. cbn in Nd. apply NoDup_remove_2 in Nd. intro. apply Nd. apply in_or_app. auto. }
      clear - K. induction old as [|[m b] o IH]; cbn; [reflexivity|]. cbn in K. rewrite neqb_ne by (intro; subst; tauto). rewrite IH by tauto. reflexivity. }
    rewrite E, IH. + rewrite <- app_assoc. reflexivity. + rewrite <- app_assoc. exact Nd.
Qed.
Lemma ea_write_nil : forall l, NoDup (map fst l) -> ea_write [] l = l.
Proof. intros. rewrite ea_write_app; [reflexivity|exact H]. Qed.

(** ---------- paths of the filesystem ---------- *)
Lemma fget_snoc : forall p n t, fget (p ++ [n]) t = match fget p t with Some d => aget n (ch_of d) | None => None end.
Proof.
  induction p as [|m r IH]; intros n t; cbn. - destruct (aget n (ch_of t)); reflexivity. - destruct (aget m (ch_of t)); [apply IH|reflexivity].
Qed.
Lemma fget_put : forall p v t d, fget p t = Some d -> fget p (fput p v t) = Some v.
Proof.
  induction p as [|n r IH]; cbn; intros v t d H; [reflexivity|]. destruct (aget n (ch_of t)) as [c|] eqn:E; [|discriminate]. cbn. rewrite aget_set_same. eauto.
Qed.
Lemma fput_put : forall p v w t d, fget p t = Some d -> fput p v (fput p w t) = fput p v t.
Proof.
  induction p as [|n r IH]; cbn; intros v w t d H; [reflexivity|]. destruct (aget n (ch_of t)) as [c|] eqn:E; [|discriminate]. cbn. rewrite aget_set_same, aset_set.
  erewrite IH by eauto. reflexivity.
Qed.
Lemma fput_id : forall p t d, fget p t = Some d -> fput p d t = t.
Proof.
  induction p as [|n r IH]; cbn; intros t d H; [congruence|]. destruct (aget n (ch_of t)) as [c|] eqn:E; [|discriminate]. rewrite IH by exact H.
  rewrite aset_id by exact E. destruct t; reflexivity.
Qed.
Lemma fput_snoc : forall p n v t d c, fget p t = Some d -> aget n (ch_of d) = Some c ->
  fput (p ++ [n]) v t = fput p (Node (hd_of d) (aset n v (ch_of d))) t.
Proof.
  induction p as [|m r IH]; cbn; intros n v t d c H K. - injection H as ->. rewrite K. reflexivity.
  - destruct (aget m (ch_of t)) as [x|] eqn:E; [|discriminate]. erewrite IH by eauto. reflexivity.
Qed.
Lemma fput_dir : forall p v t d, fget p t = Some d -> hd_of v = hd_of d -> p <> [] -> hd_of (fput p v t) = hd_of t.
Proof. intros [|n r] v t d H K E; [congruence|]. cbn in *. destruct (aget n (ch_of t)); reflexivity. Qed.

(** ---------- look ---------- *)
Definition lookn (p : list (list N)) (t : node) : option head := match p with [] => Some (hd_of t) | _ => look (ch_of t) p end.
Lemma look_cons : forall n r l, look l (n :: r) = match aget n l with Some t => lookn r t | None => None end.
Proof. intros. cbn. rewrite aget_named. destruct (entry_named n l) as [[h c]|]; [|reflexivity]. destruct r; reflexivity. Qed.
(** the selected part of a tree *)
Definition lookc (cov : rpath -> bool) (rp : rpath) (l : list (name * node)) (p : list name) : option head :=
  if selected cov rp p then look l p else None.
Lemma look_nil : forall p, look [] p = None. Proof. intros [|n r]; reflexivity. Qed.

(** inode of the restored tree [r] for the inode [t] of the backup; [s]: with all its metadata *)
Definition hrel (s : bool) (r t : head) : Prop :=
  h_kind r = h_kind t /\ h_data r = h_data t /\
  (s = true -> h_uid r = h_uid t /\ h_gid r = h_gid t /\ h_perm r = h_perm t /\ h_mtime r = h_mtime t /\ h_ea r = h_ea t).
Section Rel.
Variable cov : rpath -> bool.
Variable s : bool.
Definition trel (rp : rpath) (R T : list (name * node)) : Prop := forall p, both (hrel s) (look R p) (lookc cov rp T p).
(** the same at one name *)
Definition prel (rp : rpath) (R T : list (name * node)) (n : name) : Prop :=
  match aget n R, (if cov (n :: rp) then aget n T else None) with
  | None, None => True
  | Some r, Some t => hrel s (hd_of r) (hd_of t) /\ trel (n :: rp) (ch_of r) (ch_of t)
  | _, _ => False end.
Lemma lookc_cons : forall rp n r T, lookc cov rp T (n :: r) =
  match (if cov (n :: rp) then aget n T else None) with Some t => match r with [] => Some (hd_of t) | _ => lookc cov (n :: rp) (ch_of t) r end | None => None end.
Proof.
  intros. unfold lookc. cbn [selected]. destruct (cov (n :: rp)); cbn [andb]; [|reflexivity]. rewrite look_cons. destruct (aget n T) as [t|].
  - destruct r; [reflexivity|]. reflexivity.
  - destruct (selected cov (n :: rp) r); reflexivity.
Qed.
Lemma trel_prel : forall rp R T, trel rp R T <-> forall n, prel rp R T n.
Proof.
  intros rp R T. split.
  - intros H n. unfold prel. assert (E := H [n]). rewrite look_cons, lookc_cons in E.
    destruct (aget n R) as [r|] eqn:Er, (if cov (n :: rp) then aget n T else None) as [t|] eqn:Et; cbn in E; try exact E; try exact I.
    split; [exact E|]. intro p. destruct p as [|m q]. { unfold lookc. cbn. exact I. }
    assert (F := H (n :: m :: q)). rewrite look_cons, lookc_cons, Er, Et in F. cbn [lookn] in F. exact F.
  - intros H p. destruct p as [|n q]. { unfold lookc. cbn. exact I. }
    assert (E := H n). unfold prel in E. rewrite look_cons, lookc_cons. destruct (aget n R) as [r|], (if cov (n :: rp) then aget n T else None) as [t|]; try contradiction; try exact I.
    destruct E as [E F]. destruct q as [|m q]; [exact E|]. exact (F (m :: q)).
Qed.
Lemma prel_ext : forall rp R R' T n, aget n R = aget n R' -> prel rp R T n -> prel rp R' T n.
Proof. intros. unfold prel in *. rewrite <- H. exact H0. Qed.
Lemma trel_nil : forall rp, trel rp [] []. Proof. intros rp p. unfold lookc. rewrite look_nil. destruct (selected cov rp p); exact I. Qed.

(** the catalogue records the selected part of a tree *)
Definition crel (f : chead) (t : head) : Prop :=
  c_kind f = h_kind t /\ c_uid f = h_uid t /\ c_gid f = h_gid t /\ c_perm f = h_perm t /\ c_mtime f = h_mtime t /\ c_ctime f = h_ctime t /\
  c_size f = size_of t /\ (h_ea t = [] <-> (c_ea f = EA_none \/ c_ea f = EA_removed)).
Inductive cmatch : rpath -> list (name * cnode) -> list (name * node) -> Prop :=
| cmatch_i : forall rp C T,
    (forall n fh fch, aget n C = Some (CIno fh fch) -> cov (n :: rp) = true /\ exists h c, aget n T = Some (Node h c) /\ crel fh h /\ cmatch (n :: rp) fch c) ->
    (forall n h c, aget n T = Some (Node h c) -> cov (n :: rp) = true -> exists fh fch, aget n C = Some (CIno fh fch)) ->
    cmatch rp C T.
Lemma cmatch_nil : forall rp, cmatch rp [] []. Proof. intros. constructor; cbn; intros; discriminate. Qed.
End Rel.

(** ---------- what a backup writes ---------- *)
Section Backup.
Variable cap : time_unit.
Variable hourshift : N.
Variable cov : rpath -> bool.
Notation save_node := (save_node cap hourshift cov).
Notation save_list := (save_list cap hourshift cov).
Notation save_head := (save_head cap hourshift).

Definition below (h : head) (f : option cnode) : list (name * cnode) := if is_dir (h_kind h) then match ref_below f with Some l => l | None => [] end else [].
Inductive aspec : rpath -> list (name * cnode) -> list (name * cnode) -> list (name * node) -> Prop :=
| aspec_i : forall rp A C T, NoDup (map fst A) ->
    (forall n xh xch, aget n A = Some (CIno xh xch) -> exists h c, cov (n :: rp) = true /\ aget n T = Some (Node h c) /\
       xh = save_head h (ref_inode h (aget n C)) /\ aspec (n :: rp) xch (below h (aget n C)) c) ->
    (forall n k, aget n A = Some (CDet k) -> aget n T = None /\ exists fh fch, aget n C = Some (CIno fh fch)) ->
    (forall n, aget n A <> Some CIgn) ->
    (forall n, aget n A = None -> (aget n T = None \/ cov (n :: rp) = false) /\ (aget n T = None -> forall fh fch, aget n C <> Some (CIno fh fch))) ->
    aspec rp A C T.

Lemma node_rect' : forall (P : node -> Prop), (forall h ch, (forall n t, In (n, t) ch -> P t) -> P (Node h ch)) -> forall t, P t.
Proof.
  intros P H. fix IH 1. intros [h ch]. apply H. induction ch as [|[m x] r IHr]; intros n t I; [destruct I|].
  destruct I as [I|I]; [injection I as <- <-; apply IH|eapply IHr; exact I].
Qed.
Lemma cnode_rect' : forall (P : cnode -> Prop), (forall h ch, (forall n x, In (n, x) ch -> P x) -> P (CIno h ch)) -> (forall k, P (CDet k)) -> P CIgn -> forall x, P x.
Proof.
  intros P H H1 H2. fix IH 1. intros [h ch|k|]; [|apply H1|apply H2]. apply H. induction ch as [|[m x] r IHr]; intros n t I; [destruct I|].
  destruct I as [I|I]; [injection I as <- <-; apply IH|eapply IHr; exact I].
Qed.
(** save_list, as a map *)
Lemma save_get : forall rp b l n, aget n (save_list rp b l) =
  match aget n l with None => None | Some c => Some (if cov (n :: rp) then save_node (n :: rp) (ref_child b n) c else CIgn) end.
Proof.
  induction l as [|[m c] r IH]; intro n; cbn; [reflexivity|]. destruct (name_eqb n m) eqn:E; [|apply IH]. apply neqb_spec in E. subst m. reflexivity.
Qed.
Lemma save_fst : forall rp b l, map fst (save_list rp b l) = map fst l.
Proof. induction l as [|[m c] r IH]; cbn; [reflexivity|]. f_equal. exact IH. Qed.
Lemma written_get : forall l n, NoDup (map fst l) -> aget n (written_list l) =
  match aget n l with None => None | Some CIgn => None | Some x => Some (written x) end.
Proof.
  induction l as [|[m c] r IH]; intros n Nd; cbn; [reflexivity|]. inversion Nd; subst. destruct (name_eqb n m) eqn:E.
  - apply neqb_spec in E. subst m. destruct c; cbn [aget]; rewrite ?neqb_refl; try reflexivity. rewrite IH by assumption. rewrite aget_none by assumption. reflexivity.
  - destruct c; cbn [aget]; rewrite ?E; apply IH; assumption.
Qed.
Lemma written_in : forall l n, In n (map fst (written_list l)) -> In n (map fst l).
Proof. induction l as [|[m c] r IH]; cbn; intros n H; [exact H|]. destruct c; cbn in *; intuition. Qed.
Lemma written_nodup : forall l, NoDup (map fst l) -> NoDup (map fst (written_list l)).
Proof.
  induction l as [|[m c] r IH]; cbn; intro Nd; [constructor|]. inversion Nd; subst. destruct c; cbn; auto; constructor; auto; intro F; apply written_in in F; auto.
Qed.
Lemma written_CIno : forall h l, written (CIno h l) = CIno h (written_list l). Proof. reflexivity. Qed.

(** destroyed_list, as a map *)
Lemma destroyed_CIno : forall h ch cur, destroyed (CIno h ch) cur = destroyed_list ch cur. Proof. reflexivity. Qed.
Definition dstep (n : name) (x : cnode) (cur : list (name * cnode)) : list (name * cnode) :=
  match x with
  | CIno xh xch => match aget n cur with
    | None => cur ++ [(n, CDet (c_kind xh))]
    | Some (CIno yh ych) => if is_dir (c_kind xh) && is_dir (c_kind yh) then aset n (CIno yh (destroyed x ych)) cur else cur
    | Some _ => cur end
  | _ => cur end.
Lemma destroyed_cons : forall n x l cur, destroyed_list ((n, x) :: l) cur = destroyed_list l (dstep n x cur). Proof. reflexivity. Qed.
Lemma dstep_other : forall m n x cur, m <> n -> aget m (dstep n x cur) = aget m cur.
Proof.
  intros m n x cur H. unfold dstep. destruct x as [xh xch| |]; try reflexivity. destruct (aget n cur) as [[yh ych| |]|] eqn:E; try reflexivity.
  - destruct (is_dir (c_kind xh) && is_dir (c_kind yh)); [|reflexivity]. apply aget_set_other. exact H.
  - rewrite aget_app. destruct (aget m cur); [reflexivity|]. cbn. rewrite neqb_ne by exact H. reflexivity.
Qed.
Lemma dstep_nodup : forall n x cur, NoDup (map fst cur) -> NoDup (map fst (dstep n x cur)).
Proof.
  intros n x cur Nd. unfold dstep. destruct x as [xh xch| |]; try exact Nd. destruct (aget n cur) as [[yh ych| |]|] eqn:E; try exact Nd.
  - destruct (_ && _); [|exact Nd]. rewrite aset_fst by congruence. exact Nd.
  - rewrite map_app. cbn. apply aget_none_inv in E. clear - Nd E. induction (map fst cur) as [|a l IH]; cbn. constructor; [tauto|constructor].
    inversion Nd; subst. constructor. rewrite in_app_iff. cbn. intros [F|[F|[]]]; [auto|subst; apply E; left; reflexivity]. apply IH; [assumption|]. intro; apply E; right; assumption.
Qed.
Lemma destroyed_nodup : forall l cur, NoDup (map fst cur) -> NoDup (map fst (destroyed_list l cur)).
Proof. induction l as [|[n x] r IH]; intros cur Nd; [exact Nd|]. rewrite destroyed_cons. apply IH, dstep_nodup, Nd. Qed.
Lemma destroyed_get : forall l cur n, NoDup (map fst l) ->
  aget n (destroyed_list l cur) = match aget n l with
    | Some (CIno xh xch) => match aget n cur with
      | None => Some (CDet (c_kind xh))
      | Some (CIno yh ych) => Some (CIno yh (if is_dir (c_kind xh) && is_dir (c_kind yh) then destroyed_list xch ych else ych))
      | Some y => Some y end
    | _ => aget n cur end.
Proof.
  induction l as [|[m x] r IH]; intros cur n Nd; [reflexivity|]. rewrite destroyed_cons. inversion Nd; subst. rewrite IH by assumption. cbn [aget].
  destruct (name_eqb n m) eqn:E.
  - apply neqb_spec in E. subst m. rewrite aget_none by assumption. unfold dstep. destruct x as [xh xch| |]; try reflexivity.
    destruct (aget n cur) as [[yh ych| |]|] eqn:E; try exact E.
    + destruct (is_dir (c_kind xh) && is_dir (c_kind yh)). rewrite aget_set_same. rewrite destroyed_CIno. reflexivity. exact E.
    + rewrite aget_app, E. cbn. rewrite neqb_refl. reflexivity.
  - apply neqb_false in E. rewrite dstep_other by exact E. reflexivity.
Qed.

(** names distinct at every level of a catalogue, and entries in directories only *)
Inductive cnodup : list (name * cnode) -> Prop :=
| cnodup_i : forall l, NoDup (map fst l) -> (forall n h c, aget n l = Some (CIno h c) -> (is_dir (c_kind h) = false -> c = []) /\ cnodup c) -> cnodup l.
Lemma cnodup_below : forall C h n, cnodup C -> cnodup (below h (aget n C)).
Proof.
  intros C h n H. inversion H; subst. unfold below, ref_below. destruct (is_dir (h_kind h)); [|constructor; [constructor|cbn; intros; discriminate]]. destruct (aget n C) as [[fh fch| |]|] eqn:E; try (constructor; [constructor|cbn; intros; discriminate]).
  destruct (is_dir (c_kind fh)); [|constructor; [constructor|cbn; intros; discriminate]]. eapply H1. exact E.
Qed.
Lemma destroyed_ref_nil : forall l, destroyed_list [] l = l. Proof. reflexivity. Qed.

Lemma regular_get : forall T n h c, regular T -> aget n T = Some (Node h c) ->
  (h_kind h <> KDir -> c = []) /\ (h_kind h = KDir -> h_data h = []) /\ NoDup (map fst (h_ea h)) /\ (h_kind h = KLink -> h_perm h = 511) /\ regular c.
Proof. intros T n h c H E. inversion H; subst. eapply H1. apply aget_in. exact E. Qed.

(** the whole of a backup of directory [T] against directory [C] of the reference *)
Definition back (rp : rpath) (C : list (name * cnode)) (T : list (name * node)) := written_list (destroyed_list C (save_list rp (Some C) T)).
Lemma save_none : forall rp l, save_list rp None l = save_list rp (Some []) l.
Proof. intros rp l. induction l as [|[m c] r IH]; cbn; [reflexivity|]. f_equal; auto. Qed.

Lemma back_below : forall rp f h c,
  save_node rp f (Node h c) = CIno (save_head h (ref_inode h f)) (save_list rp (ref_below f) c).
Proof. reflexivity. Qed.

Lemma back_aspec : forall T, regular T -> forall rp C, cnodup C -> aspec rp (back rp C T) C T /\ cnodup (back rp C T).
Proof.
  assert (G : forall t, match t with Node h c => regular c -> forall rp C, cnodup C -> aspec rp (back rp C c) C c /\ cnodup (back rp C c) end).
  { apply node_rect'. intros _ T IH Reg rp C Cn. inversion Reg; subst. inversion Cn; subst.
    assert (Nd1 : NoDup (map fst (save_list rp (Some C) T))) by (rewrite save_fst; assumption).
    assert (Nd2 := destroyed_nodup C _ Nd1).
    assert (D : forall n, aget n (back rp C T) = match aget n T with
      | Some (Node h c) => if cov (n :: rp) then Some (CIno (save_head h (ref_inode h (aget n C))) (back (n :: rp) (below h (aget n C)) c)) else None
      | None => match aget n C with Some (CIno fh _) => Some (CDet (c_kind fh)) | _ => None end end).
    { intro n. unfold back. rewrite written_get by exact Nd2. rewrite destroyed_get by assumption. rewrite save_get.
      destruct (aget n T) as [[h c]|] eqn:ET.
      - destruct (cov (n :: rp)) eqn:Ec.
        + cbn [ref_child]. rewrite back_below.
          assert (Z : is_dir (h_kind h) = false -> c = []).
          { intro Eh. destruct (regular_get T n h c Reg ET) as [Z _]. apply Z. intro Q. rewrite Q in Eh. discriminate. }
          destruct (aget n C) as [[fh fch| |]|] eqn:EC; unfold below, ref_below; destruct (is_dir (h_kind h)) eqn:Eh;
            try (rewrite (Z eq_refl)); cbn [c_kind RestoreModel.save_head]; rewrite ?Eh; rewrite ?andb_false_r; try reflexivity;
            try (rewrite written_CIno, save_none; reflexivity).
          destruct (is_dir (c_kind fh)) eqn:Ed; cbn [andb]; rewrite written_CIno, ?save_none; reflexivity.
        + destruct (aget n C) as [[fh fch| |]|]; reflexivity.
      - destruct (aget n C) as [[fh fch| |]|]; reflexivity. }
    split.
    - constructor.
      + unfold back. apply written_nodup, Nd2.
      + intros n xh xch E. rewrite D in E. destruct (aget n T) as [[h c]|] eqn:ET.
        * destruct (cov (n :: rp)) eqn:Ec; [|discriminate]. injection E as <- <-. exists h, c. split; [reflexivity|]. split; [reflexivity|]. split; [reflexivity|].
          apply aget_in in ET. refine (proj1 (IH n (Node h c) ET _ _ _ _)); [|apply cnodup_below; exact Cn]. eapply H0. exact ET.
        * destruct (aget n C) as [[fh fch| |]|]; discriminate.
      + intros n k E. rewrite D in E. destruct (aget n T) as [[h c]|] eqn:ET.
        * destruct (cov (n :: rp)); discriminate.
        * destruct (aget n C) as [[fh fch| |]|]; try discriminate. eauto.
      + intros n E. rewrite D in E. destruct (aget n T) as [[h c]|]; [destruct (cov (n :: rp)); discriminate|]. destruct (aget n C) as [[fh fch| |]|]; discriminate.
      + intros n E. rewrite D in E. destruct (aget n T) as [[h c]|] eqn:ET.
        * destruct (cov (n :: rp)) eqn:Ec; [discriminate|]. split; [right; reflexivity|discriminate].
        * split; [left; reflexivity|]. intros _ fh fch F. rewrite F in E. discriminate.
    - constructor.
      + unfold back. apply written_nodup, Nd2.
      + intros n xh xch E. rewrite D in E. destruct (aget n T) as [[h c]|] eqn:ET.
        * destruct (cov (n :: rp)) eqn:Ec; [|discriminate]. injection E as <- <-. split.
          -- cbn [c_kind RestoreModel.save_head]. intro Eh. destruct (regular_get T n h c Reg ET) as [Z _]. rewrite Z by (intro Q; rewrite Q in Eh; discriminate).
             unfold below. rewrite Eh. reflexivity.
          -- apply aget_in in ET. refine (proj2 (IH n (Node h c) ET _ _ _ _)); [|apply cnodup_below; exact Cn]. eapply H0. exact ET.
        * destruct (aget n C) as [[fh fch| |]|]; discriminate. }
  intros T Reg. exact (G (Node (Head KDir 0 0 0 (DT 0 tu_s) (DT 0 tu_s) [] []) T) Reg).
Qed.

Lemma save_crel : forall h f, crel (save_head h f) h.
Proof.
  intros h f. repeat split. cbn [c_ea RestoreModel.save_head].
  - intro E. rewrite E. destruct f as [fh|]; [destruct (c_ea fh)|]; auto.
  - cbn [c_ea RestoreModel.save_head]. destruct (h_ea h) as [|kv l]; [reflexivity|]. destruct f as [fh|].
    + destruct (has_ea_recorded (c_ea fh) && ctime_old h fh); intros [?|?]; discriminate.
    + intros [?|?]; discriminate.
Qed.
(** what is written describes the tree that has been read *)
Lemma aspec_cmatch : forall A rp C T, aspec rp A C T -> cmatch cov rp A T.
Proof.
  assert (G : forall x, match x with CIno _ A => forall rp C T, aspec rp A C T -> cmatch cov rp A T | _ => True end).
  { apply cnode_rect'; [|intros; exact I|exact I]. intros _ A IH rp C T H. inversion H; subst. constructor.
    - intros n fh fch E. destruct (H1 n fh fch E) as (h & c & Ec & ET & -> & K). split; [exact Ec|]. exists h, c. split; [exact ET|]. split; [apply save_crel|].
      apply aget_in in E. apply (IH n (CIno (save_head h (ref_inode h (aget n C))) fch) E _ _ _ K).
    - intros n h c ET Ec. destruct (aget n A) as [[fh fch|k|]|] eqn:E.
      + eauto.
      + apply H2 in E. destruct E. congruence.
      + apply H3 in E. destruct E.
      + apply H4 in E. destruct E as [[E|E] _]; congruence. }
  intros A. exact (G (CIno (CHead KDir 0 0 0 (DT 0 tu_s) (DT 0 tu_s) 0 true [] EA_none) A)).
Qed.
End Backup.
