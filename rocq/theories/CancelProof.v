(** * C46: invariant of the cancellation of threads. *)
From Coq Require Import List Bool PeanoNat.
From Verif Require Import Base CancelModel CancelSpec.
Import ListNotations.
Open Scope nat_scope.

Definition objs (t : nat) (w : world) : list (nat * fields) := filter (fun x => of_tid t (snd x)) (info w).
Definition pre (t : nat) (w : world) : list fields := filter (of_tid t) (preborn w).
Definition some {A} (o : option A) : bool := match o with Some _ => true | None => false end.
Definition in_check (p : phase) : Prop := match p with Passed _ | Raising _ => True | _ => False end.
Definition room (h : list ev) (t : nat) (p : phase) : nat :=
  (match p with Raising _ => 1 | _ => 0 end) + (match p with Passed _ => 1 | _ => if some (pending h t) && negb (served h t) then 1 else 0 end).
Definition alike (h : list ev) (t : nat) (p : phase) (os : list (nat * fields)) : Prop :=
  exists i fl, Forall (fun x => snd x = Fl t (blocked h t) i (some (pending h t)) (served h t) fl) os /\
    match pending h t with Some v => v = (i, fl) | None => in_check p -> i = false /\ fl = 0%N end.
Definition T (h : list ev) (t : nat) (os : list (nat * fields)) (pb : list fields) (p : phase) : Prop :=
  (forall o, In o (map fst os) <-> In o (live h t)) /\
  (os = [] -> pb = match pending h t with Some (i, fl) => [Fl t false i true false fl] | None => [] end /\ served h t = false /\ blocked h t = false) /\
  (os <> [] -> pb = [] /\ alike h t p os) /\
  match p with Idle => True | Checking o | Raising o => In o (map fst os) | Passed o => In o (map fst os) /\ served h t = false end /\
  throws h t + room h t p <= requests h t.
Definition inv (h : list ev) (s : state) : Prop :=
  NoDup (map fst (info (fst s))) /\ (forall a b, In (a, b) (asso (fst s)) <-> linked h a b = true) /\ forall t, T h t (objs t (fst s)) (pre t (fst s)) (snd s t).

Lemma of_tid_eq : forall t f, of_tid t f = true <-> tid f = t.
Proof. intros. unfold of_tid. apply Nat.eqb_eq. Qed.
Lemma find_filter : forall A (p : A -> bool) l, find p l = hd_error (filter p l).
Proof. intros A p l. induction l as [|x l IH]; [reflexivity|]. cbn. destruct (p x); [reflexivity|exact IH]. Qed.
Lemma filter_rev : forall A (p : A -> bool) l, filter p (rev l) = rev (filter p l).
Proof. intros A p l. induction l as [|x l IH]; [reflexivity|]. cbn. rewrite filter_app, IH. cbn. destruct (p x); cbn; [reflexivity|apply app_nil_r]. Qed.
Lemma objs_tid : forall t w x, In x (objs t w) -> tid (snd x) = t.
Proof. intros t w x H. apply filter_In in H as [_ H]. apply of_tid_eq. exact H. Qed.

(** set_info on the objects of each thread *)
Lemma set_info_filter : forall d g l t, (forall f, tid (g f) = tid f) ->
  filter (fun x => of_tid t (snd x)) (set_info d g l) = if d =? t then map (fun x => (fst x, g (snd x))) (filter (fun x : nat * fields => of_tid t (snd x)) l) else filter (fun x => of_tid t (snd x)) l.
Proof.
  intros d g l t Hg. induction l as [|[o f] l IH]; [cbn; destruct (d =? t); reflexivity|]. unfold set_info in *. cbn [map filter fst snd].
  assert (K : forall a, of_tid t (g a) = of_tid t a) by (intro a; unfold of_tid; rewrite Hg; reflexivity).
  destruct (of_tid d f) eqn:Ed; cbn [filter fst snd]; rewrite ?K, IH; destruct (of_tid t f) eqn:Et; destruct (Nat.eqb_spec d t) as [->|X]; cbn [map fst snd]; try reflexivity.
  - apply of_tid_eq in Ed, Et. congruence.
  - congruence.
Qed.
Lemma set_info_ids : forall d g l, map fst (set_info d g l) = map fst l.
Proof. intros. unfold set_info. rewrite map_map. apply map_ext. intros [o f]. cbn. destruct (of_tid d f); reflexivity. Qed.
Lemma put_filter : forall d n l t, tid n = d -> filter (of_tid t) (put_preborn d n l) = if d =? t then match filter (of_tid t) l with [] => [n] | _ :: r => n :: r end else filter (of_tid t) l.
Proof.
  intros d n l t E. subst d. induction l as [|f l IH]; cbn [put_preborn filter].
  - unfold of_tid. destruct (Nat.eqb_spec (tid n) t); reflexivity.
  - destruct (of_tid (tid n) f) eqn:E2.
    + apply of_tid_eq in E2. cbn [filter]. assert (K : of_tid t f = of_tid t n) by (unfold of_tid; rewrite E2; reflexivity). rewrite K. unfold of_tid. destruct (Nat.eqb_spec (tid n) t); reflexivity.
    + cbn [filter]. rewrite IH. assert (tid f <> tid n) by (intro K; apply of_tid_eq in K; congruence). destruct (of_tid t f) eqn:E3; [|reflexivity]. apply of_tid_eq in E3. destruct (Nat.eqb_spec (tid n) t); [congruence|reflexivity].
Qed.
Lemma erase_first_filter : forall d l t, filter (of_tid t) (erase_first d l) = if d =? t then tl (filter (of_tid t) l) else filter (of_tid t) l.
Proof.
  intros d l t. induction l as [|f l IH]; cbn [erase_first filter tl]; [destruct (d =? t); reflexivity|]. destruct (of_tid d f) eqn:E.
  - apply of_tid_eq in E. subst d. fold (of_tid t f). destruct (of_tid t f); reflexivity.
  - cbn [filter]. rewrite IH. destruct (of_tid t f) eqn:E2; [|reflexivity]. destruct (Nat.eqb_spec d t) as [->|]; [congruence|reflexivity].
Qed.
Lemma filter_neg : forall d l t, filter (of_tid t) (filter (fun f => negb (of_tid d f)) l) = if d =? t then [] else filter (of_tid t) l.
Proof.
  intros d l t. induction l as [|f l IH]; cbn [filter]; [destruct (d =? t); reflexivity|]. destruct (of_tid d f) eqn:E; cbn [negb filter]; rewrite IH.
  - apply of_tid_eq in E. subst d. fold (of_tid t f). destruct (of_tid t f); reflexivity.
  - destruct (of_tid t f) eqn:E2; [|reflexivity]. destruct (Nat.eqb_spec d t) as [->|]; [congruence|reflexivity].
Qed.

(** cancel *)
Definition fl_c (i : bool) (fl : N) (f : fields) : fields := Fl (tid f) (block_delayed f) i true false fl.
Definition hitc (t : nat) (i : bool) (fl : N) (os : list (nat * fields)) : list (nat * fields) := map (fun x => (fst x, fl_c i fl (snd x))) os.
Definition hitp (t : nat) (i : bool) (fl : N) (os : list (nat * fields)) (pb : list fields) : list fields :=
  match os with [] => match pb with [] => [Fl t false i true false fl] | _ :: r => Fl t false i true false fl :: r end | _ => pb end.
Lemma found_iff : forall d c i th fl w, snd (set_for d c i th fl w) = None <-> objs d w = [].
Proof.
  intros. unfold set_for. cbn [snd]. rewrite find_filter, filter_rev. unfold objs. destruct (filter _ (info w)) as [|x l]; [cbn; tauto|]. cbn [rev]. destruct (rev l ++ [x]) as [|y r] eqn:E; [apply app_eq_nil in E as [_ E]; discriminate|]. cbn. split; discriminate.
Qed.
Lemma objs_cancel_one : forall d i fl w t, objs t (cancel_one d i fl w) = if d =? t then hitc t i fl (objs t w) else objs t w.
Proof.
  intros. unfold cancel_one. destruct (set_for d true i false fl w) as [w' fo] eqn:E. assert (E1 : info w' = set_info d (fun f => Fl (tid f) (block_delayed f) i true false fl) (info w)) by (unfold set_for in E; injection E as <- _; reflexivity).
  replace (objs t match fo with Some _ => w' | None => add_to_preborn d i fl w' end) with (objs t w') by (destruct fo; reflexivity).
  unfold objs. rewrite E1, set_info_filter by reflexivity. reflexivity.
Qed.
Lemma pre_cancel_one : forall d i fl w t, pre t (cancel_one d i fl w) = if d =? t then hitp t i fl (objs t w) (pre t w) else pre t w.
Proof.
  intros. unfold cancel_one. pose proof (found_iff d true i false fl w) as F. destruct (set_for d true i false fl w) as [w' fo] eqn:E. cbn [snd] in F. assert (E1 : preborn w' = preborn w) by (unfold set_for in E; injection E as <- _; reflexivity).
  destruct fo as [v|].
  - unfold pre. rewrite E1. destruct (Nat.eqb_spec d t) as [->|]; [|reflexivity]. unfold hitp. destruct (objs t w); [destruct F as [_ F]; discriminate F; reflexivity|reflexivity].
  - unfold pre, add_to_preborn. cbn [preborn]. rewrite put_filter by reflexivity. rewrite E1. destruct (Nat.eqb_spec d t) as [->|]; [|reflexivity]. unfold hitp. rewrite (proj1 F eq_refl). reflexivity.
Qed.
Lemma asso_cancel_one : forall d i fl w, asso (cancel_one d i fl w) = asso w.
Proof. intros. unfold cancel_one, set_for. destruct (option_map _ _); reflexivity. Qed.
Lemma ids_cancel_one : forall d i fl w, map fst (info (cancel_one d i fl w)) = map fst (info w).
Proof. intros. unfold cancel_one, set_for. destruct (option_map _ _); cbn; apply set_info_ids. Qed.
Lemma hitc_idem : forall t i fl os, hitc t i fl (hitc t i fl os) = hitc t i fl os.
Proof. intros. unfold hitc. rewrite map_map. reflexivity. Qed.
Lemma hitp_idem : forall t i fl os pb, hitp t i fl (hitc t i fl os) (hitp t i fl os pb) = hitp t i fl os pb.
Proof. intros. unfold hitp, hitc. destruct os as [|x os]; [destruct pb|]; reflexivity. Qed.
Lemma cancel_fold : forall ds i fl w t,
  objs t (fold_left (fun w d => cancel_one d i fl w) ds w) = (if existsb (fun d => d =? t) ds then hitc t i fl (objs t w) else objs t w) /\
  pre t (fold_left (fun w d => cancel_one d i fl w) ds w) = (if existsb (fun d => d =? t) ds then hitp t i fl (objs t w) (pre t w) else pre t w) /\
  asso (fold_left (fun w d => cancel_one d i fl w) ds w) = asso w /\ map fst (info (fold_left (fun w d => cancel_one d i fl w) ds w)) = map fst (info w).
Proof.
  intros ds i fl. induction ds as [|d ds IH]; intros w t; cbn [fold_left existsb]; [auto|]. destruct (IH (cancel_one d i fl w) t) as (E1 & E2 & E3 & E4). rewrite E1, E2, E3, E4, objs_cancel_one, pre_cancel_one, asso_cancel_one, ids_cancel_one.
  destruct (d =? t) eqn:E; cbn [orb]; [|auto]. destruct (existsb _ ds); [rewrite hitc_idem, hitp_idem|]; auto.
Qed.
(** clear *)
Definition clrc (os : list (nat * fields)) : list (nat * fields) := map (fun x => (fst x, Fl (tid (snd x)) (block_delayed (snd x)) false false false 0)) os.
Definition clrp (os : list (nat * fields)) (pb : list fields) : list fields := match os with [] => [] | _ => pb end.
Lemma objs_clear_one : forall d w r t, objs t (fst (clear_one d w r)) = if d =? t then clrc (objs t w) else objs t w.
Proof.
  intros. unfold clear_one. destruct (set_for d false false false 0 w) as [w' fo] eqn:E. assert (E1 : info w' = set_info d (fun f => Fl (tid f) (block_delayed f) false false false 0) (info w)) by (unfold set_for in E; injection E as <- _; reflexivity).
  match goal with |- objs t (fst ?X) = _ => replace (objs t (fst X)) with (objs t w') by (destruct fo; reflexivity) end. unfold objs. rewrite E1, set_info_filter by reflexivity. reflexivity.
Qed.
Lemma pre_clear_one : forall d w r t, pre t (fst (clear_one d w r)) = if d =? t then clrp (objs t w) (pre t w) else pre t w.
Proof.
  intros. unfold clear_one. pose proof (found_iff d false false false 0%N w) as F. destruct (set_for d false false false 0 w) as [w' fo] eqn:E. cbn [snd] in F. assert (E1 : preborn w' = preborn w) by (unfold set_for in E; injection E as <- _; reflexivity).
  destruct fo as [v|].
  - cbn [fst]. unfold pre. rewrite E1. destruct (Nat.eqb_spec d t) as [->|]; [|reflexivity]. unfold clrp. destruct (objs t w); [destruct F as [_ F]; discriminate F; reflexivity|reflexivity].
  - unfold pre, remove_from_preborn. cbn [fst preborn]. rewrite filter_neg. rewrite E1. destruct (Nat.eqb_spec d t) as [->|]; [|reflexivity]. unfold clrp. rewrite (proj1 F eq_refl). reflexivity.
Qed.
Lemma asso_clear_one : forall d w r, asso (fst (clear_one d w r)) = asso w.
Proof. intros. unfold clear_one, set_for. destruct (option_map _ _); reflexivity. Qed.
Lemma ids_clear_one : forall d w r, map fst (info (fst (clear_one d w r))) = map fst (info w).
Proof. intros. unfold clear_one, set_for. destruct (option_map _ _); cbn; apply set_info_ids. Qed.
Lemma clrc_idem : forall os, clrc (clrc os) = clrc os.
Proof. intros. unfold clrc. rewrite map_map. reflexivity. Qed.
Lemma clrp_idem : forall os pb, clrp (clrc os) (clrp os pb) = clrp os pb.
Proof. intros. unfold clrp, clrc. destruct os as [|x os]; reflexivity. Qed.
Lemma clear_fold : forall ds x t, let y := fold_left (fun x d => clear_one d (fst x) (snd x)) ds x in
  objs t (fst y) = (if existsb (fun d => d =? t) ds then clrc (objs t (fst x)) else objs t (fst x)) /\
  pre t (fst y) = (if existsb (fun d => d =? t) ds then clrp (objs t (fst x)) (pre t (fst x)) else pre t (fst x)) /\
  asso (fst y) = asso (fst x) /\ map fst (info (fst y)) = map fst (info (fst x)).
Proof.
  intros ds. induction ds as [|d ds IH]; intros x t; cbn [fold_left existsb]; [auto|]. destruct (IH (clear_one d (fst x) (snd x)) t) as (E1 & E2 & E3 & E4). cbv zeta in *. rewrite E1, E2, E3, E4, objs_clear_one, pre_clear_one, asso_clear_one, ids_clear_one.
  destruct (d =? t) eqn:E; cbn [orb]; [|auto]. destruct (existsb _ ds); [rewrite clrc_idem, clrp_idem|]; auto.
Qed.
Lemma hit_targets : forall h w a t, (forall a b, In (a, b) (asso w) <-> linked h a b = true) -> existsb (fun d => d =? t) (targets a w) = hit h a t.
Proof.
  intros h w a t L. unfold targets, hit. cbn [existsb]. f_equal. apply eq_true_iff_eq. rewrite <- L, existsb_exists. split.
  - intros (d & H & E). apply Nat.eqb_eq in E. subst d. apply in_map_iff in H as ([a' b] & E & H). cbn in E. subst b. apply filter_In in H as [H E]. cbn in E. apply Nat.eqb_eq in E. subst. exact H.
  - intro H. exists t. split; [|apply Nat.eqb_refl]. apply in_map_iff. exists (a, t). split; [reflexivity|]. apply filter_In. split; [exact H|]. apply Nat.eqb_refl.
Qed.
