(** * C46: the invariant holds in every execution. *)
From Coq Require Import List Bool PeanoNat.
From Verif Require Import Base CancelModel CancelSpec CancelProof.
Import ListNotations.
Open Scope nat_scope.

Lemma T_ext : forall h h' t os pb p, live h' t = live h t -> pending h' t = pending h t -> served h' t = served h t -> blocked h' t = blocked h t -> throws h' t = throws h t -> requests h' t = requests h t ->
  T h t os pb p -> T h' t os pb p.
Proof. intros h h' t os pb p E1 E2 E3 E4 E5 E6. unfold T, alike, room. rewrite E1, E2, E3, E4, E5, E6. auto. Qed.
Lemma live_nil : forall (l m : list nat), (forall o, In o l <-> In o m) -> (l = [] <-> m = []).
Proof. intros l m H. split; intros ->; [destruct m as [|x m]|destruct l as [|x l]]; auto; [destruct (proj2 (H x) (or_introl eq_refl))|destruct (proj1 (H x) (or_introl eq_refl))]. Qed.
Lemma T_alone : forall h t os pb p, T h t os pb p -> alone h t = match os with [] => true | _ => false end.
Proof.
  intros h t os pb p (L & _). apply live_nil in L. unfold alone. destruct os as [|x os]; [rewrite (proj1 L eq_refl); reflexivity|]. destruct (live h t); [destruct L as [_ L]; specialize (L eq_refl); discriminate L|reflexivity].
Qed.
Lemma in_fst : forall (o : nat) (l : list (nat * fields)), In o (map fst l) <-> exists f, In (o, f) l.
Proof. intros. rewrite in_map_iff. split; [intros ([o' f] & E & H); cbn in E; subst; eauto|intros [f H]; exists (o, f); auto]. Qed.
(** the status of an object of thread [t] *)
Lemma status_in : forall o w f, NoDup (map fst (info w)) -> (status o w = Some f <-> In (o, f) (info w)).
Proof.
  intros o w f. unfold status. generalize (info w). intros l. induction l as [|[o' f'] l IH]; cbn [find map fst In]; intro ND; [split; [discriminate|contradiction]|]. inversion ND as [|? ? NI ND']; subst.
  destruct (Nat.eqb_spec o' o) as [->|X].
  - cbn. split; [intro E; injection E as ->; auto|]. intros [E|H]; [congruence|]. destruct NI. apply in_fst. eauto.
  - rewrite IH by assumption. split; [auto|]. intros [E|H]; [congruence|exact H].
Qed.
Lemma status_none : forall o w, status o w = None -> ~ In o (map fst (info w)).
Proof. intros o w H K. unfold status in H. destruct (find _ (info w)) eqn:E; [discriminate|]. apply in_map_iff in K as (x & E2 & K). eapply find_none in E; [|exact K]. rewrite E2, Nat.eqb_refl in E. discriminate. Qed.
Lemma owns_in : forall t o w, NoDup (map fst (info w)) -> (owns t o w <-> In o (map fst (objs t w))).
Proof.
  intros t o w ND. split.
  - intros (f & E & E2). apply status_in in E; [|exact ND]. apply in_fst. exists f. apply filter_In. split; [exact E|]. apply of_tid_eq. exact E2.
  - intro H. apply in_fst in H as [f H]. pose proof (objs_tid _ _ _ H). apply filter_In in H as [H _]. exists f. rewrite status_in; auto.
Qed.
Lemma status_objs : forall t o w f, NoDup (map fst (info w)) -> In o (map fst (objs t w)) -> status o w = Some f -> In (o, f) (objs t w).
Proof. intros t o w f ND H E. apply in_fst in H as [f' H]. assert (status o w = Some f') by (apply status_in; [exact ND|apply filter_In in H as [H _]; exact H]). congruence. Qed.
(** erasing an object *)
Lemma erase_ids : forall o l, NoDup (map fst l) -> NoDup (map fst (erase_obj o l)) /\ forall x, In x (erase_obj o l) <-> In x l /\ fst x <> o.
Proof.
  intros o l. induction l as [|[o' f] l IH]; cbn [erase_obj map fst]; intro ND; [split; [constructor|intro x; cbn; tauto]|]. inversion ND as [|? ? NI ND']; subst. destruct (IH ND') as [N2 I2]. destruct (Nat.eqb_spec o' o) as [->|X].
  - split; [exact ND'|]. intros [a b]. cbn [In fst]. split; [intro H; split; [auto|intros ->; apply NI, in_fst; eauto]|]. intros [[E|H] K]; [congruence|exact H].
  - split; [cbn [map fst]; constructor; [|exact N2]; intro K; apply NI; apply in_fst in K as [g K]; apply I2 in K as [K _]; apply in_fst; eauto|]. intros [a b]. cbn [In fst]. rewrite I2. cbn [fst]. split; [intros [E|H]; [split; [auto|congruence]|tauto]|]. tauto.
Qed.
Lemma objs_unmake : forall t o w, NoDup (map fst (info w)) -> forall x, In x (objs t (unmake o w)) <-> In x (objs t w) /\ fst x <> o.
Proof. intros t o w ND x. unfold objs, unmake. cbn [info]. rewrite !filter_In. destruct (erase_ids o (info w) ND) as [_ H]. rewrite H. tauto. Qed.
Lemma objs_unmake_other : forall t t' o w, NoDup (map fst (info w)) -> owns t o w -> t <> t' -> objs t' (unmake o w) = objs t' w.
Proof.
  intros t t' o w ND (f & E & E2) X. apply status_in in E; [|exact ND]. unfold objs, unmake. cbn [info]. revert ND E. generalize (info w). intro l. induction l as [|[o' f'] l IH]; [reflexivity|]. cbn [map fst erase_obj In filter]. intros ND K. inversion ND as [|? ? NI ND']; subst.
  destruct (Nat.eqb_spec o' o) as [->|Y].
  - assert (f' = f) as -> by (destruct K as [K|K]; [congruence|destruct NI; apply in_fst; eauto]). cbn [snd]. unfold of_tid at 2. destruct (Nat.eqb_spec (tid f) t'); [congruence|reflexivity].
  - cbn [filter]. destruct K as [K|K]; [congruence|]. rewrite (IH ND' K). reflexivity.
Qed.

Ltac tac_T := unfold T, alike, room in *; cbn [live pending served blocked throws requests].
Lemma go_same : forall t p ps, go t p ps t = p.
Proof. intros. unfold go. rewrite Nat.eqb_refl. reflexivity. Qed.
Lemma go_other : forall t p ps x, x <> t -> go t p ps x = ps x.
Proof. intros. unfold go. destruct (Nat.eqb_spec x t); [congruence|reflexivity]. Qed.
(** the events of a thread do not change the others *)
Ltac other_thread X := eapply T_ext; [..|eassumption]; cbn [live pending served blocked throws requests]; repeat match goal with |- context[?a =? ?b] => destruct (Nat.eqb_spec a b); [exfalso; congruence|] end; reflexivity.

Lemma T_new : forall h t o w p, T h t (objs t w) (pre t w) p -> p = Idle -> T (New t o :: h) t (objs t (make t o w)) (pre t (make t o w)) p.
Proof.
  intros h t o w p (L & E0 & E1 & P & C) ->. unfold make, find_info. rewrite !find_filter. fold (objs t w). fold (pre t w).
  assert (A : forall f pb' , tid f = t -> objs t (Wd (info w ++ [(o, f)]) pb' (asso w)) = objs t w ++ [(o, f)]).
  { intros f pb' E. unfold objs. cbn [info]. rewrite filter_app. cbn [filter snd]. apply of_tid_eq in E. rewrite E. reflexivity. }
  assert (Lv : forall f o', In o' (map fst (objs t w ++ [(o, f)])) <-> In o' (live (New t o :: h) t)).
  { intros f o'. cbn [live]. rewrite Nat.eqb_refl, map_app, in_app_iff. cbn [map fst In]. rewrite L. tauto. }
  destruct (objs t w) as [|[o1 f1] os] eqn:Eo; cbn [hd_error option_map snd].
  - destruct (E0 eq_refl) as (Ep & Es & Eb). destruct (pending h t) as [[i fl]|] eqn:Epd.
    + rewrite Ep. cbn [hd_error]. rewrite A by reflexivity. unfold pre. cbn [preborn]. rewrite erase_first_filter, Nat.eqb_refl. fold (pre t w). rewrite Ep. cbn [tl].
      split; [apply Lv|]. split; [discriminate|]. split; [intros _; split; [reflexivity|]|split; [exact I|]].
      * exists i, fl. cbn [pending blocked served]. rewrite Epd, Es, Eb. split; [constructor; [reflexivity|constructor]|reflexivity].
      * revert C. tac_T. auto.
    + rewrite Ep. cbn [hd_error]. rewrite A by reflexivity. change (pre t (Wd (info w ++ [(o, Fl t false true false false 0)]) (preborn w) (asso w))) with (pre t w). rewrite Ep.
      split; [apply Lv|]. split; [discriminate|]. split; [intros _; split; [reflexivity|]|split; [exact I|]].
      * exists true, 0%N. cbn [pending blocked served]. rewrite Epd, Es, Eb. split; [constructor; [reflexivity|constructor]|intros []].
      * revert C. tac_T. auto.
  - destruct E1 as (Ep & i & fl & F & M); [discriminate|]. assert (Ef : f1 = Fl t (blocked h t) i (some (pending h t)) (served h t) fl) by (inversion F; auto).
    rewrite A by (rewrite Ef; reflexivity). change (pre t (Wd (info w ++ [(o, f1)]) (preborn w) (asso w))) with (pre t w).
    split; [apply Lv|]. split; [destruct os; discriminate|]. split; [intros _; split; [exact Ep|]|split; [exact I|]].
    * exists i, fl. cbn [pending blocked served]. split; [|exact M]. apply Forall_app. split; [exact F|]. constructor; [exact Ef|constructor].
    * revert C. tac_T. auto.
Qed.
Lemma other_new : forall t t' o w, t <> t' -> NoDup (map fst (info w)) -> objs t' (make t o w) = objs t' w /\ pre t' (make t o w) = pre t' w.
Proof.
  intros t t' o w X ND. assert (A : forall f pb, tid f = t -> objs t' (Wd (info w ++ [(o, f)]) pb (asso w)) = objs t' w).
  { intros f pb E. unfold objs. cbn [info]. rewrite filter_app. cbn [filter snd]. unfold of_tid at 2. destruct (Nat.eqb_spec (tid f) t'); [congruence|]. apply app_nil_r. }
  unfold make, find_info. destruct (find _ (info w)) as [[o1 f1]|] eqn:E; cbn [option_map snd].
  - split; [|reflexivity]. apply A. apply find_some in E as [_ E]. apply of_tid_eq. exact E.
  - destruct (find _ (preborn w)) as [f|] eqn:E2; [|split; [apply A; reflexivity|reflexivity]]. apply find_some in E2 as [_ E2]. split; [apply A, of_tid_eq; exact E2|].
    unfold pre. cbn [preborn]. rewrite erase_first_filter. destruct (Nat.eqb_spec t t'); [congruence|reflexivity].
Qed.
Lemma T_del : forall h t o w p, NoDup (map fst (info w)) -> owns t o w -> T h t (objs t w) (pre t w) p -> p = Idle -> T (Del t o :: h) t (objs t (unmake o w)) (pre t (unmake o w)) p.
Proof.
  intros h t o w p ND Ow (L & E0 & E1 & P & C) ->. change (pre t (unmake o w)) with (pre t w). pose proof (objs_unmake t o w ND) as U.
  assert (Ne : objs t w <> []) by (apply owns_in in Ow; [|exact ND]; intro K; rewrite K in Ow; exact Ow). destruct (E1 Ne) as (Ep & i & fl & F & M).
  assert (L' : forall o', In o' (map fst (objs t (unmake o w))) <-> In o' (live (Del t o :: h) t)).
  { intro o'. cbn [live]. rewrite Nat.eqb_refl. rewrite in_fst. split.
    - intros [f H]. apply U in H as [H K]. apply in_in_remove; [exact K|]. apply L, in_fst. eauto.
    - intro H. apply in_remove in H as [H K]. apply L, in_fst in H as [f H]. exists f. apply U. auto. }
  assert (Al : alone (Del t o :: h) t = match objs t (unmake o w) with [] => true | _ => false end).
  { apply live_nil in L'. unfold alone. destruct (objs t (unmake o w)); [rewrite (proj1 L' eq_refl); reflexivity|]. destruct (live (Del t o :: h) t); [destruct L' as [_ L']; specialize (L' eq_refl); discriminate L'|reflexivity]. }
  split; [exact L'|]. unfold alike, room in *. cbn [pending served blocked throws requests]. rewrite Nat.eqb_refl, Al. cbn [andb]. destruct (objs t (unmake o w)) as [|x os'] eqn:Eo.
  - split; [auto|]. split; [congruence|]. split; [exact I|]. cbn. lia.
  - split; [discriminate|]. split; [intros _; split; [exact Ep|]|]. { exists i, fl. split; [|exact M]. rewrite Forall_forall in *. intros y Hy. apply F. apply U. exact Hy. } split; [exact I|]. exact C.
Qed.
Lemma objs_set : forall d g w t pb a, (forall f, tid (g f) = tid f) -> objs t (Wd (set_info d g (info w)) pb a) = if d =? t then map (fun x => (fst x, g (snd x))) (objs t w) else objs t w.
Proof. intros. unfold objs. cbn [info]. apply set_info_filter. assumption. Qed.
Lemma map_ids : forall (g : nat * fields -> fields) (os : list (nat * fields)), map fst (map (fun x => (fst x, g x)) os) = map fst os.
Proof. intros. rewrite map_map. reflexivity. Qed.
Lemma map_nil : forall A B (f : A -> B) l, map f l = [] -> l = [].
Proof. intros A B f [|x l]; [reflexivity|discriminate]. Qed.
Lemma T_block : forall h t o m w p, In o (map fst (objs t w)) -> T h t (objs t w) (pre t w) p -> p = Idle -> T (Block t o m :: h) t (objs t (block t m w)) (pre t (block t m w)) (if m then Idle else Checking o).
Proof.
  intros h t o m w p Ow (L & E0 & E1 & P & C) ->. change (pre t (block t m w)) with (pre t w). unfold block. rewrite objs_set, Nat.eqb_refl by reflexivity.
  unfold T, alike, room in *. cbn [live pending served blocked throws requests]. rewrite Nat.eqb_refl, map_ids. split; [exact L|]. assert (Ne : objs t w <> []) by (intro K; rewrite K in Ow; exact Ow).
  split; [intro K; apply map_nil in K; congruence|]. split.
  - intros _. destruct (E1 Ne) as (Ep & i & fl & F & M). split; [exact Ep|]. exists i, fl. split; [|destruct (pending h t); [exact M|destruct m; intros []]].
    rewrite Forall_forall in *. intros x Hx. apply in_map_iff in Hx as (y & <- & Hy). cbn [snd]. rewrite (F y Hy). reflexivity.
  - split; [destruct m; [exact I|exact Ow]|]. destruct m; exact C.
Qed.
Lemma T_cancel : forall h t s i fl w p, T h t (objs t w) (pre t w) p -> hit h s t = true -> T (Cancel s i fl :: h) t (hitc t i fl (objs t w)) (hitp t i fl (objs t w) (pre t w)) p.
Proof.
  intros h t s i fl w p (L & E0 & E1 & P & C) Hh. unfold T, alike, room in *. cbn [live pending served blocked throws requests]. rewrite Hh. unfold hitc. rewrite map_ids. split; [exact L|].
  split; [|split; [|split]].
  - intro K. apply map_nil in K. rewrite K. cbn [hitp]. destruct (E0 K) as (Ep & Es & Eb). split; [|auto]. rewrite Ep. destruct (pending h t) as [[? ?]|]; reflexivity.
  - intro K. destruct (objs t w) as [|x os]; [destruct K; reflexivity|]. destruct E1 as (Ep & j & fj & F & M); [discriminate|]. split; [exact Ep|]. exists i, fl. split; [|reflexivity].
    rewrite Forall_forall in *. intros y Hy. apply in_map_iff in Hy as (z & <- & Hz). cbn [snd]. unfold fl_c. rewrite (F z Hz). reflexivity.
  - destruct p; tauto.
  - cbn [some negb andb]. destruct p; try destruct (some (pending h t) && negb (served h t)); lia.
Qed.
Lemma T_clear : forall h t s r w p, T h t (objs t w) (pre t w) p -> hit h s t = true -> T (Clear s r :: h) t (clrc (objs t w)) (clrp (objs t w) (pre t w)) p.
Proof.
  intros h t s r w p (L & E0 & E1 & P & C) Hh. unfold T, alike, room in *. cbn [live pending served blocked throws requests]. rewrite Hh. unfold clrc.
  rewrite map_ids. split; [exact L|].
  split; [|split; [|split]].
  - intro K. apply map_nil in K. rewrite K. cbn [clrp]. destruct (E0 K) as (Ep & Es & Eb). auto.
  - intro K. destruct (objs t w) as [|x os]; [destruct K; reflexivity|]. destruct E1 as (Ep & j & fj & F & M); [discriminate|]. split; [exact Ep|]. exists false, 0%N. split; [|auto].
    rewrite Forall_forall in *. intros y Hy. apply in_map_iff in Hy as (z & <- & Hz). cbn [snd]. rewrite (F z Hz). reflexivity.
  - destruct p; tauto.
  - cbn [some negb andb]. destruct p; try destruct (some (pending h t) && negb (served h t)); lia.
Qed.
(** the phase of a thread that does a check *)
Lemma T_phase : forall h h' t os pb p p', live h' t = live h t -> pending h' t = pending h t -> served h' t = served h t -> blocked h' t = blocked h t -> requests h' t = requests h t ->
  (in_check p' -> in_check p \/ some (pending h t) = true) ->
  match p' with Idle => True | Checking o | Raising o => In o (map fst os) | Passed o => In o (map fst os) /\ served h t = false end ->
  throws h' t + room h t p' <= requests h t -> T h t os pb p -> T h' t os pb p'.
Proof.
  intros h h' t os pb p p' E1 E2 E3 E4 E5 A B D (L & F0 & F1 & P & C). unfold T, alike, room in *. rewrite E1, E2, E3, E4, E5. split; [exact L|]. split; [exact F0|]. split; [|auto].
  intro Ne. destruct (F1 Ne) as (Ep & i & fl & F & M). split; [exact Ep|]. exists i, fl. split; [exact F|]. destruct (pending h t) as [v|]; [exact M|]. intro K. destruct (A K) as [K2|K2]; [exact (M K2)|discriminate K2].
Qed.
Lemma T_obj : forall h t w p o f, NoDup (map fst (info w)) -> T h t (objs t w) (pre t w) p -> In o (map fst (objs t w)) -> status o w = Some f ->
  exists i fl, f = Fl t (blocked h t) i (some (pending h t)) (served h t) fl /\ match pending h t with Some v => v = (i, fl) | None => in_check p -> i = false /\ fl = 0%N end.
Proof.
  intros h t w p o f ND (_ & _ & E1 & _) Ho Ef. pose proof (status_objs t o w f ND Ho Ef) as Ei. clear Ef. rename Ei into Ef. destruct E1 as (_ & i & fl & F & M); [intro K; rewrite K in Ef; exact Ef|]. exists i, fl. split; [|exact M]. rewrite Forall_forall in F. exact (F _ Ef).
Qed.
Lemma in_nodup_app : forall (l : list (nat * fields)) o f, NoDup (map fst l) -> ~ In o (map fst l) -> NoDup (map fst (l ++ [(o, f)])).
Proof. intros l o f ND NI. rewrite map_app. cbn [map fst]. apply NoDup_Add with (a := o) (l := map fst l); [|auto]. rewrite <- (app_nil_r (map fst l)) at 1. apply Add_app. Qed.
Lemma make_ids : forall t o w, exists f, info (make t o w) = info w ++ [(o, f)] /\ asso (make t o w) = asso w.
Proof. intros. unfold make. destruct (find_info t w); [|destruct (find _ _)]; cbn; eauto. Qed.
Lemma inv_init : inv [] init.
Proof.
  split; [constructor|]. split; [intros a b; cbn; split; [contradiction|discriminate]|]. intro t. unfold T. cbn. split; [tauto|]. split; [auto|]. split; [intro K; destruct K; reflexivity|]. split; [exact I|lia].
Qed.
Lemma inv_step : forall h s e s', inv h s -> step s e s' -> inv (e :: h) s'.
Proof.
  intros h s e s' (ND & L & Ht) H. inversion H; subst; clear H; cbn [fst snd] in *; try match goal with K : owns _ _ _ |- _ => rename K into Ow end; try match goal with K : _ = _ |- _ => match type of K with ?f _ = _ => match type of f with nat -> phase => rename K into Ph end end end; try match goal with K : status _ _ = _ |- _ => rename K into St end.
  - (* New *) destruct (make_ids t o w) as (f & Ei & Ea). split; [|split].
    + cbn [fst]. rewrite Ei. apply in_nodup_app; [exact ND|]. apply status_none. assumption.
    + cbn [fst linked]. rewrite Ea. exact L.
    + intro t'. cbn [fst snd]. destruct (Nat.eq_dec t t') as [<-|X]; [apply T_new; auto|]. destruct (other_new t t' o w X ND) as [-> ->]. specialize (Ht t'). other_thread X.
  - (* Del *) split; [|split].
    + cbn [fst unmake info]. apply erase_ids. exact ND.
    + exact L.
    + intro t'. cbn [fst snd]. destruct (Nat.eq_dec t t') as [<-|X]; [apply T_del; auto|]. rewrite (objs_unmake_other t t' o w ND Ow X). change (pre t' (unmake o w)) with (pre t' w). specialize (Ht t'). other_thread X.
  - (* Block *) apply owns_in in Ow; [|exact ND]. split; [cbn; rewrite set_info_ids; exact ND|]. split; [exact L|]. intro t'. cbn [fst snd]. destruct (Nat.eq_dec t t') as [<-|X].
    + pose proof (T_block h t o true w (ps t) Ow (Ht t) Ph) as K. rewrite Ph. exact K.
    + unfold block. rewrite objs_set by reflexivity. change (pre t' (Wd (set_info t (fun f => Fl (tid f) true (immediate f) (cancellation f) (thrown f) (cflag f)) (info w)) (preborn w) (asso w))) with (pre t' w).
      destruct (Nat.eqb_spec t t'); [congruence|]. specialize (Ht t'). other_thread X.
  - (* unblock *) apply owns_in in Ow; [|exact ND]. split; [cbn; rewrite set_info_ids; exact ND|]. split; [exact L|]. intro t'. cbn [fst snd]. destruct (Nat.eq_dec t t') as [<-|X].
    + rewrite go_same. exact (T_block h t o false w (ps t) Ow (Ht t) Ph).
    + rewrite go_other by congruence. unfold block. rewrite objs_set by reflexivity. change (pre t' (Wd (set_info t (fun f => Fl (tid f) false (immediate f) (cancellation f) (thrown f) (cflag f)) (info w)) (preborn w) (asso w))) with (pre t' w).
      destruct (Nat.eqb_spec t t'); [congruence|]. specialize (Ht t'). other_thread X.
  - (* Check *) apply owns_in in Ow; [|exact ND]. split; [exact ND|]. split; [exact L|]. intro t'. cbn [fst snd]. destruct (Nat.eq_dec t t') as [<-|X].
    + rewrite go_same. eapply T_phase; [..|exact (Ht t)]; try reflexivity; [intros []|exact Ow|]. cbn [throws]. pose proof (Ht t) as (_ & _ & _ & _ & C). rewrite Ph in C. exact C.
    + rewrite go_other by congruence. specialize (Ht t'). other_thread X.
  - (* Test *) split; [exact ND|]. split; [exact L|]. intro t'. cbn [fst snd]. destruct (Nat.eq_dec t t') as [<-|X].
    + rewrite go_same. pose proof (Ht t) as (_ & _ & _ & P & C). rewrite Ph in P, C. destruct (T_obj h t w _ o f ND (Ht t) P St) as (i & fl & Ef & M). unfold room in C.
      assert (D : due f = true -> some (pending h t) = true /\ served h t = false) by (rewrite Ef; unfold due; cbn; destruct (some (pending h t)), (served h t); cbn; intuition congruence).
      destruct (due f); (eapply T_phase; [..|exact (Ht t)]; try reflexivity).
      * intros _. right. apply D. reflexivity.
      * split; [exact P|apply D; reflexivity].
      * cbn [throws]; unfold room; cbn iota. destruct (D eq_refl) as [E1 E2]. rewrite E1, E2 in C. cbn in C. lia.
      * intros [].
      * exact C.
    + rewrite go_other by congruence. specialize (Ht t'). other_thread X.
  - (* Flag *) pose proof (Ht t) as (Lv & _ & E1 & P & C). rewrite Ph in P, C. destruct P as [P Sv]. assert (Ne : objs t w <> []) by (intro K; rewrite K in P; exact P). destruct (E1 Ne) as (Ep & i & fl & F & M).
    assert (R : snd (flag_thrown t w) = true).
    { unfold flag_thrown. cbn [snd]. apply existsb_exists. apply in_fst in P as [f P]. exists (o, f). pose proof (objs_tid _ _ _ P) as Et. rewrite Forall_forall in F. pose proof (F _ P) as Ef. cbn [snd] in Ef. apply filter_In in P as [P _]. split; [exact P|]. cbn [snd]. apply of_tid_eq in Et. cbn [snd] in Et. rewrite Et, Ef. cbn. rewrite Sv. reflexivity. }
    rewrite R. cbn [flag_thrown fst]. split; [cbn; rewrite set_info_ids; exact ND|]. split; [exact L|]. intro t'. cbn [fst snd]. rewrite objs_set by reflexivity.
    change (pre t' (Wd (set_info t (fun f => Fl (tid f) (block_delayed f) (immediate f) (cancellation f) true (cflag f)) (info w)) (preborn w) (asso w))) with (pre t' w). destruct (Nat.eq_dec t t') as [<-|X].
    + rewrite go_same, Nat.eqb_refl. unfold T, alike, room in *. cbn [live pending served blocked throws requests]. rewrite Nat.eqb_refl, map_ids. cbn [orb]. split; [exact Lv|]. split; [intro K; apply map_nil in K; congruence|]. split.
      * intros _. split; [exact Ep|]. exists i, fl. split; [|rewrite Ph in M; exact M]. rewrite Forall_forall in *. intros x Hx. apply in_map_iff in Hx as (y & <- & Hy). cbn [snd]. rewrite (F y Hy). reflexivity.
      * split; [exact P|]. rewrite andb_false_r. exact C.
    + rewrite go_other by congruence. destruct (Nat.eqb_spec t t'); [congruence|]. specialize (Ht t'). other_thread X.
  - (* Throw *) split; [exact ND|]. split; [exact L|]. intro t'. cbn [fst snd]. destruct (Nat.eq_dec t t') as [<-|X].
    + rewrite go_same. eapply T_phase; [..|exact (Ht t)]; try reflexivity; [intros []|]. cbn [throws]; unfold room; cbn iota. rewrite Nat.eqb_refl. pose proof (Ht t) as (_ & _ & _ & _ & C). rewrite Ph in C. unfold room in C. lia.
    + rewrite go_other by congruence. specialize (Ht t'). other_thread X.
  - (* Cancel *) destruct (cancel_fold (targets t w) i fl w 0) as (_ & _ & Ea & Ei). split; [cbn [fst]; unfold cancel; rewrite Ei; exact ND|]. split; [cbn [fst linked]; unfold cancel; rewrite Ea; exact L|].
    intro t'. cbn [fst snd]. unfold cancel. destruct (cancel_fold (targets t w) i fl w t') as (-> & -> & _). rewrite (hit_targets h w t t' L). destruct (hit h t t') eqn:E; [apply T_cancel; auto|].
    eapply T_ext; [..|exact (Ht t')]; cbn [live pending served blocked throws requests]; rewrite ?E; reflexivity.
  - (* Clear *) pose proof (clear_fold (targets t w) (w, false) 0) as (_ & _ & Ea & Ei). cbn [fst] in Ea, Ei. split; [cbn [fst]; unfold clear_pending; rewrite Ei; exact ND|]. split; [cbn [fst linked]; unfold clear_pending; rewrite Ea; exact L|].
    intro t'. cbn [fst snd]. unfold clear_pending at 2 3. destruct (clear_fold (targets t w) (w, false) t') as (-> & -> & _). cbn [fst]. rewrite (hit_targets h w t t' L). destruct (hit h t t') eqn:E; [apply T_clear; auto|].
    eapply T_ext; [..|exact (Ht t')]; cbn [live pending served blocked throws requests]; rewrite ?E; reflexivity.
  - (* Status *) split; [exact ND|]. split; [exact L|]. intro t'. eapply T_ext; [..|exact (Ht t')]; reflexivity.
  - (* Self *) split; [exact ND|]. split; [exact L|]. intro t'. eapply T_ext; [..|exact (Ht t')]; reflexivity.
  - (* Assoc *) split; [exact ND|]. split.
    + intros a b. cbn [fst associate asso linked]. rewrite in_app_iff, L, orb_true_iff, andb_true_iff, !Nat.eqb_eq. cbn [In]. split; [intros [K|[K|[]]]; [auto|left; split; congruence]|]. intros [[-> ->]|K]; auto.
    + intro t'. eapply T_ext; [..|exact (Ht t')]; reflexivity.
  - split; [exact ND|]. split.
    + intros a b. cbn [fst unsource asso linked]. rewrite filter_In, L, andb_true_iff. cbn [fst]. rewrite (Nat.eqb_sym a s0). tauto.
    + intro t'. eapply T_ext; [..|exact (Ht t')]; reflexivity.
  - split; [exact ND|]. split.
    + intros a b. cbn [fst untarget asso linked]. rewrite filter_In, L, andb_true_iff. cbn [snd]. rewrite (Nat.eqb_sym b d). tauto.
    + intro t'. eapply T_ext; [..|exact (Ht t')]; reflexivity.
  - (* Forget *) split; [exact ND|]. split; [exact L|]. intro t'. cbn [fst snd remove_from_preborn]. change (objs t' (Wd (info w) (filter (fun f => negb (of_tid t f)) (preborn w)) (asso w))) with (objs t' w).
    unfold pre. cbn [preborn]. rewrite filter_neg. fold (pre t' w). destruct (Nat.eqb_spec t t') as [<-|X].
    + pose proof (T_alone _ _ _ _ _ (Ht t)) as Al. pose proof (Ht t) as (Lv & E0 & E1 & P & C). unfold T, alike, room in *. cbn [live pending served blocked throws requests]. rewrite Nat.eqb_refl, Al. cbn [andb]. split; [exact Lv|].
      destruct (objs t w) as [|x os].
      * destruct (E0 eq_refl) as (_ & Es & Eb). split; [auto|]. split; [congruence|]. split; [exact P|]. cbn [some andb]. destruct (ps t); try destruct P; try contradiction; cbn; lia.
      * split; [discriminate|]. split; [intros _; destruct E1 as [_ E1]; [discriminate|]; split; [reflexivity|exact E1]|]. split; [exact P|exact C].
    + specialize (Ht t'). other_thread X.
Qed.
Lemma inv_runs : forall h s, runs h s -> inv h s.
Proof. intros h s H. induction H; [apply inv_init|eapply inv_step; eauto]. Qed.
