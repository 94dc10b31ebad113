(** * Proofs for C48: sets, the tree of locations, the queue. *)
From Coq Require Import List Bool PeanoNat Sorted.
From Verif Require Import Base DatetimeModel PropDatetime DbModel DbMap PropDbDelta PropDbLookup ManagerModel ManagerSpec.
Import ListNotations.
Open Scope N_scope.

(** ** sets *)
Definition set_ok (s : list N) : Prop := StronglySorted N.lt s.
Lemma sinsert_in : forall k s x, In x (sinsert k s) <-> x = k \/ In x s.
Proof.
  intros k s x. induction s as [|y r IH]; cbn; [intuition congruence|]. destruct (N.ltb_spec k y); [cbn; intuition congruence|]. destruct (N.eqb_spec k y); [subst; cbn; intuition congruence|]. cbn. rewrite IH. intuition congruence.
Qed.
Lemma sinsert_ok : forall k s, set_ok s -> set_ok (sinsert k s).
Proof.
  intros k s. induction s as [|y r IH]; intro H; cbn; [repeat constructor|]. inversion H as [|? ? H1 H2]; subst. destruct (N.ltb_spec k y).
  - constructor; [exact H|]. constructor; [assumption|]. eapply Forall_impl; [|exact H2]. intros a Ha. cbn in Ha. lia.
  - destruct (N.eqb_spec k y); [exact H|]. constructor; [apply IH; exact H1|]. apply Forall_forall. intros a Ha. apply sinsert_in in Ha as [->|Ha]; [lia|]. rewrite Forall_forall in H2. apply H2. exact Ha.
Qed.
Lemma sunion_in : forall b a x, In x (sunion a b) <-> In x a \/ In x b.
Proof.
  unfold sunion. induction b as [|y b IH]; intros a x; cbn; [tauto|]. rewrite IH, sinsert_in. intuition congruence.
Qed.
Lemma sunion_ok : forall b a, set_ok a -> set_ok (sunion a b).
Proof. unfold sunion. induction b as [|y b IH]; intros a H; cbn; [exact H|]. apply IH, sinsert_ok. exact H. Qed.
Lemma to_set_in : forall l x, In x (to_set l) <-> In x l.
Proof. intros. unfold to_set. rewrite sunion_in. cbn. tauto. Qed.
Lemma to_set_ok : forall l, set_ok (to_set l).
Proof. intros. apply sunion_ok. constructor. Qed.
Lemma mem_in : forall k s, mem k s = true <-> In k s.
Proof. intros. unfold mem. rewrite existsb_exists. split; [intros (x & H & E); apply N.eqb_eq in E; subst; exact H|intro H; exists k; split; [exact H|apply N.eqb_refl]]. Qed.
Lemma set_ext : forall a b, set_ok a -> set_ok b -> (forall x, In x a <-> In x b) -> a = b.
Proof.
  intros a. induction a as [|x a IH]; intros [|y b] Ha Hb H.
  - reflexivity.
  - exfalso. apply (H y). left. reflexivity.
  - exfalso. apply (H x). left. reflexivity.
  - inversion Ha as [|? ? A1 A2]; inversion Hb as [|? ? B1 B2]; subst. rewrite Forall_forall in A2, B2.
    assert (x = y). { destruct (proj1 (H x) (or_introl eq_refl)) as [E|E]; [congruence|]. destruct (proj2 (H y) (or_introl eq_refl)) as [F|F]; [congruence|]. specialize (A2 _ F). specialize (B2 _ E). lia. }
    subst y. f_equal. apply IH; [exact A1|exact B1|]. intro z. specialize (H z). split; intro K.
    + destruct (proj1 H (or_intror K)) as [E|E]; [|exact E]. subst z. specialize (A2 _ K). lia.
    + destruct (proj2 H (or_intror K)) as [E|E]; [|exact E]. subst z. specialize (B2 _ K). lia.
Qed.
Lemma filter_set : forall f s, set_ok s -> set_ok (filter f s).
Proof.
  intros f s H. induction H as [|x s H IH F]; cbn; [constructor|]. destruct (f x); [|exact IH]. constructor; [exact IH|]. apply Forall_forall. intros y Hy. apply filter_In in Hy as [Hy _]. rewrite Forall_forall in F. auto.
Qed.
Lemma sorted_keys : forall A (m : amap A), sorted m -> set_ok (keys m).
Proof. intros A m H. induction H as [|x m H IH F]; cbn; [constructor|]. constructor; [exact IH|]. apply Forall_forall. intros y Hy. apply in_map_iff in Hy as (z & <- & Hz). rewrite Forall_forall in F. exact (F _ Hz). Qed.

(** ** extracting a set of archives, record by record *)
Section Fold.
Context {A S : Type} (ap : N -> A -> S -> S).
Definition by_key (m : amap A) (o : S) (k : N) : S := match mfind k m with Some s => ap k s o | None => o end.
Definition by_record (K : list N) (m : amap A) (o : S) : S := fold_left (fun o x => if mem (fst x) K then ap (fst x) (snd x) o else o) m o.
Lemma fold_filter : forall (m : amap A) K o, fold_left (by_key m) K o = fold_left (by_key m) (filter (fun k => mem k (keys m)) K) o.
Proof.
  intros m K. induction K as [|k K IH]; intro o; [reflexivity|]. cbn. destruct (mem k (keys m)) eqn:E; cbn; [apply IH|]. unfold by_key at 2. replace (mfind k m) with (@None A); [apply IH|]. symmetry. apply mfind_none. intro H. apply mem_in in H. congruence.
Qed.
Lemma fold_keys : forall (m m0 : amap A) K o, sorted m0 -> (forall x, In x m -> In x m0) -> fold_left (by_key m0) (filter (fun k => mem k K) (keys m)) o = by_record K m o.
Proof.
  intros m m0 K o Hs. revert o. unfold by_record. induction m as [|[k s] m IH]; intros o H; [reflexivity|]. cbn. destruct (mem k K); cbn; [|apply IH; intros; apply H; right; assumption].
  unfold by_key at 2. rewrite (mfind_sorted m0 k s Hs) by (apply H; left; reflexivity). apply IH. intros; apply H; right; assumption.
Qed.
Lemma by_key_record : forall (m : amap A) K o, sorted m -> set_ok K -> fold_left (by_key m) K o = by_record K m o.
Proof.
  intros m K o Hm HK. rewrite fold_filter. rewrite <- (fold_keys m m K o Hm) by auto. f_equal. apply set_ext; [apply filter_set; exact HK|apply filter_set, sorted_keys; exact Hm|]. intro x. rewrite !filter_In, !mem_in. tauto.
Qed.
(** records out of the set do not count *)
Lemma by_record_app : forall K m m2 o, by_record K (m ++ m2) o = by_record K m2 (by_record K m o).
Proof. intros. unfold by_record. apply fold_left_app. Qed.
Lemma by_record_none : forall K m o, (forall k, In k (keys m) -> ~ In k K) -> by_record K m o = o.
Proof.
  intros K m. unfold by_record. induction m as [|[k s] m IH]; intros o H; [reflexivity|]. cbn. destruct (mem k K) eqn:E; [apply mem_in in E; exfalso; apply (H k); [left; reflexivity|exact E]|]. apply IH. intros k' Hk'. apply H. right. exact Hk'.
Qed.
End Fold.

(** ** data of one file *)
Section Data.
Context {C : Type} (w : world C).
Definition dap (k : N) (s : statusp) (o : option C) : option C :=
  match present s with
  | et_saved => Some (full w k)
  | et_patch | et_patch_unusable => match o with Some c => Some (apply_patch w k c) | None => None end
  | et_removed | et_absent => None
  | et_inode | et_present => o
  end.
Lemma extract_by_key : forall m o k, extract w m o k = by_key dap m o k.
Proof. intros. unfold extract, by_key, dap. destruct (mfind k m); reflexivity. Qed.
Lemma needed_same : forall u f ps i K K' o o', history false u = Have f ps i -> (forall k, In k (f :: ps) -> In k K) -> (forall k, In k (f :: ps) -> In k K') -> by_record dap K u o = by_record dap K' u o'.
Proof.
  induction u as [|[k s] u IH] using rev_ind; intros f ps i K K' o o' H H1 H2; [discriminate H|]. rewrite history_app in H. rewrite !by_record_app. unfold by_record at 1 3. cbn [fold_left fst snd].
  assert (G : forall X Y, learn false (history false u) k (present s) = Have f ps i -> (present s = et_saved \/ by_record dap K u X = by_record dap K' u Y) -> (if mem k K then dap k s (by_record dap K u X) else by_record dap K u X) = (if mem k K' then dap k s (by_record dap K' u Y) else by_record dap K' u Y)).
  { intros X Y HL HE. destruct (present s) eqn:Ep; cbn [learn] in HL.
    - injection HL as <- <- _. assert (mem k K = true) as -> by (apply mem_in, H1; left; reflexivity). assert (mem k K' = true) as -> by (apply mem_in, H2; left; reflexivity). unfold dap. rewrite Ep. reflexivity.
    - destruct HE as [HE|HE]; [discriminate HE|]. rewrite HE. destruct (history false u) as [|g| |f' ps' i']; try discriminate HL. injection HL as <- <- _.
      assert (mem k K = true) as -> by (apply mem_in, H1; right; apply in_or_app; right; left; reflexivity). assert (mem k K' = true) as -> by (apply mem_in, H2; right; apply in_or_app; right; left; reflexivity). reflexivity.
    - discriminate HL.
    - destruct HE as [HE|HE]; [discriminate HE|]. rewrite HE. unfold dap. rewrite Ep. destruct (mem k K), (mem k K'); reflexivity.
    - destruct HE as [HE|HE]; [discriminate HE|]. rewrite HE. unfold dap. rewrite Ep. destruct (mem k K), (mem k K'); reflexivity.
    - discriminate HL.
    - discriminate HL. }
  apply G; [exact H|]. destruct (present s) eqn:Ep; cbn [learn] in H; try discriminate H; [left; reflexivity|right..].
  - destruct (history false u) as [|g| |f' ps' i'] eqn:Eh; try discriminate H. injection H as <- <- _. apply (IH f' ps' i'); [reflexivity| |]; intros x [->|Hx]; first [apply H1|apply H2]; cbn; auto; right; apply in_or_app; auto.
  - destruct (history false u) as [|g| |f' ps' i'] eqn:Eh; try discriminate H. injection H as <- <- _. apply (IH f' ps' i'); auto.
  - destruct (history false u) as [|g| |f' ps' i'] eqn:Eh; try discriminate H. injection H as <- <- _. apply (IH f' ps' i'); auto.
Qed.
Lemma needed_sorted : forall u, sorted u -> match history false u with Have f ps i => set_ok (f :: ps) | _ => True end.
Proof.
  intro u. induction u as [|[k s] u IH] using rev_ind; intro S; [exact I|]. specialize (IH (sorted_prefix _ _ _ S)). rewrite history_app. pose proof (needed_keys u) as NK.
  assert (Big : forall x, In x (keys u) -> x < k). { intros x Hx. apply in_map_iff in Hx as ([x' v] & E & Hx). cbn in E. subst x'. clear -S Hx. induction u as [|y u IHu]; [destruct Hx|]. cbn in S. apply StronglySorted_inv in S as [S1 S2]. destruct Hx as [->|Hx]; [|auto]. rewrite Forall_forall in S2. apply (S2 (k, s)). apply in_or_app. right. left. reflexivity. }
  destruct (present s); cbn [learn]; destruct (history false u) as [|g| |f ps i] eqn:Eh; auto; try solve [repeat constructor].
  change (f :: ps ++ [k]) with ((f :: ps) ++ [k]). assert (B2 : forall x, In x (f :: ps) -> x < k) by (intros x Hx; apply Big, NK; cbn; destruct Hx; [left; auto|right; apply in_or_app; left; auto]).
  clear -IH B2. set (l := f :: ps) in *. clearbody l. induction l as [|x l IHl]; [cbn; repeat constructor|]. cbn. unfold set_ok in IH. apply StronglySorted_inv in IH as [I1 I2]. constructor; [apply IHl; [exact I1|intros; apply B2; right; assumption]|]. apply Forall_app. split; [exact I2|]. constructor; [apply B2; left; reflexivity|constructor].
Qed.
(** reading more archives than needed, none later than the date, gives the same file *)
Lemma more_archives : forall m d K o, sorted m -> flags_right m -> chronological date m -> honest w m -> set_ok K -> 
  (forall k s, In k K -> In (k, s) m -> In (k, s) (upto date d m)) ->
  match history false (upto date d m) with
  | Have f ps i => (forall k, In k (f :: ps) -> In k K) -> fold_left (extract w m) K o = last_truth w (upto date d m) /\ last_truth w (upto date d m) <> None
  | _ => True
  end.
Proof.
  intros m d K o Sm F Hc H SK HK. destruct (upto_prefix _ date d m Hc) as [rest Em]. set (u := upto date d m) in *. clearbody u. subst m.
  pose proof (restored_truth C w u (sorted_prefix _ _ _ Sm) (flags_prefix _ _ F) (honest_prefix _ _ _ _ H)) as X. pose proof (needed_sorted u (sorted_prefix _ _ _ Sm)) as NS. pose proof (needed_keys u) as NK.
  destruct (history false u) as [|g| |f ps i] eqn:Eh; auto. intro Hn. destruct X as (c & T & _ & R). rewrite T. split; [|discriminate]. rewrite <- R.
  unfold restored. assert (E : forall m K o, fold_left (extract w m) K o = fold_left (by_key dap m) K o) by (clear; intros m K; induction K as [|k K IH]; intro o; [reflexivity|]; cbn; rewrite extract_by_key; apply IH).
  rewrite !E. rewrite (by_key_record dap (u ++ rest) K o Sm SK), (by_key_record dap u (f :: ps) None (sorted_prefix _ _ _ Sm) NS). rewrite by_record_app, (by_record_none dap K rest); [apply (needed_same u f ps i); auto|].
  intros k Hk HkK. apply in_map_iff in Hk as ([k' v] & Ek & Hk). cbn in Ek. subst k'. specialize (HK k v HkK (in_or_app _ _ _ (or_intror Hk))).
  clear -Sm HK Hk. induction u as [|y u IHu]; [destruct HK|]. cbn in Sm. apply StronglySorted_inv in Sm as [S1 S2]. destruct HK as [->|HK]; [|auto]. rewrite Forall_forall in S2. specialize (S2 (k, v) (in_or_app _ _ _ (or_intror Hk))). unfold key_lt in S2. cbn in S2. lia.
Qed.
End Data.

(** ** EA of one file, no date given *)
Section Ea.
Context {E : Type} (w : ea_world E).
Definition eap (k : N) (s : status) (o : option E) : option E := match s_present s with et_saved => Some (ea_of w k) | et_present => o | _ => None end.
Lemma last_ea_app : forall c k s, last_ea w (c ++ [(k, s)]) = ea_truth w k.
Proof. intros. unfold last_ea. rewrite rev_app_distr. reflexivity. Qed.
Lemma ea_honest_prefix : forall c c2, ea_honest w (c ++ c2) -> ea_honest w c.
Proof. intros c c2 H before k s after Ec. apply (H before k s (after ++ c2)). rewrite Ec, <- app_assoc. reflexivity. Qed.
Lemma ea_records : forall c K o, ea_states c -> ea_honest w c -> (forall kr sr, last_such is_real c = Some (kr, sr) -> In kr K) -> last_such is_real c <> None -> by_record eap K c o = last_ea w c.
Proof.
  induction c as [|[k s] c IH] using rev_ind; intros K o Hs Hh HK Hn; [exfalso; apply Hn; reflexivity|]. rewrite last_ea_app, by_record_app. unfold by_record at 1. cbn [fold_left fst snd].
  rewrite last_such_app in HK, Hn. pose proof (Hh c k s [] eq_refl) as Hk. destruct (Hs k s) as [_ St]; [apply in_or_app; right; left; reflexivity|].
  destruct (is_real (s_present s)) eqn:Er.
  - assert (mem k K = true) as -> by (apply mem_in, (HK k s); reflexivity). unfold eap. destruct St as [X|[X|[X|X]]]; rewrite X in *; [symmetry; exact Hk|discriminate Er|symmetry; exact Hk..].
  - assert (Ep : s_present s = et_present) by (destruct St as [X|[X|[X|X]]]; rewrite X in Er; try discriminate Er; exact X). rewrite Ep in Hk. unfold eap. rewrite Ep.
    assert (by_record (fun k0 s0 o0 => match s_present s0 with et_saved => Some (ea_of w k0) | et_present => o0 | _ => None end) K c o = last_ea w c) as ->.
    { apply IH; [intros k' s' H'; apply (Hs k' s'); apply in_or_app; auto|exact (ea_honest_prefix _ _ Hh)|exact HK|exact Hn]. }
    destruct c as [|[j s'] c'] using rev_ind; [exfalso; apply Hn; reflexivity|]. rewrite last_ea_app. rewrite (Hk c' j s' eq_refl). destruct (mem k K); reflexivity.
Qed.
Lemma ea_more : forall c K o, sorted c -> set_ok K -> ea_states c -> ea_honest w c -> (forall kr sr, last_such is_real c = Some (kr, sr) -> In kr K) -> last_such is_real c <> None -> fold_left (ea_extract w c) K o = last_ea w c.
Proof.
  intros c K o Sc SK Hs Hh HK Hn. rewrite <- (ea_records c K o Hs Hh HK Hn). rewrite <- (by_key_record eap c K o Sc SK). revert o. clear. induction K as [|k K IH]; intro o; [reflexivity|]. cbn. rewrite IH. reflexivity.
Qed.
End Ea.

(** ** paths *)
Lemma read_child_in : forall n l t, read_child n l = Some t -> In t l /\ t_name t = n.
Proof. intros n l t. induction l as [|x l IH]; cbn; [discriminate|]. destruct (name_eqb (t_name x) n) eqn:E; intro H; [injection H as ->; apply name_eqb_spec in E; auto|]. destruct (IH H); auto. Qed.
Lemma read_child_of : forall n l t, NoDup (map t_name l) -> In t l -> t_name t = n -> read_child n l = Some t.
Proof.
  intros n l t. induction l as [|x l IH]; intros D Hin E; [destruct Hin|]. cbn in D. apply NoDup_cons_iff in D as [D1 D2]. cbn. destruct Hin as [->|Hin].
  - rewrite E, name_eqb_refl. reflexivity.
  - destruct (name_eqb (t_name x) n) eqn:F; [|auto]. apply name_eqb_spec in F. exfalso. apply D1. rewrite F, <- E. apply in_map. exact Hin.
Qed.
Lemma one_kids : forall n m c l, one_name_each (Tree n m c (Some l)) -> NoDup (map t_name l) /\ Forall one_name_each l.
Proof. intros n m c l H. inversion H; auto. Qed.
Lemma entry_find : forall p t e, one_name_each t -> (entry p t e <-> tree_find p t = Some e).
Proof.
  induction p as [|n p IH]; intros [x m c k] e D.
  - split; intro H; [inversion H; reflexivity|injection H as <-; constructor].
  - cbn [tree_find t_kids]. destruct k as [l|]; [|split; intro H; [inversion H|discriminate H]]. apply one_kids in D as [D1 D2]. rewrite Forall_forall in D2. split; intro H.
    + inversion H; subst. erewrite read_child_of; [|exact D1|eassumption|reflexivity]. apply IH; auto.
    + destruct (read_child n l) as [t'|] eqn:E; [|discriminate H]. apply read_child_in in E as [E1 E2]. apply below with t'; auto. apply IH; auto.
Qed.
Lemma find_one : forall p t e, one_name_each t -> tree_find p t = Some e -> one_name_each e.
Proof.
  induction p as [|n p IH]; intros [x m c k] e D H; cbn in H; [injection H as <-; exact D|]. destruct k as [l|]; [|discriminate H]. destruct (read_child n l) as [t'|] eqn:E; [|discriminate H]. apply read_child_in in E as [E1 E2]. apply one_kids in D as [D1 D2]. rewrite Forall_forall in D2. apply (IH t'); auto.
Qed.
Lemma find_app : forall p q t, tree_find (p ++ q) t = match tree_find p t with Some e => tree_find q e | None => None end.
Proof. induction p as [|n p IH]; intros q [x m c k]; cbn; [reflexivity|]. destruct k as [l|]; [|reflexivity]. destruct (read_child n l); [apply IH|reflexivity]. Qed.
Lemma find_nodes : forall P p t e, nodes P t -> tree_find p t = Some e -> nodes P e.
Proof.
  intros P p. induction p as [|n p IH]; intros [x m c k] e D H; cbn [tree_find t_kids] in H; [injection H as <-; exact D|]. destruct k as [l|]; [|discriminate H]. destruct (read_child n l) as [t'|] eqn:E; [|discriminate H]. apply read_child_in in E as [E1 E2]. apply nodes_kids in D as [_ D]. rewrite Forall_forall in D. apply (IH t'); auto.
Qed.
Lemma nodes_here : forall P e, nodes P e -> P (t_mods e) (t_chg e).
Proof. intros P [n m c k] H. cbn in H. apply H. Qed.
Lemma met_app : forall cov a p q, met cov a (p ++ q) = met cov a p && met cov (a ++ p) q.
Proof. intros cov a p. revert a. induction p as [|n p IH]; intros a q; cbn; [rewrite app_nil_r; reflexivity|]. rewrite IH, andb_assoc, <- app_assoc. reflexivity. Qed.

(** ** the tree of locations *)
Definition r_loc (r : rtree) : list N := let 'Rt l _ := r in l.
(** what an entry asks for itself *)
Definition own (d : datetime) (e : tree) : list N :=
  match get_data (t_mods e) d false, get_EA (t_chg e) d false with
  | Ok (set, found_present), Ok (k, found_present) | Ok (set, found_present), Ok (k, found_removed) => sinsert k (to_set set)
  | Ok (set, found_present), Ok _ => to_set set
  | _, _ => []
  end.
Lemma build_inv : forall d t r, rt_build d t = Ok r -> r_loc r = own d t /\
  match t_kids t, r with None, Rt _ k => k = [] | Some l, Rt _ k => Forall2 (fun x y => fst y = t_name x /\ rt_build d x = Ok (snd y)) l k end.
Proof.
  intros d [n m c k] r H. cbn [rt_build] in H. destruct (get_data m d false) as [[set dr]|] eqn:E1; [|discriminate H]. destruct (get_EA c d false) as [[ea er]|] eqn:E2; [|discriminate H]. cbn [bind] in H.
  assert (L : forall kids, r_loc (Rt (match dr with found_present => match er with found_present | found_removed => sinsert ea (to_set set) | _ => to_set set end | _ => [] end) kids) = own d (Tree n m c k)) by (intro; unfold own; cbn [t_mods t_chg r_loc]; rewrite E1, E2; destruct dr, er; reflexivity).
  destruct k as [l|]; cbn [t_kids].
  - match type of H with bind ?M _ = _ => destruct M as [kids|] eqn:E3; [|discriminate H] end. cbn [bind] in H. injection H as <-. split; [apply L|]. apply mapM_ok in E3. clear -E3. induction E3 as [|x y l kids E]; constructor; [|assumption]. destruct (rt_build d x); [|discriminate E]. cbn in E. injection E as <-. split; reflexivity.
  - cbn [bind] in H. injection H as <-. split; [apply L|reflexivity].
Qed.
Lemma build_ok : forall d t, nodes (records_fine d) t -> exists r, rt_build d t = Ok r.
Proof.
  intros d t. induction t as [n m c|n m c l IH] using tree_ind2; intro H.
  - apply nodes_leaf in H as (_ & _ & _ & _ & _ & He & _). cbn [rt_build]. destruct (C21_get_data_total m d false) as [[set dr] ->]. destruct (C21_get_EA_total c d false He) as [[ea er] ->]. cbn [bind]. eauto.
  - apply nodes_kids in H as ((_ & _ & _ & _ & _ & He & _) & Hl). cbn [rt_build]. destruct (C21_get_data_total m d false) as [[set dr] ->]. destruct (C21_get_EA_total c d false He) as [[ea er] ->]. cbn [bind].
    match goal with |- exists r, bind ?M _ = _ => assert (K : exists kids, M = Ok kids) end.
    { induction l as [|x l IHl]; cbn; [eauto|]. inversion IH; subst. inversion Hl; subst. destruct (H1 H3) as [r ->]. cbn [bind]. destruct (IHl H2 H4) as [kids K]. cbn in K. rewrite K. cbn [bind]. eauto. }
    destruct K as [kids ->]. cbn [bind]. eauto.
Qed.
Lemma find_kid : forall d n l k, Forall2 (fun x y => fst y = t_name x /\ rt_build d x = Ok (snd y)) l k -> 
  match read_child n l, find (fun x => name_eqb n (fst x)) k with Some t, Some y => fst y = n /\ rt_build d t = Ok (snd y) | None, None => True | _, _ => False end.
Proof.
  intros d n l k H. induction H as [|x y l k [H1 H2] F IH]; cbn; [exact I|]. rewrite H1. destruct (name_eqb (t_name x) n) eqn:E.
  - apply name_eqb_spec in E. rewrite E, name_eqb_refl. cbn. auto. rewrite H1. auto.
  - destruct (name_eqb n (t_name x)) eqn:E2; [apply name_eqb_spec in E2; subst n; rewrite name_eqb_refl in E; discriminate E|]. exact IH.
Qed.
Lemma build_find : forall d p t r, rt_build d t = Ok r -> match tree_find p t, rt_find p r with Some e, Some x => rt_build d e = Ok x | None, None => True | _, _ => False end.
Proof.
  intros d p. induction p as [|n p IH]; intros t r H; [exact H|]. pose proof (build_inv d t r H) as [_ K]. cbn [tree_find rt_find]. destruct (t_kids t) as [l|], r as [loc kids].
  - pose proof (find_kid d n l kids K) as F. destruct (read_child n l) as [t'|], (find _ kids) as [y|]; try contradiction; [|exact I]. apply IH. apply F.
  - subst kids. cbn. exact I.
Qed.
Lemma rtree_ind2 : forall P : rtree -> Prop, (forall loc kids, Forall (fun x => P (snd x)) kids -> P (Rt loc kids)) -> forall r, P r.
Proof. intros P H. fix IH 1. intros [loc kids]. apply H. induction kids as [|x kids IHk]; constructor; [apply IH|exact IHk]. Qed.
Lemma fold_union_in : forall A (l : list (A * list N)) a x, In x (fold_left (fun s y => sunion s (snd y)) l a) <-> In x a \/ exists y, In y l /\ In x (snd y).
Proof.
  intros A l. induction l as [|y l IH]; intros a x; cbn; [split; [auto|intros [H|(y & [] & _)]; exact H]|]. rewrite IH, sunion_in. split.
  - intros [[H|H]|(z & H1 & H2)]; [auto|right; exists y; auto|right; exists z; auto].
  - intros [H|(z & [<-|H1] & H2)]; [auto|auto|right; exists z; auto].
Qed.
Lemma fold_union_ok : forall A (l : list (A * list N)) a, set_ok a -> set_ok (fold_left (fun s y => sunion s (snd y)) l a).
Proof. intros A l. induction l as [|y l IH]; intros a H; cbn; [exact H|]. apply IH, sunion_ok. exact H. Qed.
Inductive r_below : path -> rtree -> rtree -> Prop :=
| r_here : forall r, r_below [] r r
| r_down : forall n p loc kids k e, In (n, k) kids -> r_below p k e -> r_below (n :: p) (Rt loc kids) e.
Lemma loc_fst : forall cov here r, r_loc (fst (rt_locations cov here r)) = snd (rt_locations cov here r).
Proof. intros cov here [loc kids]. reflexivity. Qed.
Lemma loc_ok : forall cov here r, set_ok (r_loc r) -> set_ok (snd (rt_locations cov here r)).
Proof. intros cov here [loc kids] H. cbn. apply fold_union_ok. exact H. Qed.
Lemma loc_in : forall cov r here k, In k (snd (rt_locations cov here r)) <-> exists q e, r_below q r e /\ In k (r_loc e) /\ met cov here q = true.
Proof.
  intros cov r. induction r as [loc kids IH] using rtree_ind2. intros here k. cbn [rt_locations snd]. rewrite fold_union_in. split.
  - intros [H|(y & H1 & H2)]; [exists [], (Rt loc kids); repeat split; [constructor|exact H]|]. apply in_map_iff in H1 as ([n x] & E & Hx). cbn [fst snd] in E. destruct (cov (here ++ [n])) eqn:Ec; [|subst y; destruct H2].
    destruct (rt_locations cov (here ++ [n]) x) as [x' s] eqn:El. subst y. cbn [snd] in H2. rewrite Forall_forall in IH. specialize (IH _ Hx (here ++ [n]) k). cbn [snd] in IH. rewrite El in IH. destruct (proj1 IH H2) as (q & e & B & L & M).
    exists (n :: q), e. split; [|split]; [econstructor; eassumption|exact L|]. cbn [met]. rewrite Ec, M. reflexivity.
  - intros (q & e & B & L & M). destruct q as [|n q]; [inversion B; subst; left; exact L|]. right. cbn [met] in M. apply andb_true_iff in M as [Ec M]. rewrite Forall_forall in IH.
    assert (X : exists x, In (n, x) kids /\ r_below q x e) by (inversion B; subst; eauto). destruct X as (x & Hin & HB). specialize (IH _ Hin (here ++ [n]) k). cbn [snd] in IH.
    assert (Z : In k (snd (rt_locations cov (here ++ [n]) x))) by (apply IH; exists q, e; auto).
    exists (n, fst (rt_locations cov (here ++ [n]) x), snd (rt_locations cov (here ++ [n]) x)). split; [|exact Z]. apply in_map_iff. exists (n, x). split; [|exact Hin].
    cbn [fst snd]. rewrite Ec. destruct (rt_locations cov (here ++ [n]) x); reflexivity.
Qed.
Lemma find_map_kid : forall (cov : path -> bool) (here : path) n (kids : list (list N * rtree)), find (fun x : list N * rtree => name_eqb n (fst x)) (map fst (map (fun x : list N * rtree => let p := here ++ [fst x] in if cov p then let '(k, s) := rt_locations cov p (snd x) in (fst x, k, s) else (fst x, snd x, @nil N)) kids)) =
  match find (fun x => name_eqb n (fst x)) kids with Some x => Some (fst x, if cov (here ++ [fst x]) then fst (rt_locations cov (here ++ [fst x]) (snd x)) else snd x) | None => None end.
Proof.
  intros cov here n kids. induction kids as [|[m x] kids IH]; cbn [map find fst snd]; [reflexivity|]. destruct (cov (here ++ [m])) eqn:Ec.
  - destruct (rt_locations cov (here ++ [m]) x) as [x' s] eqn:E. cbn [fst snd]. destruct (name_eqb n m); [rewrite ?Ec, ?E; cbn; rewrite ?Ec, ?E; reflexivity|]. exact IH.
  - cbn [fst snd]. destruct (name_eqb n m); [cbn; rewrite ?Ec; reflexivity|]. exact IH.
Qed.
Lemma loc_find : forall cov p here r, met cov here p = true -> rt_find p (fst (rt_locations cov here r)) = match rt_find p r with Some x => Some (fst (rt_locations cov (here ++ p) x)) | None => None end.
Proof.
  intros cov p. induction p as [|n p IH]; intros here r M; [cbn; rewrite app_nil_r; reflexivity|]. destruct r as [loc kids]. cbn [met] in M. apply andb_true_iff in M as [Ec M]. cbn [rt_find rt_locations fst]. rewrite find_map_kid.
  destruct (find (fun x => name_eqb n (fst x)) kids) as [x|] eqn:F; [|reflexivity]. apply find_some in F as [F1 F2]. apply name_eqb_spec in F2. rewrite <- F2, Ec. cbn [snd]. rewrite (IH (here ++ [n]) (snd x) M), <- app_assoc. reflexivity.
Qed.
Lemma below_entry : forall d q t r e, rt_build d t = Ok r -> r_below q r e -> exists x, entry q t x /\ rt_build d x = Ok e.
Proof.
  intros d q. induction q as [|n q IH]; intros t r e H B; [inversion B; subst; exists t; split; [constructor|exact H]|]. destruct r as [loc kids]. assert (X0 : exists k, In (n, k) kids /\ r_below q k e) by (inversion B; subst; eauto). destruct X0 as (k & Hin & HB). pose proof (build_inv d t _ H) as [_ K]. destruct t as [nm m c [l|]]; cbn [t_kids] in K.
  - assert (X : exists x, In x l /\ t_name x = n /\ rt_build d x = Ok k). { clear -K Hin. induction K as [|x y l kids [K1 K2] F IH]; [destruct Hin|]. destruct Hin as [->|Hin]; [exists x; cbn in *; auto|]. destruct (IH Hin) as (z & Z1 & Z2); exists z; cbn; auto. }
    destruct X as (x & X1 & X2 & X3). destruct (IH x k e X3 HB) as (z & Z1 & Z2). exists z. split; [|exact Z2]. apply below with x; auto.
  - subst kids. destruct Hin.
Qed.
Lemma entry_below : forall d q t r x, rt_build d t = Ok r -> entry q t x -> exists e, r_below q r e /\ rt_build d x = Ok e.
Proof.
  intros d q. induction q as [|n q IH]; intros t r x H B; [inversion B; subst; exists r; split; [constructor|exact H]|]. inversion B as [|n' q' nm m c l k x' Hin En HB E1 E2 E3]; subst. pose proof (build_inv d _ r H) as [_ K]. cbn [t_kids] in K. destruct r as [loc kids].
  assert (X : exists y, In (t_name k, y) kids /\ rt_build d k = Ok y) by (clear -K Hin; induction K as [|a b l kids [K1 K2] F IH]; [destruct Hin|]; destruct Hin as [->|Hin]; [exists (snd b); split; [left; rewrite <- K1; destruct b; reflexivity|exact K2]|destruct (IH Hin) as (z & Z1 & Z2); exists z; split; [right; exact Z1|exact Z2]]).
  destruct X as (y & Y1 & Y2). destruct (IH k y x Y2 HB) as (z & Z1 & Z2). exists z. split; [|exact Z2]. econstructor; eassumption.
Qed.
Lemma entry_app : forall p q t x y, entry p t x -> entry q x y -> entry (p ++ q) t y.
Proof. intros p q t x y H. induction H; intro K; [exact K|]. cbn. eapply below; eauto. Qed.
Lemma entry_split : forall p q t y, entry (p ++ q) t y -> exists x, entry p t x /\ entry q x y.
Proof. induction p as [|n p IH]; intros q t y H; [exists t; split; [constructor|exact H]|]. cbn in H. inversion H as [|n' q' nm m c l k x' Hin En HB E1 E2 E3]; subst. destruct (IH _ _ _ HB) as (x & X1 & X2). exists x. split; [eapply below; eauto|exact X2]. Qed.

(** ** what an entry gets from the whole run *)
Definition asks (d : datetime) (cov : path -> bool) (t : tree) (p : path) (k : N) : Prop := exists q x, entry (p ++ q) t x /\ In k (own d x) /\ met cov p q = true.
Lemma own_ok : forall d e, set_ok (own d e).
Proof. intros d e. unfold own. destruct (get_data _ d false) as [[s []]|]; try constructor; destruct (get_EA _ d false) as [[k []]|]; try constructor; try apply sinsert_ok; apply to_set_ok. Qed.
Theorem database_run : forall S (act : tree -> path -> S -> N -> S) d cov t disk, one_name_each t -> nodes (records_fine d) t ->
  exists disk', restore_db act t cov d disk = Ok disk' /\
    (forall p, met cov [] p = false \/ tree_find p t = None -> disk' p = disk p) /\
    (forall p e, entry p t e -> met cov [] p = true -> exists K, set_ok K /\ (forall k, In k K <-> asks d cov t p k) /\ disk' p = fold_left (act e p) K (disk p)).
Proof.
  intros S act d cov t disk D F. destruct (build_ok d t F) as [r Er]. unfold restore_db. rewrite Er. cbn [bind]. destruct (rt_locations cov [] r) as [r' ks] eqn:El. eexists. split; [reflexivity|].
  assert (Mdb : forall k p, met (db_covered cov r' k) [] p = true -> met cov [] p = true).
  { intros k p. generalize (@nil (list N)) as a. clear. induction p as [|n p IH]; intros a H; [reflexivity|]. cbn in *. apply andb_true_iff in H as [H1 H2]. unfold db_covered in H1. apply andb_true_iff in H1 as [H1 _]. rewrite H1. cbn. apply (IH _ H2). }
  split.
  - intros p Hp. clear El. revert disk. induction ks as [|k ks IH]; intro disk; [reflexivity|]. cbn [fold_left]. rewrite IH. unfold run. destruct Hp as [Hp|Hp].
    + destruct (met (db_covered cov r' k) [] p) eqn:M; [apply Mdb in M; congruence|reflexivity].
    + rewrite Hp. destruct (met _ [] p); reflexivity.
  - intros p e He Hm. pose proof (proj1 (entry_find p t e D) He) as Hf.
    set (ro := fun q => match rt_find q r with Some x => snd (rt_locations cov q x) | None => [] end).
    assert (Hro : forall q x, tree_find q t = Some x -> (forall k, In k (ro q) <-> asks d cov t q k) /\ set_ok (ro q)).
    { intros q x Hq. unfold ro. pose proof (build_find d q t r Er) as B. rewrite Hq in B. destruct (rt_find q r) as [y|]; [|contradiction]. split; [|apply loc_ok; rewrite (proj1 (build_inv d x y B)); apply own_ok].
      intro k. rewrite loc_in. unfold asks. apply (entry_find q t x D) in Hq. split.
      - intros (s & z & B1 & B2 & B3). destruct (below_entry d s x y z B B1) as (v & V1 & V2). exists s, v. split; [eapply entry_app; eassumption|]. split; [|exact B3]. rewrite <- (proj1 (build_inv d v z V2)). exact B2.
      - intros (s & v & V1 & V2 & V3). apply entry_split in V1 as (x' & X1 & X2). apply (entry_find q t x' D) in X1. apply (entry_find q t x D) in Hq. rewrite Hq in X1. injection X1 as <-. destruct (entry_below d s x y v B X2) as (z & Z1 & Z2). exists s, z. split; [exact Z1|]. split; [|exact V3]. rewrite (proj1 (build_inv d v z Z2)). exact V2. }
    assert (Hrf : forall q x, tree_find q t = Some x -> met cov [] q = true -> forall k, match restore_from r' q k with Ok b => b | Err _ => false end = mem k (ro q)).
    { intros q x Hq Mq k. unfold restore_from, ro. replace r' with (fst (rt_locations cov [] r)) by (rewrite El; reflexivity). rewrite loc_find by exact Mq. pose proof (build_find d q t r Er) as B. rewrite Hq in B. destruct (rt_find q r) as [y|]; [|contradiction]. cbn [app]. rewrite <- loc_fst. destruct (fst (rt_locations cov q y)) as [loc kids]. reflexivity. }
    assert (Mk : forall k, met (db_covered cov r' k) [] p = true <-> In k (ro p) \/ p = []).
    { intro k. assert (G : forall q s, p = q ++ s -> met cov [] q = true -> (met (db_covered cov r' k) q s = true <-> s = [] \/ In k (ro p))).
      { intros q s. revert q. induction s as [|n s IH]; intros q Ep Mq; [cbn; tauto|]. cbn [met]. rewrite andb_true_iff. assert (Ep' : p = (q ++ [n]) ++ s) by (rewrite <- app_assoc; exact Ep). assert (Mq' : met cov [] (q ++ [n]) = true) by (pose proof Hm as Z; rewrite Ep', met_app in Z; apply andb_true_iff in Z as [Z _]; exact Z).
        rewrite (IH _ Ep' Mq'). pose proof He as He2. rewrite Ep' in He2. apply entry_split in He2 as (x & X1 & X2). pose proof (proj1 (entry_find _ _ _ D) X1) as Fx. unfold db_covered. rewrite (Hrf _ _ Fx Mq' k).
        assert (Cq : cov (q ++ [n]) = true) by (rewrite met_app in Mq'; cbn in Mq'; rewrite andb_true_r in Mq'; apply andb_true_iff in Mq' as [_ Z]; exact Z). rewrite Cq. cbn [andb]. rewrite mem_in.
        assert (Sub : In k (ro p) -> In k (ro (q ++ [n]))). { intro Hk. apply (proj1 (Hro _ _ Hf)) in Hk as (s' & v & V1 & V2 & V3). apply (proj1 (Hro _ _ Fx)). exists (s ++ s'), v. rewrite app_assoc, <- Ep'. split; [exact V1|]. split; [exact V2|]. rewrite met_app. rewrite <- Ep', V3, andb_true_r. pose proof Hm as Z. rewrite Ep', met_app in Z. apply andb_true_iff in Z as [_ Z]. exact Z. }
        split; [intros [H1 [H2|H2]]; [subst s; right; rewrite app_nil_r in Ep'; rewrite Ep'; exact H1|auto]|intros [H|H]; [discriminate H|auto]]. }
      rewrite (G [] p eq_refl eq_refl). tauto. }
    assert (Sk : set_ok ks). { replace ks with (snd (rt_locations cov [] r)) by (rewrite El; reflexivity). apply loc_ok. rewrite (proj1 (build_inv d t r Er)). apply own_ok. }
    assert (Kin : forall k, In k ks <-> asks d cov t [] k). { intro k. replace ks with (ro []) by (unfold ro; cbn; rewrite El; reflexivity). apply (Hro [] t eq_refl). }
    exists (ro p). split; [apply (Hro _ _ Hf)|]. split; [apply (Hro _ _ Hf)|].
    assert (Q : forall l dk, fold_left (fun disk k => run act t (db_covered cov r' k) k disk) l dk p = fold_left (act e p) (filter (fun k => met (db_covered cov r' k) [] p) l) (dk p)).
    { intro l. induction l as [|k l IH]; intro dk; [reflexivity|]. cbn [fold_left filter]. rewrite IH. unfold run. rewrite Hf. destruct (met (db_covered cov r' k) [] p); reflexivity. }
    rewrite Q. f_equal. apply set_ext; [apply filter_set; exact Sk|apply (Hro _ _ Hf)|]. intro k. rewrite filter_In, Mk. split.
    + intros [H1 [H2|H2]]; [exact H2|]. subst p. apply (proj1 (Hro _ _ Hf)). apply Kin. exact H1.
    + intro H. split; [|auto]. apply Kin. apply (proj1 (Hro _ _ Hf)) in H as (s' & v & V1 & V2 & V3). exists (p ++ s'), v. split; [exact V1|]. split; [exact V2|]. rewrite met_app, Hm. exact V3.
Qed.
