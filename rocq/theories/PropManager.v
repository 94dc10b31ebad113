(** * C48: restoring from a database of archives gives the files as they were, by dar -x over the database and, with limits shown, by dar_manager -r. *)
From Coq Require Import List Bool PeanoNat Sorted.
From Verif Require Import Base NumModel InfinintModel DatetimeModel CrcModel PropDatetime DbModel DbMap PropDbDelta PropDbPerm PropDbLookup ManagerModel ManagerSpec ManagerProof.
Import ListNotations.
Open Scope N_scope.

(** ** dar -x over a database *)
Lemma nodes_entry : forall P p t e, one_name_each t -> nodes P t -> entry p t e -> P (t_mods e) (t_chg e).
Proof. intros P p t e D H He. apply nodes_here. apply (find_nodes P p t e H). apply entry_find; assumption. Qed.
Lemma own_in : forall d e k, records_fine d (t_mods e) (t_chg e) -> In k (own d e) ->
  match history false (upto date d (t_mods e)) with
  | Have f ps i => In k (f :: ps ++ match i with Some j => [j] | None => [] end) \/ (exists s, In (k, s) (upto s_date d (t_chg e)))
  | _ => False
  end.
Proof.
  intros d e k (S & Fl & Ch & Rv & Sc & Es & Cc) H. unfold own in H. destruct (C21_get_data (t_mods e) d false Ch Rv) as (set & Eg & Hs). rewrite Eg, (C21_get_EA (t_chg e) d false Cc Es) in H.
  destruct (history false (upto date d (t_mods e))) as [|g| |f ps i] eqn:Eh; cbn [answer] in H.
  1,2,3: destruct H.
  rewrite Hs in H by discriminate. cbn [needed] in H.
  destruct (ea_answer (upto s_date d (t_chg e))) as [ke le] eqn:Ea.
  assert (G : le = found_present \/ le = found_removed -> exists s, In (ke, s) (upto s_date d (t_chg e))).
  { unfold ea_answer in Ea. destruct (last_such (fun _ => true) (upto s_date d (t_chg e))) as [[k1 l1]|]; [|injection Ea as <- <-; intros [E|E]; discriminate E]. destruct (last_such is_real (upto s_date d (t_chg e))) as [[k2 s2]|] eqn:El; [|injection Ea as <- <-; intros [E|E]; discriminate E].
    injection Ea as <- _. intros _. exists s2. unfold last_such in El. apply find_some in El as [El _]. apply in_rev. exact El. }
  destruct le; [| |apply (proj1 (to_set_in _ _)) in H; left; exact H..].
  - apply sinsert_in in H as [->|H]; [right; apply G; auto|apply (proj1 (to_set_in _ _)) in H; left; exact H].
  - apply sinsert_in in H as [->|H]; [right; apply G; auto|apply (proj1 (to_set_in _ _)) in H; left; exact H].
Qed.
Lemma own_needed : forall d e f ps i k, records_fine d (t_mods e) (t_chg e) -> history false (upto date d (t_mods e)) = Have f ps i -> In k (f :: ps ++ match i with Some j => [j] | None => [] end) -> In k (own d e).
Proof.
  intros d e f ps i k (S & Fl & Ch & Rv & Sc & Es & Cc) Eh H. unfold own. destruct (C21_get_data (t_mods e) d false Ch Rv) as (set & -> & Hs). rewrite (C21_get_EA (t_chg e) d false Cc Es). rewrite Eh in *. cbn [answer]. rewrite Hs by discriminate. cbn [needed].
  destruct (ea_answer (upto s_date d (t_chg e))) as [ke le]. destruct le; [apply sinsert_in; right; apply (proj2 (to_set_in _ _)); exact H..|apply (proj2 (to_set_in _ _)); exact H|apply (proj2 (to_set_in _ _)); exact H].
Qed.
Lemma upto_in : forall A (f : A -> datetime) d m k s, In (k, s) (upto f d m) <-> In (k, s) m /\ (is_null d = true \/ instant (f s) <= instant d).
Proof. intros. unfold upto. rewrite filter_In. cbn [snd]. rewrite orb_true_iff, N.leb_le. tauto. Qed.
Lemma leaf_entry : forall p t e q x, one_name_each t -> entry p t e -> t_kids e = None -> entry (p ++ q) t x -> q = [] /\ x = e.
Proof.
  intros p t e q x D He Hk Hx. apply entry_split in Hx as (e' & E1 & E2). apply (entry_find _ _ _ D) in He, E1. rewrite He in E1. injection E1 as <-. destruct q as [|n q]; [inversion E2; auto|]. destruct e as [nm m c k]. cbn in Hk. subst k. inversion E2.
Qed.
Lemma key_unique : forall A (m : amap A) k s s', sorted m -> In (k, s) m -> In (k, s') m -> s = s'.
Proof. intros A m k s s' S H1 H2. apply mfind_sorted in H1; [|exact S]. apply mfind_sorted in H2; [|exact S]. congruence. Qed.

(** data: of any selected entry when no date is given, of any selected file at any date *)
Theorem C48_database : forall C (w : path -> world C) d cov t (disk : path -> option C), one_name_each t -> nodes (records_fine d) t -> (forall p e, entry p t e -> honest (w p) (t_mods e)) ->
  exists disk', restore_db (data_act w) t cov d disk = Ok disk' /\
    (forall p, met cov [] p = false \/ (forall e, ~ entry p t e) -> disk' p = disk p) /\
    forall p e, entry p t e -> met cov [] p = true -> is_null d = true \/ (t_kids e = None /\ ctime_later e) ->
      match history false (upto date d (t_mods e)) with
      | Have _ _ _ => disk' p = last_truth (w p) (upto date d (t_mods e)) /\ disk' p <> None
      | _ => t_kids e = None -> disk' p = disk p
      end.
Proof.
  intros C w d cov t disk D F Hh. destruct (database_run _ (data_act w) d cov t disk D F) as (disk' & E & U & R). exists disk'. split; [exact E|]. split.
  { intros p [H|H]; apply U; [left; exact H|right]. destruct (tree_find p t) as [e|] eqn:Ef; [|reflexivity]. exfalso. apply (H e). apply entry_find; assumption. }
  intros p e He Hm Hd. destruct (R p e He Hm) as (K & SK & HK & ->). pose proof (nodes_entry _ p t e D F He) as Fe. pose proof Fe as (Sm & Fl & Ch & Rv & Sc & Es & Cc).
  assert (Last : forall k s, In k K -> In (k, s) (t_mods e) -> In (k, s) (upto date d (t_mods e))).
  { intros k s Hk Hs. apply upto_in. split; [exact Hs|]. destruct Hd as [Hd|[Hl Hc]]; [left; exact Hd|]. apply HK in Hk as (q & x & X1 & X2 & X3). destruct (leaf_entry p t e q x D He Hl X1) as [-> ->].
    pose proof (own_in d e k Fe X2) as O. pose proof (needed_keys (upto date d (t_mods e)) k) as NK. destruct (history false (upto date d (t_mods e))) as [|g| |f ps i]; try contradiction. cbn [needed] in NK. destruct O as [O|(s' & O)].
    - specialize (NK O). apply in_map_iff in NK as ([k' v] & Ek & Hv). cbn in Ek. subst k'. apply upto_in in Hv as [Hv1 Hv2]. rewrite (key_unique _ _ _ _ _ Sm Hs Hv1). exact Hv2.
    - apply upto_in in O as [O1 O2]. destruct O2 as [O2|O2]; [left; exact O2|right]. specialize (Hc k s s' Hs O1). lia. }
  pose proof (more_archives (w p) (t_mods e) d K (disk p) Sm Fl Ch (Hh p e He) SK Last) as M. pose proof (own_needed d e) as N0.
  assert (Z : t_kids e = None -> (forall f ps i, history false (upto date d (t_mods e)) <> Have f ps i) -> K = []).
  { intros Hl Hn. destruct K as [|k K']; [reflexivity|]. exfalso. destruct (proj1 (HK k) (or_introl eq_refl)) as (q & x & X1 & X2 & X3). destruct (leaf_entry p t e q x D He Hl X1) as [-> ->]. pose proof (own_in d e k Fe X2) as O. destruct (history false (upto date d (t_mods e))); try contradiction. apply (Hn full patches meta). reflexivity. }
  destruct (history false (upto date d (t_mods e))) as [|g| |f ps i] eqn:Eh.
  1,2,3: intro Hl; rewrite (Z Hl) by discriminate; reflexivity.
  change (data_act w e p) with (extract (w p) (t_mods e)). destruct M as [M1 M2].
  { intros k Hk. apply HK. exists [], e. rewrite app_nil_r. split; [exact He|]. split; [|reflexivity]. apply (N0 f ps i); auto. destruct Hk as [->|Hk]; [left; reflexivity|right; apply in_or_app; left; exact Hk]. }
  rewrite M1. auto.
Qed.
Print Assumptions C48_database.

(** some record tells what the EA are, and the records after it, if any, that they are unchanged (a removal is not followed by "unchanged") *)
Definition ea_told (c : amap status) : Prop :=
  exists before k s after, c = before ++ (k, s) :: after /\ Forall (fun x => s_present (snd x) = et_present) after /\ (s_present s = et_saved \/ after = [] /\ (s_present s = et_removed \/ s_present s = et_absent)).
(** extended attributes, no date given: those of the last record, of the entries whose data are restored *)
Theorem C48_database_ea : forall E (w : path -> ea_world E) d cov t (disk : path -> option E), one_name_each t -> nodes (records_fine d) t -> is_null d = true -> (forall p e, entry p t e -> ea_honest (w p) (t_chg e)) ->
  exists disk', restore_db (ea_act w) t cov d disk = Ok disk' /\
    forall p e, entry p t e -> met cov [] p = true -> (exists f ps i, history false (t_mods e) = Have f ps i) ->
      ea_told (t_chg e) -> disk' p = last_ea (w p) (t_chg e).
Proof.
  intros E w d cov t disk D F Hd Hh. destruct (database_run _ (ea_act w) d cov t disk D F) as (disk' & Ed & U & R). exists disk'. split; [exact Ed|]. intros p e He Hm (f & ps & i & Eh) (before & k & s & after & Ec & Ha & Hst). destruct (R p e He Hm) as (K & SK & HK & ->).
  pose proof (nodes_entry _ p t e D F He) as Fe. pose proof Fe as (Sm & Fl & Ch & Rv & Sc & Es & Cc).
  assert (Up : forall A (g : A -> datetime) m, upto g d m = m). { intros A g m. unfold upto. rewrite Hd. cbn. clear. induction m as [|x m IH]; cbn; [reflexivity|]. f_equal. exact IH. }
  assert (Lr : last_such is_real (t_chg e) = Some (k, s)).
  { rewrite Ec. unfold last_such. rewrite rev_app_distr. cbn [rev]. rewrite <- app_assoc. assert (Re : is_real (s_present s) = true) by (destruct Hst as [X|[_ [X|X]]]; rewrite X; reflexivity).
    assert (Z : forall l r, Forall (fun x : N * status => s_present (snd x) = et_present) l -> find (fun p => is_real (s_present (snd p))) (l ++ (k, s) :: r) = Some (k, s)) by (clear -Re; intros l r Hl; induction Hl as [|x l Hx Hl IH]; cbn; [rewrite Re; reflexivity|rewrite Hx; exact IH]).
    apply Z. apply Forall_rev. exact Ha. }
  apply (ea_more (w p) (t_chg e) K (disk p) Sc SK Es (Hh p e He)); [|rewrite Lr; discriminate]. rewrite Lr. intros kr sr El. injection El as <- <-. apply HK. exists [], e. rewrite app_nil_r. split; [exact He|]. split; [|reflexivity].
  unfold own. destruct (C21_get_data (t_mods e) d false Ch Rv) as (set & -> & Hs). rewrite (C21_get_EA (t_chg e) d false Cc Es). rewrite !Up in *. rewrite Eh. cbn [answer]. 
  unfold ea_answer. rewrite Lr. assert (Ll : exists kl sl, last_such (fun _ => true) (t_chg e) = Some (kl, sl) /\ (exists_state (s_present sl) = true -> exists_state (s_present s) = true)).
  { unfold last_such. rewrite Ec. destruct after as [|x after _] using rev_ind; [rewrite rev_app_distr; cbn; exists k, s; auto|]. rewrite app_comm_cons, app_assoc, rev_app_distr. cbn. destruct x as [kl sl]. exists kl, sl. split; [reflexivity|]. intros _. destruct Hst as [->|[X _]]; [reflexivity|]. destruct after; discriminate X. }
  destruct Ll as (kl & sl & -> & Ll). destruct (exists_state (s_present sl)); [rewrite Ll by reflexivity|]; apply sinsert_in; left; reflexivity.
Qed.
Print Assumptions C48_database_ea.

(** ** dar_manager -r *)
Fixpoint size (t : tree) : nat := let 'Tree _ _ _ k := t in S (match k with None => O | Some l => list_sum (map size l) end).
Definition weight (t : tree) (l : list path) : nat := list_sum (map (fun p => match tree_find p t with Some e => size e | None => 1%nat end) l).
Definition planned (d : datetime) (ewr : bool) (e : tree) (k : N) : Prop := exists set, get_data (t_mods e) d ewr = Ok (set, found_present) /\ In k set.
Lemma entry_plan_ok : forall e d ewr, ea_states (t_chg e) -> exists ks, entry_plan e d ewr = Ok ks /\ forall k, In k ks <-> planned d ewr e k.
Proof.
  intros e d ewr He. unfold entry_plan, planned. destruct (C21_get_data_total (t_mods e) d ewr) as [[set ld] ->]. destruct (C21_get_EA_total (t_chg e) d ewr He) as [[ke le] ->]. cbn [bind].
  assert (E0 : match le with found_present | found_removed | not_found | not_restorable => 0 end = 0) by (destruct le; reflexivity). rewrite E0. cbn [N.eqb negb andb app].
  assert (G : forall k, In k (match ld with found_present => to_set set | _ => [] end) <-> exists s, Ok (set, ld) = Ok (s, found_present) /\ In k s).
  { intro k. destruct ld; cbn; try (split; [intros []|intros (s & X & _); discriminate X]). rewrite to_set_in. split; [intro H; exists set; auto|intros (s & X & Y); injection X as <-; exact Y]. }
  destruct (is_nil (match ld with found_present => to_set set | _ => [] end)) eqn:En.
  - eexists. split; [reflexivity|]. intro k. rewrite <- G. destruct (match ld with found_present => to_set set | _ => [] end); [tauto|discriminate En].
  - eexists. split; [reflexivity|exact G].
Qed.
Lemma weight_app : forall t a b, weight t (a ++ b) = (weight t a + weight t b)%nat.
Proof. intros. unfold weight. rewrite map_app, list_sum_app. reflexivity. Qed.
Lemma size_pos : forall t, (0 < size t)%nat.
Proof. intros [n m c k]. cbn. apply Nat.lt_0_succ. Qed.
Lemma weight_children : forall t p e, one_name_each t -> tree_find p t = Some e -> S (weight t (child_paths p e)) = size e.
Proof.
  intros t p e D H. destruct e as [n m c k]. unfold child_paths. cbn [t_kids size]. f_equal. destruct k as [l|]; [|reflexivity]. pose proof (find_one _ _ _ D H) as De. apply one_kids in De as [De _].
  unfold weight. rewrite map_map. f_equal. apply map_ext_in. intros x Hx. rewrite find_app, H. cbn [tree_find t_kids]. rewrite (read_child_of (t_name x) l x De Hx eq_refl). destruct x; reflexivity.
Qed.
Lemma queue_spec : forall d ewr t, one_name_each t -> nodes (fun _ c => ea_states c) t -> forall n anneau, (weight t anneau <= n)%nat ->
  exists l, queue n t d ewr anneau = Ok l /\ forall k q, In (k, q) l <-> exists name s e, In name anneau /\ q = name ++ s /\ entry q t e /\ planned d ewr e k.
Proof.
  intros d ewr t D Hs n. induction n as [|n IH]; intros anneau W.
  - destruct anneau as [|p rest]; [exists []; split; [reflexivity|]; intros k q; split; [intros []|intros (nm & s & e & [] & _)]|]. exfalso. unfold weight in W. cbn in W. destruct (tree_find p t) as [e|]; [pose proof (size_pos e)|]; lia.
  - destruct anneau as [|p rest]; [exists []; split; [reflexivity|]; intros k q; split; [intros []|intros (nm & s & e & [] & _)]|]. cbn [queue]. change (weight t (p :: rest)) with ((match tree_find p t with Some e => size e | None => 1%nat end) + weight t rest)%nat in W.
    destruct (tree_find p t) as [e|] eqn:Ef.
    + destruct (entry_plan_ok e d ewr) as (ks & -> & Hks); [apply (nodes_here (fun _ c => ea_states c)), (find_nodes _ p t e Hs Ef)|]. cbn [bind]. pose proof (weight_children t p e D Ef) as Wc.
      destruct (IH (rest ++ child_paths p e)) as (l & -> & Hl); [rewrite weight_app; lia|]. cbn [bind]. eexists. split; [reflexivity|]. intros k q. rewrite in_app_iff, in_map_iff, Hl. pose proof (proj2 (entry_find p t e D) Ef) as Ee. split.
      * intros [(k' & E & Hk)|(nm & s & x & H1 & H2 & H3 & H4)].
        -- injection E as -> <-. exists p, [], e. rewrite app_nil_r. split; [left; reflexivity|]. split; [reflexivity|]. split; [exact Ee|apply Hks; exact Hk].
        -- apply in_app_or in H1 as [H1|H1]; [exists nm, s, x; split; [right; exact H1|auto]|]. unfold child_paths in H1. destruct (t_kids e) as [l'|] eqn:Ek; [|destruct H1]. apply in_map_iff in H1 as (c & <- & Hc). exists p, (t_name c :: s), x. rewrite H2 in *. rewrite <- app_assoc in *. split; [left; reflexivity|]. auto.
      * intros (nm & s & x & [<-|H1] & H2 & H3 & H4); [|right; exists nm, s, x; split; [apply in_or_app; left; exact H1|auto]]. destruct s as [|m s].
        -- rewrite app_nil_r in H2. subst q. left. exists k. split; [reflexivity|]. apply Hks. apply (entry_find _ _ _ D) in H3. rewrite Ef in H3. injection H3 as <-. exact H4.
        -- right. subst q. pose proof H3 as H5. apply entry_split in H5 as (e' & E1 & E2). apply (entry_find _ _ _ D) in E1. rewrite Ef in E1. injection E1 as <-. inversion E2 as [|n' q' nm' m' c' l' k' x' Hin En HB E3 E4 E5]; subst. exists (p ++ [t_name k']), s, x. split; [apply in_or_app; right; unfold child_paths; cbn [t_kids]; apply in_map_iff; exists k'; auto|]. rewrite <- app_assoc. auto.
    + destruct (IH rest) as (l & -> & Hl); [lia|]. exists l. split; [reflexivity|]. intros k q. rewrite Hl. split; intros (nm & s & x & H1 & H2); [exists nm, s, x; split; [right; exact H1|exact H2]|]. destruct H1 as [<-|H1]; [|exists nm, s, x; auto]. exfalso. destruct H2 as (-> & H3 & _). apply entry_split in H3 as (e' & E1 & _). apply (entry_find _ _ _ D) in E1. congruence.
Qed.
(** what dar is asked: for each archive, the entries at or below the names given whose data the database locates in it *)
Theorem C48_manager_asks : forall d ewr t names, one_name_each t -> nodes (fun _ c => ea_states c) t -> exists fuel0, forall fuel, (fuel0 <= fuel)%nat ->
  exists l, queue fuel t d ewr names = Ok l /\ forall k q, In (k, q) l <-> exists name s e, In name names /\ q = name ++ s /\ entry q t e /\ planned d ewr e k.
Proof. intros d ewr t names D Hs. exists (weight t names). intros fuel Hf. apply queue_spec; assumption. Qed.
Print Assumptions C48_manager_asks.

Lemma is_prefix_spec : forall a b, is_prefix a b = true <-> exists r, b = a ++ r.
Proof.
  induction a as [|x a IH]; intros [|y b]; cbn; try (split; [intros _; eexists; reflexivity|reflexivity]); try (split; [discriminate|intros [r Hr]; discriminate Hr]).
  rewrite andb_true_iff, name_eqb_spec, IH. split; [intros [-> [r ->]]; exists r; reflexivity|intros [r E]; injection E as -> ->; split; [reflexivity|exists r; reflexivity]].
Qed.
Lemma goes_related : forall gs p, goes_into gs p = true <-> exists g, In g gs /\ related p g.
Proof.
  intros gs p. unfold goes_into. rewrite existsb_exists. split; intros (g & H1 & H2); exists g; (split; [exact H1|]).
  - apply orb_true_iff in H2 as [H2|H2]; apply is_prefix_spec in H2 as [r ->]; exists r; auto.
  - apply orb_true_iff. destruct H2 as [r [H2|H2]]; [left|right]; apply is_prefix_spec; exists r; exact H2.
Qed.
Lemma app_both : forall (a b c d : path), a ++ b = c ++ d -> (exists x, a = c ++ x) \/ (exists x, c = a ++ x).
Proof. induction a as [|x a IH]; intros b [|y c] d H; [left; exists []; reflexivity|right; exists (y :: c); reflexivity|left; exists (x :: a); reflexivity|]. cbn in H. injection H as -> H. destruct (IH _ _ _ H) as [[z ->]|[z ->]]; [left|right]; exists z; reflexivity. Qed.
Lemma met_goes : forall gs p a, goes_into gs (a ++ p) = true -> met (goes_into gs) a p = true.
Proof.
  intros gs p. induction p as [|n p IH]; intros a H; [reflexivity|]. cbn [met]. assert (E : a ++ n :: p = (a ++ [n]) ++ p) by (rewrite <- app_assoc; reflexivity). rewrite (IH (a ++ [n])) by (rewrite <- E; exact H). rewrite andb_true_r.
  apply goes_related in H as (g & G1 & r & [G2|G2]); apply goes_related; exists g; (split; [exact G1|]); rewrite E in G2.
  - destruct (app_both _ _ _ _ G2) as [[z Z]|[z Z]]; exists z; auto.
  - exists (p ++ r). right. rewrite G2, <- app_assoc. reflexivity.
Qed.
Lemma met_goes_conv : forall gs p a, p <> [] -> met (goes_into gs) a p = true -> goes_into gs (a ++ p) = true.
Proof.
  intros gs p. induction p as [|n p IH]; intros a Hn H; [congruence|]. cbn [met] in H. apply andb_true_iff in H as [H1 H2]. destruct p as [|m p]; [exact H1|]. specialize (IH (a ++ [n]) ltac:(discriminate) H2). rewrite <- app_assoc in IH. exact IH.
Qed.
Lemma manager_run : forall S (act : tree -> path -> S -> N -> S) d ewr t names disk, one_name_each t -> nodes (fun _ c => ea_states c) t -> exists fuel0, forall fuel, (fuel0 <= fuel)%nat ->
  exists disk', manager_restore fuel act t names d ewr disk = Ok disk' /\
    (forall p, tree_find p t = None -> disk' p = disk p) /\
    (forall p e, entry p t e -> exists K, set_ok K /\ disk' p = fold_left (act e p) K (disk p) /\
       forall k, In k K <-> exists name s x, In name names /\ entry (name ++ s) t x /\ planned d ewr x k /\ related p (name ++ s)).
Proof.
  intros S act d ewr t names disk D Hs. exists (weight t names). intros fuel Hf. destruct (queue_spec d ewr t D Hs fuel names Hf) as (l & El & Hl). unfold manager_restore. rewrite El. cbn [bind]. eexists. split; [reflexivity|].
  assert (Q : forall ks dk p, fold_left (fun disk k => run act t (goes_into (options_of k l)) k disk) ks dk p = match tree_find p t with Some e => fold_left (act e p) (filter (fun k => met (goes_into (options_of k l)) [] p) ks) (dk p) | None => dk p end).
  { intro ks. induction ks as [|k ks IH]; intros dk p; [cbn; destruct (tree_find p t); reflexivity|]. cbn [fold_left filter]. rewrite IH. unfold run. destruct (tree_find p t) as [e|]; destruct (met _ [] p); reflexivity. }
  split; [intros p Hp; rewrite Q, Hp; reflexivity|]. intros p e He. exists (filter (fun k => met (goes_into (options_of k l)) [] p) (to_set (map fst l))). split; [apply filter_set, to_set_ok|]. apply (entry_find _ _ _ D) in He. rewrite Q, He. split; [reflexivity|].
  intro k. rewrite filter_In, to_set_in, in_map_iff. 
  assert (O : forall q, In q (options_of k l) <-> In (k, q) l). { intro q. unfold options_of. rewrite in_map_iff. split; [intros ([k' q'] & E1 & E2); apply filter_In in E2 as [E2 E3]; cbn in *; apply N.eqb_eq in E3; subst; exact E2|intro H; exists (k, q); split; [reflexivity|]; apply filter_In; split; [exact H|apply N.eqb_refl]]. }
  split.
  - intros [([k' q] & E & Hin) M]. cbn in E. subst k'. assert (G : exists q', In (k, q') l /\ related p q').
    { destruct p as [|n p]; [exists q; split; [exact Hin|exists q; right; reflexivity]|]. apply (met_goes_conv _ (n :: p) []) in M; [|discriminate]. cbn [app] in M. apply goes_related in M as (g & G1 & G2). exists g. split; [apply O; exact G1|exact G2]. }
    destruct G as (q' & G1 & G2). apply Hl in G1 as (name & s & x & H1 & H2 & H3 & H4). subst q'. exists name, s, x. auto.
  - intros (name & s & x & H1 & H2 & H3 & H4). assert (Hin : In (k, name ++ s) l) by (apply Hl; exists name, s, x; auto). split; [exists (k, name ++ s); auto|]. apply met_goes. cbn [app]. apply goes_related. exists (name ++ s). split; [apply O; exact Hin|exact H4].
Qed.
Lemma ea_nodes : forall d t, nodes (records_fine d) t -> nodes (fun _ c => ea_states c) t.
Proof.
  intros d t. induction t as [n m c|n m c l IH] using tree_ind2; intro H.
  - apply nodes_leaf. apply nodes_leaf in H as (_ & _ & _ & _ & _ & H & _). exact H.
  - apply nodes_kids. apply nodes_kids in H as [(_ & _ & _ & _ & _ & H1 & _) H2]. split; [exact H1|]. rewrite Forall_forall in *. auto.
Qed.

(** no date given: every entry at or below the names given that exists in the last archive gets its last data. Any date: a file that is not at, above or below another name gets its data at that date, or is left alone when it did not exist. What is unrelated to the names is left alone *)
Theorem C48_manager : forall C (w : path -> world C) d t names (disk : path -> option C), one_name_each t -> nodes (records_fine d) t -> (forall p e, entry p t e -> honest (w p) (t_mods e)) -> exists fuel0, forall fuel, (fuel0 <= fuel)%nat ->
  exists disk', manager_restore fuel (data_act w) t names d false disk = Ok disk' /\
    (forall p, (forall name s, In name names -> ~ related p (name ++ s)) -> disk' p = disk p) /\
    (forall p e name s, entry p t e -> In name names -> p = name ++ s -> is_null d = true ->
       match history false (t_mods e) with Have _ _ _ => disk' p = last_truth (w p) (t_mods e) /\ disk' p <> None | _ => True end) /\
    (forall p e, entry p t e -> t_kids e = None -> In p names -> (forall name, In name names -> related p name -> name = p) ->
       match history false (upto date d (t_mods e)) with Have _ _ _ => disk' p = last_truth (w p) (upto date d (t_mods e)) /\ disk' p <> None | _ => disk' p = disk p end).
Proof.
  intros C w d t names disk D F Hh. destruct (manager_run _ (data_act w) d false t names disk D (ea_nodes d t F)) as (fuel0 & R). exists fuel0. intros fuel Hf. destruct (R fuel Hf) as (disk' & E & U & Rp). exists disk'. split; [exact E|].
  assert (Pl : forall p e, entry p t e -> forall k, planned d false e k <-> match history false (upto date d (t_mods e)) with Have f ps i => In k (f :: ps ++ match i with Some j => [j] | None => [] end) | _ => False end).
  { intros p e He k. pose proof (nodes_entry _ p t e D F He) as (Sm & Fl & Ch & Rv & Sc & Es & Cc). unfold planned. destruct (C21_get_data (t_mods e) d false Ch Rv) as (set & -> & Hset). destruct (history false (upto date d (t_mods e))) as [|g| |f ps i]; cbn [answer]; try (split; [intros (s & X & _); discriminate X|intros []]). rewrite Hset by discriminate. cbn [needed]. split; [intros (s & X & Y); injection X as <-; exact Y|intro H; eexists; split; [reflexivity|exact H]]. }
  split; [|split].
  - intros p Hp. destruct (tree_find p t) as [e|] eqn:Ef; [|apply U; exact Ef]. apply (entry_find _ _ _ D) in Ef. destruct (Rp p e Ef) as (K & SK & -> & HK). destruct K as [|k K]; [reflexivity|]. exfalso. destruct (proj1 (HK k) (or_introl eq_refl)) as (name & s & x & H1 & H2 & H3 & H4). apply (Hp name s H1 H4).
  - intros p e name s He Hn Ep Hd. destruct (Rp p e He) as (K & SK & -> & HK). pose proof (nodes_entry _ p t e D F He) as (Sm & Fl & Ch & Rv & Sc & Es & Cc).
    assert (Up : upto date d (t_mods e) = t_mods e). { unfold upto. rewrite Hd. cbn. clear. induction (t_mods e) as [|x m IH]; cbn; [reflexivity|]. f_equal. exact IH. }
    pose proof (more_archives (w p) (t_mods e) d K (disk p) Sm Fl Ch (Hh p e He) SK) as M. specialize (Pl p e He). rewrite Up in *. destruct (history false (t_mods e)) as [|g| |f ps i]; auto.
    change (data_act w e p) with (extract (w p) (t_mods e)). destruct M as [M1 M2]; [auto| |rewrite M1; auto]. intros k Hk. apply HK. exists name, s, e. rewrite <- Ep. split; [exact Hn|]. split; [exact He|]. split; [|exists []; left; rewrite app_nil_r; reflexivity]. apply Pl. destruct Hk as [->|Hk]; [left; reflexivity|right; apply in_or_app; left; exact Hk].
  - intros p e He Hl Hn Honly. destruct (Rp p e He) as (K & SK & -> & HK). pose proof (nodes_entry _ p t e D F He) as (Sm & Fl & Ch & Rv & Sc & Es & Cc).
    assert (HK' : forall k, In k K <-> planned d false e k).
    { intro k. rewrite HK. split.
      - intros (name & s & x & H1 & H2 & H3 & H4). assert (Hnm : name = p). { apply Honly; [exact H1|]. destruct H4 as [r [Hr|Hr]]; [exists (s ++ r); left; rewrite Hr, <- app_assoc; reflexivity|]. destruct (app_both _ _ _ _ Hr) as [[z Hz]|[z Hz]]; exists z; auto. }
        subst name. destruct (leaf_entry p t e s x D He Hl H2) as [-> ->]. exact H3.
      - intro H. exists p, [], e. rewrite app_nil_r. split; [exact Hn|]. split; [exact He|]. split; [exact H|]. exists []. left. rewrite app_nil_r. reflexivity. }
    assert (Last : forall k s, In k K -> In (k, s) (t_mods e) -> In (k, s) (upto date d (t_mods e))).
    { intros k s Hk Hs. apply HK', (Pl p e He) in Hk. pose proof (needed_keys (upto date d (t_mods e)) k) as NK. destruct (history false (upto date d (t_mods e))) as [|g| |f ps i]; try contradiction. specialize (NK Hk). apply in_map_iff in NK as ([k' v] & Ek & Hv). cbn in Ek. subst k'. pose proof Hv as Hv2. apply upto_in in Hv as [Hv1 _]. rewrite (key_unique _ _ _ _ _ Sm Hs Hv1). exact Hv2. }
    pose proof (more_archives (w p) (t_mods e) d K (disk p) Sm Fl Ch (Hh p e He) SK Last) as M. specialize (Pl p e He).
    assert (Z : (forall k, ~ planned d false e k) -> K = []) by (intro H; destruct K as [|k K']; [reflexivity|]; exfalso; apply (H k), HK'; left; reflexivity).
    destruct (history false (upto date d (t_mods e))) as [|g| |f ps i].
    1,2,3: rewrite Z by (intros k Hk; apply Pl in Hk; exact Hk); reflexivity.
    change (data_act w e p) with (extract (w p) (t_mods e)). destruct M as [M1 M2]; [|rewrite M1; auto]. intros k Hk. apply HK', Pl. destruct Hk as [->|Hk]; [left; reflexivity|right; apply in_or_app; left; exact Hk].
Qed.
Print Assumptions C48_manager.

(** ** databases that meet the hypotheses; the limits of dar_manager -r *)
Ltac chrono := repeat (apply chrono_cons; [intros k' s' Hin; repeat destruct Hin as [Hin|Hin]; try contradiction; injection Hin as <- <-; vm_compute; congruence|]); apply chrono_nil.
Lemma no_patches_right : forall m, (forall k s, In (k, s) m -> ~ is_patch (present s)) -> flags_right m.
Proof. intros m H before k s after E P. exfalso. apply (H k s); [rewrite E; apply in_or_app; right; left; reflexivity|exact P]. Qed.
Lemma never_gone_right : forall m, Forall (fun x => match present (snd x) with et_removed | et_absent => False | _ => True end) m -> no_revival false m.
Proof.
  intros m H before k s after E _ j. rewrite E in H. apply Forall_app in H as [H _]. clear -H. induction before as [|[k s] b IH] using rev_ind; [discriminate|]. rewrite history_app. apply Forall_app in H as [H1 H2]. specialize (IH H1). apply Forall_inv in H2. cbn in H2.
  destruct (present s); try contradiction; cbn; destruct (history false b); discriminate.
Qed.
Lemma none_present_right : forall m, Forall (fun x => present (snd x) <> et_present) m -> no_revival false m.
Proof. intros m H before k s after E P. exfalso. rewrite E in H. apply Forall_app in H as [_ H]. apply Forall_inv in H. apply H. exact P. Qed.
Ltac fine := refine (conj _ (conj _ (conj _ (conj _ (conj _ (conj _ _))))));
  [repeat constructor; cbv [key_lt fst]; lia
  |apply no_patches_right; intros k s H; repeat destruct H as [H|H]; try contradiction; injection H as <- <-; cbn; intros [X|X]; discriminate X
  |chrono
  |first [apply never_gone_right; vm_compute; repeat constructor; fail|apply none_present_right; vm_compute; repeat constructor; discriminate]
  |repeat constructor; cbv [key_lt fst]; lia
  |intros k s H; repeat destruct H as [H|H]; try contradiction; injection H as <- <-; (split; [discriminate|cbn; auto])
  |chrono].
Definition sv (k n : N) : N * statusp := (k, Sp (day n) et_saved None None).
Definition st' (e : etat) (k n : N) : N * statusp := (k, Sp (day n) e None None).
(** a file of two full backups, in a directory that did not change *)
Definition t_date : tree := Tree [] [] [] (Some [Tree [1] [sv 1 1; sv 2 1] [] (Some [Tree [2] [sv 1 1; sv 2 10] [] None])]).
(** a file removed by the second of three archives *)
Definition t_gone : tree := Tree [] [] [] (Some [Tree [1] [sv 1 1; st' et_present 2 1; st' et_present 3 1] [] (Some [Tree [2] [sv 1 1; sv 2 2; sv 3 3] [] (Some [Tree [3] [sv 1 1; st' et_removed 2 2] [] None])])]).
(** a file whose EA alone changed between two archives *)
Definition t_ea : tree := Tree [] [] [] (Some [Tree [1] [sv 1 1; st' et_present 2 1] [(1, St (day 1) et_saved); (2, St (day 2) et_saved)] None]).
Definition w_of (last : N -> option N) : world N := World N (fun k => k) (fun k c => c) (fun _ => []) last.
Definition w_date (p : path) : world N := w_of (fun k => Some k).
Definition w_gone (p : path) : world N := match p with [_] => w_of (fun k => Some 1) | [_; _; _] => w_of (fun k => if k =? 1 then Some 1 else None) | _ => w_of (fun k => Some k) end.
Definition w_ea (p : path) : ea_world N := EaWorld N (fun k => 100 + k) (fun k => Some (100 + k)).
Lemma one_tac : forall t, (fix ok t := let 'Tree _ _ _ k := t in match k with None => true | Some l => (fix nd l := match l with [] => true | x :: r => negb (existsb (fun y => name_eqb (t_name x) (t_name y)) r) && nd r end) l && forallb ok l end) t = true -> one_name_each t.
Proof.
  intro t. induction t as [n m c|n m c l IH] using tree_ind2; intro H; [constructor|]. apply andb_true_iff in H as [H1 H2]. constructor.
  - clear -H1. induction l as [|x l IH]; cbn; [constructor|]. apply andb_true_iff in H1 as [H1 H2]. constructor; [|auto]. intro K. apply in_map_iff in K as (y & E & Hy). apply negb_true_iff in H1. assert (existsb (fun y => name_eqb (t_name x) (t_name y)) l = true) by (apply existsb_exists; exists y; split; [exact Hy|rewrite E; apply name_eqb_refl]). congruence.
  - rewrite forallb_forall in H2. rewrite Forall_forall in *. auto.
Qed.
Ltac nod := first [apply (proj2 (nodes_kids _ _ _ _ _)); split; [|repeat apply Forall_cons; try apply Forall_nil; nod]|apply (proj2 (nodes_leaf _ _ _ _))].
Theorem C48_databases : (one_name_each t_date /\ nodes (records_fine (day 5)) t_date) /\ (one_name_each t_gone /\ nodes (records_fine date0) t_gone) /\ (one_name_each t_ea /\ nodes (records_fine date0) t_ea).
Proof.
  split; [|split]; (split; [apply one_tac; vm_compute; reflexivity|]); unfold t_date, t_gone, t_ea, sv, st'; nod; fine.
Qed.
Print Assumptions C48_databases.

(** the archives of these databases tell the truth *)
Fixpoint told {C} (w : world C) (prev : option N) (m : amap statusp) : Prop :=
  match m with
  | [] => True
  | (k, s) :: r => match present s with
    | et_saved => truth w k = Some (full w k) /\ result s = None
    | et_present | et_inode => match prev with Some j => truth w k = truth w j | None => True end
    | et_removed | et_absent => truth w k = None
    | _ => False
    end /\ told w (Some k) r
  end.
Lemma told_honest : forall C (w : world C) m, told w None m -> honest w m.
Proof.
  intros C w m H before k s after E. 
  assert (G : forall before m prev, told w prev m -> m = before ++ (k, s) :: after -> match present s with
    | et_saved => truth w k = Some (full w k) /\ result s = None
    | et_present | et_inode => match rev before with [] => match prev with Some j => truth w k = truth w j | None => True end | (j, _) :: _ => truth w k = truth w j end
    | et_removed | et_absent => truth w k = None
    | _ => False
    end).
  { clear H E before m. intros bf. induction bf as [|[j s'] b IH]; intros m prev H E; subst m; cbn [told app] in H; destruct H as [H1 H2].
    - cbn [rev]. exact H1.
    - specialize (IH _ _ H2 eq_refl). cbn [rev]. destruct (present s); auto; destruct (rev b) as [|[j2 s2] r]; exact IH. }
  specialize (G before m None H E). destruct (present s); try contradiction; auto.
  - destruct G as [G1 G2]. split; [exact G1|]. intros r Hr. congruence.
  - intros older j s' Hb. rewrite Hb, rev_app_distr in G. exact G.
  - intros older j s' Hb. rewrite Hb, rev_app_distr in G. exact G.
Qed.
Theorem C48_honest : (forall p e, entry p t_date e -> honest (w_date p) (t_mods e)) /\ (forall p e, entry p t_gone e -> honest (w_gone p) (t_mods e)) /\ (forall p e, entry p t_ea e -> ea_honest (w_ea p) (t_chg e)).
Proof.
  destruct C48_databases as ((D1 & _) & (D2 & _) & (D3 & _)). split; [|split]; intros p e H.
  - apply (entry_find _ _ _ D1) in H. apply told_honest.
    destruct p as [|a p]; [injection H as <-; exact I|]. cbn -[name_eqb] in H. match type of H with context [name_eqb ?x ?y] => destruct (name_eqb x y) end; [|discriminate H].
    destruct p as [|b p]; [injection H as <-; repeat split|]. cbn -[name_eqb] in H. match type of H with context [name_eqb ?x ?y] => destruct (name_eqb x y) end; [|discriminate H].
    destruct p as [|c p]; [injection H as <-; repeat split|discriminate H].
  - apply (entry_find _ _ _ D2) in H. apply told_honest.
    destruct p as [|a p]; [injection H as <-; exact I|]. cbn -[name_eqb] in H. match type of H with context [name_eqb ?x ?y] => destruct (name_eqb x y) end; [|discriminate H].
    destruct p as [|b p]; [injection H as <-; repeat split|]. cbn -[name_eqb] in H. match type of H with context [name_eqb ?x ?y] => destruct (name_eqb x y) end; [|discriminate H].
    destruct p as [|c p]; [injection H as <-; repeat split|]. cbn -[name_eqb] in H. match type of H with context [name_eqb ?x ?y] => destruct (name_eqb x y) end; [|discriminate H].
    destruct p as [|x p]; [injection H as <-; repeat split|discriminate H].
  - apply (entry_find _ _ _ D3) in H. intros before k s after E.
    destruct p as [|a p]; [injection H as <-; destruct before; discriminate E|]. cbn -[name_eqb] in H. match type of H with context [name_eqb ?x ?y] => destruct (name_eqb x y) end; [|discriminate H].
    destruct p as [|b p]; [|discriminate H]. injection H as <-. cbn [t_chg] in E. destruct before as [|x before]; [injection E as <- <- _; reflexivity|]. injection E as _ E.
    destruct before as [|y before]; [injection E as <- <- _; reflexivity|]. injection E as _ E. destruct before; discriminate E.
Qed.
Print Assumptions C48_honest.
(** dar_manager -r dir -w date: the file is given as it was after the date, because -g dir asks from the archives that hold the directory; dar -x -w over the database is right *)
Theorem C48_manager_date_refuted : 
  (exists disk, manager_restore 10 (data_act w_date) t_date [[[1]]] (day 5) false (fun _ => None) = Ok disk /\ disk [[1]; [2]] = Some 2) /\
  (exists disk, restore_db (data_act w_date) t_date (fun _ => true) (day 5) (fun _ => None) = Ok disk /\ disk [[1]; [2]] = Some 1) /\
  last_truth (w_date [[1]; [2]]) (upto date (day 5) [sv 1 1; sv 2 10]) = Some 1.
Proof. split; [eexists; split; [vm_compute; reflexivity|vm_compute; reflexivity]|]. split; [eexists; split; [vm_compute; reflexivity|vm_compute; reflexivity]|vm_compute; reflexivity]. Qed.
Print Assumptions C48_manager_date_refuted.
(** dar_manager -r dir: a file removed since is given back *)
Theorem C48_manager_removed_refuted :
  (exists disk, manager_restore 10 (data_act w_gone) t_gone [[[1]]] date0 false (fun _ => None) = Ok disk /\ disk [[1]; [2]; [3]] = Some 1) /\
  (exists disk, restore_db (data_act w_gone) t_gone (fun _ => true) date0 (fun _ => None) = Ok disk /\ disk [[1]; [2]; [3]] = None) /\
  last_truth (w_gone [[1]; [2]; [3]]) [sv 1 1; st' et_removed 2 2] = None.
Proof. split; [eexists; split; [vm_compute; reflexivity|vm_compute; reflexivity]|]. split; [eexists; split; [vm_compute; reflexivity|vm_compute; reflexivity]|vm_compute; reflexivity]. Qed.
Print Assumptions C48_manager_removed_refuted.
(** dar_manager -r file: the EA are not the last ones, because the archive that holds them is not asked for *)
Theorem C48_manager_ea_refuted :
  (exists disk, manager_restore 10 (ea_act w_ea) t_ea [[[1]]] date0 false (fun _ => None) = Ok disk /\ disk [[1]] = Some 101) /\
  (exists disk, restore_db (ea_act w_ea) t_ea (fun _ => true) date0 (fun _ => None) = Ok disk /\ disk [[1]] = Some 102) /\
  last_ea (w_ea [[1]]) [(1, St (day 1) et_saved); (2, St (day 2) et_saved)] = Some 102.
Proof. split; [eexists; split; [vm_compute; reflexivity|vm_compute; reflexivity]|]. split; [eexists; split; [vm_compute; reflexivity|vm_compute; reflexivity]|vm_compute; reflexivity]. Qed.
Print Assumptions C48_manager_ea_refuted.
