(** * C49: the paths of the archive *)
From Coq Require Import List Bool PeanoNat Lia.
From Verif Require Import Base BackupModel BackupSpec BackupProof.
Import ListNotations.
Open Scope N_scope.

Section Paths.
Variable c : cfg.
Definition descend_opt (rb : option (list rnode)) (x : cent) : cent := match x with CDir n i a k => CDir n i a (upd (below_of rb n) k) | _ => x end.
Definition rb_ok (rb : option (list rnode)) : Prop := match rb with Some r => rdistinct r | None => True end.
Lemma rb_below : forall rb n, rb_ok rb -> rb_ok (below_of rb n).
Proof.
  intros [r|] n H; cbn in *; [|exact I]. inversion H as [l Nd Hs E]. subst. destruct (rsearch n r) as [[| m i k |]|] eqn:Es; cbn; auto. apply (rsearch_some n r _ Nd) in Es as [Es _]. eapply Hs. exact Es.
Qed.
Lemma upd_opt_level : forall rb cur, NoDup (map cname cur) -> rb_ok rb -> forall z, In z (upd rb cur) <-> (exists x, In x cur /\ z = descend_opt rb x) \/ (exists r y, rb = Some r /\ In y r /\ live y = true /\ ~ In (rname y) (map cname cur) /\ z = CDet (rname y)).
Proof.
  intros [r|] cur Nc H z.
  - inversion H as [l Nd Hs E]. subst. cbn [upd]. rewrite (upd_level r cur Nc Nd). split.
    + intros [(x & A & ->)|(y & A & B & C & D)]; [left; exists x; split; [exact A|destruct x; reflexivity]|right; exists r, y; auto].
    + intros [(x & A & ->)|(r' & y & E & A & B & C & D)]; [left; exists x; split; [exact A|destruct x; reflexivity]|right; injection E as <-; exists y; auto].
  - cbn [upd]. split.
    + intro A. left. exists z. split; [exact A|]. destruct z; reflexivity.
    + intros [(x & A & ->)|(r' & y & E & _)]; [destruct x; exact A|discriminate E].
Qed.
Lemma distinct_nodup : forall l, distinct l -> NoDup (map fname l).
Proof. intros l H. inversion H. assumption. Qed.
Lemma want_cases : forall here b x w, In w (want c here b x) <-> readable c x /\ (
  (wanted c (rev (fname x :: here)) x /\ f_fail (ffacts x) = No_failure /\ match x with Fil n f => w = CFil n (f_id f) (against_of b x) | Dir n f o k => w = CDir n (f_id f) (against_of b x) (flat_map (want c (n :: here) (below_of b n)) (entered c o k)) end) \/
  (wanted c (rev (fname x :: here)) x /\ f_fail (ffacts x) <> No_failure /\ w = CIgn (fname x)) \/
  (~ wanted c (rev (fname x :: here)) x /\ w = if is_dir x && empty_dir c then CIgd (fname x) (f_id (ffacts x)) else CIgn (fname x))).
Proof.
  intros here b x w. rewrite <- (hidden_spec c x), <- (covered_spec c (fname x :: here) x). pose proof (failing_spec x) as F.
  rewrite <- F. clear F.
  destruct x as [n f|n f o k]; cbn [want fname ffacts is_dir]; destruct (hidden c _); try (split; [intros []|intros [H _]; discriminate H]); destruct (covered c _ _), (failing _); unfold entered; try destruct (goes_in c o k); cbn [In];
    (split; [intros [<-|[]]; split; [reflexivity|]|intros (_ & [(A & B & ->)|[(A & B & ->)|(A & ->)]]); auto; congruence]); tauto || (try (left; repeat split; congruence); try (right; left; repeat split; congruence); right; right; split; congruence).
Qed.
Lemma want_name_iff : forall here b l m, In m (map cname (flat_map (want c here b) l)) <-> exists x, In x l /\ readable c x /\ fname x = m.
Proof.
  intros here b l m. rewrite in_map_iff. split.
  - intros (w & E & H). apply in_flat_map in H as (x & Hx & Hw). exists x. pose proof Hw as Hn. apply want_names in Hn. apply want_cases in Hw as [Hr _]. split; [exact Hx|]. split; [exact Hr|congruence].
  - intros (x & Hx & Hr & E). assert (Q : exists w, In w (want c here b x)).
    { pose proof (want_cases here b x) as W. destruct (covered c (fname x :: here) x) eqn:Ec.
      - apply covered_spec in Ec. destruct (f_fail (ffacts x)) eqn:Ef.
        + destruct x as [n f|n f o k]; eexists; apply W; (split; [exact Hr|]); left; (split; [exact Ec|]); (split; reflexivity).
        + eexists. apply W. split; [exact Hr|]. right. left. split; [exact Ec|]. split; [congruence|reflexivity].
        + eexists. apply W. split; [exact Hr|]. right. left. split; [exact Ec|]. split; [congruence|reflexivity].
      - eexists. apply W. split; [exact Hr|]. right. right. split; [|reflexivity]. intro K. apply covered_spec in K. congruence. }
    destruct Q as [w Hw]. exists w. split; [rewrite <- E; eapply want_names; exact Hw|]. apply in_flat_map. exists x. auto.
Qed.
Lemma want_single : forall here b x, want c here b x = [] \/ exists w, want c here b x = [w].
Proof. intros here b x. destruct x as [n f|n f o k]; cbn [want]; repeat match goal with |- context [if ?b then _ else _] => destruct b end; eauto. Qed.
Lemma want_nodup : forall here b l, NoDup (map fname l) -> NoDup (map cname (flat_map (want c here b) l)).
Proof.
  intros here b l. induction l as [|x l IH]; intro Nd; [constructor|]. cbn in Nd. inversion Nd as [|z zs Nz Nd' E]. subst. cbn [flat_map]. rewrite map_app. destruct (want_single here b x) as [->|[w Ew]]; [apply IH; exact Nd'|]. rewrite Ew. cbn. constructor; [|apply IH; exact Nd'].
  intro K. apply want_name_iff in K as (y & Hy & _ & E). apply Nz. rewrite (want_names c here b x w) in E by (rewrite Ew; left; reflexivity). rewrite <- E. apply in_map. exact Hy.
Qed.
Lemma bl_below : forall rb n, below_of (bl c rb) n = bl c (below_of rb n).
Proof. intros rb n. unfold bl. destruct (by_date c); reflexivity. Qed.
Lemma arc_level : forall here rb l, distinct l -> rb_ok rb -> forall z, In z (arc c here rb l) <->
  (exists n f, In (Fil n f) l /\ readable c (Fil n f) /\ wanted c (rev (n :: here)) (Fil n f) /\ f_fail f = No_failure /\ z = CFil n (f_id f) (against_of (bl c rb) (Fil n f))) \/
  (exists n f o k, In (Dir n f o k) l /\ readable c (Dir n f o k) /\ wanted c (rev (n :: here)) (Dir n f o k) /\ f_fail f = No_failure /\ z = CDir n (f_id f) (against_of (bl c rb) (Dir n f o k)) (arc c (n :: here) (below_of rb n) (entered c o k))) \/
  (exists n f o k, In (Dir n f o k) l /\ readable c (Dir n f o k) /\ ~ wanted c (rev (n :: here)) (Dir n f o k) /\ empty_dir c = true /\ z = CDir n (f_id f) None []) \/
  (exists r y, rb = Some r /\ In y r /\ live y = true /\ (forall x, In x l -> readable c x -> fname x <> rname y) /\ z = CDet (rname y)).
Proof.
  intros here rb l Hd Hr z. unfold arc. rewrite in_flat_map. pose proof (upd_opt_level rb (flat_map (want c here (bl c rb)) l) (want_nodup here (bl c rb) l (distinct_nodup l Hd)) Hr) as U.
  assert (Nm : forall m, ~ In m (map cname (flat_map (want c here (bl c rb)) l)) <-> (forall x, In x l -> readable c x -> fname x <> m)).
  { intro m. rewrite want_name_iff. split; [intros H x A B E; apply H; exists x; auto|intros H (x & A & B & E); apply (H x A B E)]. }
  split.
  - intros (w & Hw & Hz). apply U in Hw as [(x & Hx & ->)|(r & y & -> & A & B & C & ->)].
    + apply in_flat_map in Hx as (u & Hu & Hx). apply want_cases in Hx as [Hrd [(A & B & D)|[(A & B & ->)|(A & ->)]]].
      * destruct u as [n f|n f o k]; subst x.
        -- destruct Hz as [<-|[]]. left. exists n, f. auto.
        -- destruct Hz as [<-|[]]. right. left. exists n, f, o, k. do 4 (split; [assumption|]). cbn [fname]. rewrite bl_below. reflexivity.
      * destruct Hz.
      * destruct u as [n f|n f o k]; cbn in Hz; [destruct Hz|]. destruct (empty_dir c) eqn:Ee; cbn in Hz; [|destruct Hz]. destruct Hz as [<-|[]]. right. right. left. exists n, f, o, k. auto.
    + destruct Hz as [<-|[]]. right. right. right. exists r, y. rewrite <- Nm. auto.
  - intros [(n & f & H1 & H2 & H3 & H4 & ->)|[(n & f & o & k & H1 & H2 & H3 & H4 & ->)|[(n & f & o & k & H1 & H2 & H3 & H4 & ->)|(r & y & H1 & H2 & H3 & H4 & ->)]]].
    + eexists. split; [apply U; left; eexists; split; [apply in_flat_map; exists (Fil n f); split; [exact H1|apply want_cases; split; [exact H2|]; left; split; [exact H3|split; [exact H4|reflexivity]]]|reflexivity]|left; reflexivity].
    + eexists. split; [apply U; left; eexists; split; [apply in_flat_map; exists (Dir n f o k); split; [exact H1|apply want_cases; split; [exact H2|]; left; split; [exact H3|split; [exact H4|reflexivity]]]|reflexivity]|]. left. cbn. rewrite bl_below. reflexivity.
    + exists (CIgd n (f_id f)). split; [apply U; left; exists (CIgd n (f_id f)); split; [apply in_flat_map; exists (Dir n f o k); split; [exact H1|apply want_cases; split; [exact H2|]; right; right; split; [exact H3|cbn; rewrite H4; reflexivity]]|reflexivity]|left; reflexivity].
    + exists (CDet (rname y)). split; [apply U; right; exists r, y; rewrite Nm; auto|left; reflexivity].
Qed.

(** ** paths relative to a directory *)
Definition ref_rel (rb : option (list rnode)) (q : list name) (r : rnode) : Prop := exists l, rb = Some l /\ ref_at l q r.
Definition compared_rel (rb : option (list rnode)) (q : list name) (x : fnode) (a : option N) : Prop :=
  match a with
  | Some id => by_date c = false /\ exists r, ref_rel rb q r /\ same_type x r id
  | None => by_date c = true \/ forall r id, ref_rel rb q r -> ~ same_type x r id
  end.
Definition met (here : rpath) (l : list fnode) (q : list name) (x : fnode) : Prop := offered c (rev here) l (rev here ++ q) x.
Definition kept (here : rpath) (l : list fnode) (q : list name) (x : fnode) : Prop := met here l q x /\ wanted c (rev here ++ q) x /\ f_fail (ffacts x) = No_failure.
Inductive due_rel (here : rpath) (rb : option (list rnode)) (l : list fnode) : list name -> item -> Prop :=
| rel_file : forall p n f a, kept here l p (Fil n f) -> compared_rel rb p (Fil n f) a -> due_rel here rb l p (File (f_id f) a)
| rel_dir : forall p n f o k a, kept here l p (Dir n f o k) -> compared_rel rb p (Dir n f o k) a -> due_rel here rb l p (Directory (f_id f) a)
| rel_empty : forall p n f o k, met here l p (Dir n f o k) -> ~ wanted c (rev here ++ p) (Dir n f o k) -> empty_dir c = true -> due_rel here rb l p (Directory (f_id f) None)
| rel_removed : forall d n r, ref_rel rb (d ++ [n]) r -> (forall m, r <> RDet m) -> d = [] \/ (exists m f o k, kept here l d (Dir m f o k)) -> (forall x, ~ met here l (d ++ [n]) x) -> due_rel here rb l (d ++ [n]) Removed.

Lemma offered_ext : forall here l p x, offered c here l p x -> exists q, q <> [] /\ p = here ++ q.
Proof. intros here l p x H. induction H as [here l x Hi Hr|here l n f k p x Hi Hr Hw Hf Hc Ho (q & Hq & ->)]; [exists [fname x]; split; [discriminate|reflexivity]|]. exists (n :: q). split; [discriminate|]. rewrite <- app_assoc. reflexivity. Qed.
Lemma met_nil : forall here l x, ~ met here l [] x.
Proof. intros here l x H. apply offered_ext in H as (q & Hq & E). apply app_inv_head in E. congruence. Qed.
Lemma met_one : forall here l n x, met here l [n] x <-> In x l /\ readable c x /\ fname x = n.
Proof.
  intros here l n x. unfold met. split.
  - intro H. inversion H as [h l0 x0 Hi Hr E1 E2 E3|h l0 m f k p0 x0 Hi Hr Hw Hf Hc Ho E1 E2 E3].
    + subst. apply app_inv_head in E3. injection E3 as E3. auto.
    + subst. exfalso. apply offered_ext in Ho as (q & Hq & E). rewrite <- app_assoc in E. apply app_inv_head in E. destruct q; [congruence|discriminate E].
  - intros (Hi & Hr & <-). constructor; assumption.
Qed.
Lemma met_cons : forall here l n q x, q <> [] -> (met here l (n :: q) x <-> exists f o k, In (Dir n f o k) l /\ readable c (Dir n f o k) /\ wanted c (rev here ++ [n]) (Dir n f o k) /\ f_fail f = No_failure /\ met (n :: here) (entered c o k) q x).
Proof.
  intros here l n q x Hq. unfold met. cbn [rev]. split.
  - intro H. inversion H as [h l0 x0 Hi Hr E1 E2 E3|h l0 m f k p0 x0 Hi Hr Hw Hf Hc Ho E1 E2 E3].
    + subst. apply app_inv_head in E3. injection E3 as E4 E5. congruence.
    + subst. pose proof Ho as Ho'. apply offered_ext in Ho' as (q' & Hq' & E). rewrite <- app_assoc in E. apply app_inv_head in E. cbn in E. injection E as E4 E5. subst m q'.
      exists f, true, k. do 4 (split; [assumption|]). unfold entered, goes_in. destruct (cached c k) eqn:Ec; [apply cached_spec in Ec; contradiction|]. cbn. rewrite <- app_assoc. exact Ho.
  - intros (f & o & k & Hi & Hr & Hw & Hf & Ho). unfold entered, goes_in in Ho. destruct o; cbn in Ho; [|inversion Ho; contradiction]. destruct (cached c k) eqn:Ec; cbn in Ho; [inversion Ho; contradiction|].
    rewrite <- app_assoc in Ho. eapply offered_below; try eassumption. intro K. apply cached_spec in K. congruence.
Qed.
Lemma ref_rel_nil : forall rb r, ~ ref_rel rb [] r.
Proof. intros rb r (l & _ & H). inversion H. Qed.
Lemma ref_rel_one : forall rb n r, ref_rel rb [n] r <-> exists l, rb = Some l /\ In r l /\ rname r = n.
Proof.
  intros rb n r. split; intros (l & E & H); exists l; (split; [exact E|]).
  - inversion H as [l0 r0 Hi E1 E2|l0 m i k p r0 Hi Ho E1 E2]; subst; [auto|inversion Ho].
  - destruct H as [Hi <-]. constructor. exact Hi.
Qed.
Lemma ref_rel_cons : forall rb n q r, rb_ok rb -> q <> [] -> (ref_rel rb (n :: q) r <-> ref_rel (below_of rb n) q r).
Proof.
  intros rb n q r Hok Hq. split.
  - intros (l & -> & H). inversion H as [l0 r0 Hi E1 E2|l0 m i k p r0 Hi Ho E1 E2]; subst; [congruence|]. cbn in Hok. inversion Hok as [l1 Nd Hs E]. subst. exists k. split; [|exact Ho]. cbn. rewrite (proj2 (rsearch_some n l (RDir n i k) Nd)); auto.
  - intros (k & E & H). destruct rb as [l|]; [|discriminate E]. cbn in Hok, E. inversion Hok as [l1 Nd Hs E']. subst. destruct (rsearch n l) as [[| m i k' |]|] eqn:Es; try discriminate E. injection E as ->. apply (rsearch_some n l _ Nd) in Es as [Es1 Es2]. cbn in Es2. subst m. exists l. split; [reflexivity|]. eapply ref_below; eassumption.
Qed.
Lemma against_one : forall rb x a, rb_ok rb -> (compared_rel rb [fname x] x a <-> a = against_of (bl c rb) x).
Proof.
  intros rb x a Hok. unfold bl. destruct (by_date c) eqn:Eb.
  - cbn [against_of]. unfold compared_rel. rewrite Eb. destruct a; split; try discriminate; auto. intros [H _]. discriminate H.
  - assert (T : forall r id, same_type x r id <-> same_as x r = Some id).
    { intros r id. destruct x as [n f|n f o k], r as [m kd i|m i l|m]; cbn; try (split; [intros []|discriminate]).
      - destruct (N.eqb_spec (f_kind f) kd); split; [intros [_ ->]; reflexivity|intro H; injection H as ->; auto|intros [H _]; congruence|discriminate].
      - split; [intros ->; reflexivity|intro H; injection H as ->; reflexivity]. }
    unfold compared_rel. rewrite Eb. unfold against_of. destruct rb as [l|].
    + cbn in Hok. inversion Hok as [l1 Nd Hs E']. subst. destruct (rsearch (fname x) l) as [r|] eqn:Es.
      * pose proof Es as Es'. apply (rsearch_some _ _ _ Nd) in Es' as [Hi Hn]. destruct a as [id|].
        -- split; [intros [_ (r' & H1 & H2)]|intro H]. { apply ref_rel_one in H1 as (l' & E & H1 & H3). injection E as <-. assert (E2 : rsearch (fname x) l = Some r') by (apply rsearch_some; auto). rewrite Es in E2. injection E2 as <-. apply T in H2. congruence. }
           split; [reflexivity|]. exists r. split; [apply ref_rel_one; exists l; auto|apply T; congruence].
        -- split; [intros [H|H]; [discriminate H|]|intro H; right]. { destruct (same_as x r) as [id|] eqn:Ea; [|reflexivity]. exfalso. apply (H r id); [apply ref_rel_one; exists l; auto|apply T; exact Ea]. }
           intros r' id H1 H2. apply ref_rel_one in H1 as (l' & E & H1 & H3). injection E as <-. assert (E2 : rsearch (fname x) l = Some r') by (apply rsearch_some; auto). rewrite Es in E2. injection E2 as <-. apply T in H2. congruence.
      * apply rsearch_none_iff in Es. assert (Z : forall r, ~ ref_rel (Some l) [fname x] r) by (intros r H; apply ref_rel_one in H as (l' & E & H1 & H3); injection E as <-; apply Es; rewrite <- H3; apply in_map; exact H1).
        destruct a as [id|]; split; [intros [_ (r & H & _)]; destruct (Z r H)|discriminate|auto|intros _; right; intros r id H; destruct (Z r H)].
    + assert (Z : forall r, ~ ref_rel None [fname x] r) by (intros r (l & E & _); discriminate E). destruct a as [id|]; split; [intros [_ (r & H & _)]; destruct (Z r H)|discriminate|auto|intros _; right; intros r id H; destruct (Z r H)].
Qed.
Lemma compared_cons : forall rb n q x a, rb_ok rb -> q <> [] -> (compared_rel rb (n :: q) x a <-> compared_rel (below_of rb n) q x a).
Proof.
  intros rb n q x a Hok Hq. destruct a as [id|]; cbn.
  - split; intros [H (r & H1 & H2)]; (split; [exact H|]); exists r; (split; [apply (ref_rel_cons rb n q r Hok Hq); exact H1|exact H2]).
  - split; (intros [H|H]; [left; exact H|right]); intros r id H1; apply H, (ref_rel_cons rb n q r Hok Hq), H1.
Qed.
Lemma same_dir : forall l n f o k f' o' k', distinct l -> In (Dir n f o k) l -> In (Dir n f' o' k') l -> f = f' /\ o = o' /\ k = k'.
Proof.
  intros l n f o k f' o' k' Hd H1 H2. apply distinct_nodup in Hd. clear -Hd H1 H2. induction l as [|x l IH]; [destruct H1|]. cbn in Hd. inversion Hd as [|z zs Nz Nd E]. subst. destruct H1 as [->|H1], H2 as [H2|H2].
  - injection H2 as -> -> ->. auto.
  - exfalso. apply Nz. exact (in_map fname _ _ H2).
  - subst x. exfalso. apply Nz. exact (in_map fname _ _ H1).
  - auto.
Qed.
Lemma distinct_entered : forall l n f o k, distinct l -> In (Dir n f o k) l -> distinct (entered c o k).
Proof. intros l n f o k H Hi. unfold entered. destruct (goes_in c o k); [inversion H as [l0 Nd Hs E]; eapply Hs; exact Hi|constructor; [constructor|intros ? ? ? ? []]]. Qed.
Lemma app_rev : forall (here : rpath) (n : name) q, rev here ++ n :: q = rev (n :: here) ++ q.
Proof. intros. cbn. rewrite <- app_assoc. reflexivity. Qed.
Lemma due_cons : forall here rb l n q it, distinct l -> rb_ok rb -> q <> [] ->
  (due_rel here rb l (n :: q) it <-> exists f o k, In (Dir n f o k) l /\ readable c (Dir n f o k) /\ wanted c (rev (n :: here)) (Dir n f o k) /\ f_fail f = No_failure /\ due_rel (n :: here) (below_of rb n) (entered c o k) q it).
Proof.
  intros here rb l n q it Hd Hok Hq. assert (K : forall x, kept here l (n :: q) x <-> exists f o k, In (Dir n f o k) l /\ readable c (Dir n f o k) /\ wanted c (rev (n :: here)) (Dir n f o k) /\ f_fail f = No_failure /\ kept (n :: here) (entered c o k) q x).
  { intro x. unfold kept. rewrite (met_cons here l n q x Hq), (app_rev here n q). cbn [rev]. split.
    - intros ((f & o & k & H1 & H2 & H3 & H4 & H5) & H6 & H7). exists f, o, k. tauto.
    - intros (f & o & k & H1 & H2 & H3 & H4 & H5 & H6 & H7). split; [exists f, o, k; auto|auto]. }
  split.
  - intro H. inversion H as [p m g a H1 H2 E1 E2|p m g o k a H1 H2 E1 E2|p m g o k H1 H2 H3 E1 E2|d m r H1 H2 H3 H4 E1 E2].
    + subst. apply K in H1 as (f & o & k & A1 & A2 & A3 & A4 & A5). exists f, o, k. do 4 (split; [assumption|]). econstructor; [exact A5|]. apply (compared_cons rb n q _ a Hok Hq). exact H2.
    + subst. apply K in H1 as (f & o' & k' & A1 & A2 & A3 & A4 & A5). exists f, o', k'. do 4 (split; [assumption|]). eapply rel_dir; [exact A5|]. apply (compared_cons rb n q _ a Hok Hq). exact H2.
    + subst. apply (met_cons here l n q _ Hq) in H1 as (f & o' & k' & A1 & A2 & A3 & A4 & A5). exists f, o', k'. cbn [rev]. do 4 (split; [assumption|]). eapply rel_empty; [exact A5| |exact H3]. rewrite <- app_rev. exact H2.
    + destruct d as [|m' d]; [cbn in E1; injection E1 as E3 E4; congruence|]. cbn in E1. injection E1 as -> E3. subst q. destruct H3 as [H3|(m' & f & o & k & H3)]; [discriminate H3|].
      assert (Q : exists f o k, In (Dir n f o k) l /\ readable c (Dir n f o k) /\ wanted c (rev (n :: here)) (Dir n f o k) /\ f_fail f = No_failure /\ (d = [] \/ exists m f' o' k', kept (n :: here) (entered c o k) d (Dir m f' o' k'))).
      { destruct d as [|m2 d].
        - destruct H3 as (A1 & A2 & A3). apply met_one in A1 as (A1 & A4 & A5). cbn in A5. subst m'. exists f, o, k. auto 10.
        - unfold kept in H3. rewrite (met_cons here l n (m2 :: d)) in H3 by discriminate. destruct H3 as ((f' & o' & k' & A1 & A2 & A3 & A4 & A5) & A6 & A7). exists f', o', k'. cbn [rev]. do 4 (split; [assumption|]). right. exists m', f, o, k. split; [exact A5|]. rewrite app_rev in A6. auto. }
      destruct Q as (f2 & o2 & k2 & A1 & A2 & A3 & A4 & A5). exists f2, o2, k2. do 4 (split; [assumption|]). apply rel_removed with (r := r).
      * apply (ref_rel_cons rb n (d ++ [m]) r Hok); [destruct d; discriminate|exact H1].
      * exact H2.
      * exact A5.
      * intros x Hx. apply (H4 x). cbn. apply met_cons; [destruct d; discriminate|]. exists f2, o2, k2. cbn [rev] in A3. auto 10.
  - intros (f & o & k & A1 & A2 & A3 & A4 & H). inversion H as [p m g a H1 H2 E1 E2|p m g o' k' a H1 H2 E1 E2|p m g o' k' H1 H2 H3 E1 E2|d m r H1 H2 H3 H4 E1 E2].
    + subst. econstructor; [apply K; exists f, o, k; eauto 10|]. apply (compared_cons rb n q _ a Hok Hq). exact H2.
    + subst. eapply rel_dir; [apply K; exists f, o, k; eauto 10|]. apply (compared_cons rb n q _ a Hok Hq). exact H2.
    + subst. eapply rel_empty; [apply met_cons; [exact Hq|]; exists f, o, k; cbn [rev] in A3; eauto 10| |exact H3]. rewrite app_rev. exact H2.
    + subst q. change (n :: d ++ [m]) with ((n :: d) ++ [m]). apply rel_removed with (r := r).
      * cbn. apply (ref_rel_cons rb n (d ++ [m]) r Hok); [destruct d; discriminate|exact H1].
      * exact H2.
      * right. destruct H3 as [->|(m' & f' & o' & k' & H3)].
        -- exists n, f, o, k. split; [apply met_one; auto|split; [exact A3|exact A4]].
        -- destruct d as [|m2 d]; [destruct H3 as [H3 _]; destruct (met_nil _ _ _ H3)|]. exists m', f', o', k'. destruct H3 as (B1 & B2 & B3). split; [apply met_cons; [discriminate|]; exists f, o, k; cbn [rev] in A3; auto 10|]. rewrite app_rev. auto.
      * intros x Hx. cbn in Hx. apply met_cons in Hx as (f' & o' & k' & B1 & B2 & B3 & B4 & B5); [|destruct d; discriminate]. destruct (same_dir l n f o k f' o' k' Hd A1 B1) as (<- & <- & <-). apply (H4 x B5).
Qed.
Theorem arc_due : forall q n here rb l it, distinct l -> rb_ok rb -> (archived (arc c here rb l) (n :: q) it <-> due_rel here rb l (n :: q) it).
Proof.
  intro q. induction q as [|m q IH]; intros n here rb l it Hd Hok.
  - (* one name *)
    assert (A : archived (arc c here rb l) [n] it <-> exists z, In z (arc c here rb l) /\ cname z = n /\ item_of z = Some it).
    { split; [intros (z & H & E); exists z|intros (z & H & <- & E); exists z; split; [constructor; exact H|exact E]]. inversion H as [l0 x0 Hi E1 E2|l0 m i a k p x0 Hi Ho E1 E2]; subst; [auto|inversion Ho]. }
    rewrite A. clear A. pose proof (arc_level here rb l Hd Hok) as L. change (rev here ++ [n]) with (rev (n :: here)). split.
    + intros (z & Hz & Hn & Hi). apply L in Hz as [(n' & f & H1 & H2 & H3 & H4 & ->)|[(n' & f & o & k & H1 & H2 & H3 & H4 & ->)|[(n' & f & o & k & H1 & H2 & H3 & H4 & ->)|(r & y & H1 & H2 & H3 & H4 & ->)]]]; cbn in Hn, Hi; injection Hi as <-; subst n.
      * econstructor; [split; [apply met_one; split; [exact H1|split; [exact H2|reflexivity]]|split; [exact H3|exact H4]]|]. apply (against_one rb (Fil n' f)); [exact Hok|reflexivity].
      * eapply rel_dir; [split; [apply met_one; split; [exact H1|split; [exact H2|reflexivity]]|split; [exact H3|exact H4]]|]. apply (against_one rb (Dir n' f o k)); [exact Hok|reflexivity].
      * eapply rel_empty; [apply met_one; split; [exact H1|split; [exact H2|reflexivity]]|exact H3|exact H4].
      * change [rname y] with ([] ++ [rname y]). apply rel_removed with (r := y); [apply ref_rel_one; exists r; auto|intros m ->; discriminate H3|left; reflexivity|]. intros x Hx. apply met_one in Hx as (B1 & B2 & B3). exact (H4 x B1 B2 B3).
    + intro H. inversion H as [p m g a H1 H2 E1 E2|p m g o' k' a H1 H2 E1 E2|p m g o' k' H1 H2 H3 E1 E2|d m r H1 H2 H3 H4 E1 E2].
      * subst. destruct H1 as (H1 & H3 & H4). apply met_one in H1 as (B1 & B2 & B3). cbn in B3. subst m. apply (against_one rb (Fil n g) a Hok) in H2. eexists. split; [apply L; left; exists n, g; do 4 (split; [assumption|]); reflexivity|]. subst a. auto.
      * subst. destruct H1 as (H1 & H3 & H4). apply met_one in H1 as (B1 & B2 & B3). cbn in B3. subst m. apply (against_one rb (Dir n g o' k') a Hok) in H2. eexists. split; [apply L; right; left; exists n, g, o', k'; do 4 (split; [assumption|]); reflexivity|]. subst a. auto.
      * subst. apply met_one in H1 as (B1 & B2 & B3). cbn in B3. subst m. eexists. split; [apply L; right; right; left; exists n, g, o', k'; do 4 (split; [assumption|]); reflexivity|auto].
      * destruct d as [|m' d]; [|cbn in E1; injection E1 as _ E1; destruct d; discriminate E1]. cbn in E1. injection E1 as ->. cbn in H1, H4. apply ref_rel_one in H1 as (l' & -> & B1 & B2). exists (CDet n). split; [|auto]. apply L. right. right. right. exists l', r. split; [reflexivity|]. split; [exact B1|]. split; [destruct r; try reflexivity; destruct (H2 n0 eq_refl)|]. split; [|rewrite B2; reflexivity].
        intros x X1 X2 X3. apply (H4 x), met_one. rewrite <- B2. auto.
  - assert (A : archived (arc c here rb l) (n :: m :: q) it <-> exists i a k, In (CDir n i a k) (arc c here rb l) /\ archived k (m :: q) it).
    { split; [intros (z & H & E)|intros (i & a & k & H & z & H2 & E); exists z; split; [eapply arc_below; eassumption|exact E]]. inversion H as [l0 x0 Hi E1 E2|l0 m' i a k p x0 Hi Ho E1 E2]; subst. exists i, a, k. split; [exact Hi|exists z; auto]. }
    rewrite A, (due_cons here rb l n (m :: q) it Hd Hok) by discriminate. clear A. pose proof (arc_level here rb l Hd Hok) as L. split.
    + intros (i & a & k & Hi & Ha). apply L in Hi as [(n' & f & H1 & H2 & H3 & H4 & E)|[(n' & f & o & k' & H1 & H2 & H3 & H4 & E)|[(n' & f & o & k' & H1 & H2 & H3 & H4 & E)|(r & y & H1 & H2 & H3 & H4 & E)]]]; try discriminate E.
      * injection E as <- -> -> ->. exists f, o, k'. do 4 (split; [assumption|]). apply IH; [eapply distinct_entered; eassumption|apply rb_below; exact Hok|exact Ha].
      * injection E as <- -> -> ->. destruct Ha as (z & Ha & _). inversion Ha; contradiction.
    + intros (f & o & k & H1 & H2 & H3 & H4 & H5). eexists _, _, _. split; [apply L; right; left; exists n, f, o, k; do 4 (split; [assumption|]); reflexivity|]. apply IH; [eapply distinct_entered; eassumption|apply rb_below; exact Hok|exact H5].
Qed.
End Paths.
