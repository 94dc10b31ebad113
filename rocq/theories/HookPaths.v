(** * C50: what the events are *)
From Coq Require Import List Bool PeanoNat Lia.
From Verif Require Import Base BackupModel BackupSpec BackupProof BackupPaths BackupCount HookSpec HookProof.
Import ListNotations.
Open Scope N_scope.

Section Paths.
Variable c : cfg.
Definition sv (here : rpath) (rb : option (list rnode)) (l : list fnode) (q : list name) (x : fnode) : Prop :=
  met c here l q x /\ wanted c (rev here ++ q) x /\ f_fail (ffacts x) <> Early /\ exists a, compared_rel c rb q x a /\ changed c (f_id (ffacts x)) a = true.
Definition cp here rb l q : Prop := exists n f, f_kind f = 0 /\ sv here rb l q (Fil n f).
Definition sel (here : rpath) rb l q : Prop := hook c (rev here ++ q) = true /\ exists x, sv here rb l q x.
Definition hkd here rb l q : Prop := sel here rb l q /\ forall d e, q = d ++ e -> e <> [] -> ~ sel here rb l d.
Lemma sv_one : forall here rb l n x, rb_ok rb -> (sv here rb l [n] x <-> In x l /\ readable c x /\ fname x = n /\ covered c (n :: here) x = true /\ f_fail (ffacts x) <> Early /\ saves c (bl c rb) x = true).
Proof.
  intros here rb l n x Hr. unfold sv. rewrite met_one, covered_spec. cbn [rev]. split.
  - intros ((A & B & E) & W & F & a & Ca & Ch). subst n. apply (against_one c rb x a Hr) in Ca. subst a. auto 10.
  - intros (A & B & E & W & F & S). subst n. repeat (split; auto). exists (against_of (bl c rb) x). split; [apply against_one; auto|exact S].
Qed.
Lemma sv_nil : forall here rb l x, ~ sv here rb l [] x.
Proof. intros here rb l x [H _]. exact (met_nil _ _ _ _ H). Qed.
Lemma sv_cons : forall here rb l n q x, rb_ok rb -> q <> [] -> (sv here rb l (n :: q) x <-> exists f o k, In (Dir n f o k) l /\ readable c (Dir n f o k) /\ wanted c (rev here ++ [n]) (Dir n f o k) /\ f_fail f = No_failure /\ sv (n :: here) (below_of rb n) (entered c o k) q x).
Proof.
  intros here rb l n q x Hr Hq. unfold sv. rewrite (met_cons c here l n q x Hq), (app_rev here n q). split.
  - intros ((f & o & k & A & B & C & D & M) & W & F & a & Ca & Ch). exists f, o, k. do 4 (split; [assumption|]). do 3 (split; [assumption|]). exists a. split; [apply (compared_cons c rb n q x a Hr Hq); exact Ca|exact Ch].
  - intros (f & o & k & A & B & C & D & M & W & F & a & Ca & Ch). split; [exists f, o, k; auto 10|]. do 2 (split; [assumption|]). exists a. split; [apply (compared_cons c rb n q x a Hr Hq); exact Ca|exact Ch].
Qed.
Lemma sel_nil : forall here rb l, ~ sel here rb l [].
Proof. intros here rb l (_ & x & H). exact (sv_nil _ _ _ _ H). Qed.
Lemma sel_cons : forall here rb l n f o k q, distinct l -> rb_ok rb -> q <> [] -> In (Dir n f o k) l -> readable c (Dir n f o k) -> wanted c (rev here ++ [n]) (Dir n f o k) -> f_fail f = No_failure -> (sel here rb l (n :: q) <-> sel (n :: here) (below_of rb n) (entered c o k) q).
Proof.
  intros here rb l n f o k q Hd Hr Hq A B C D. unfold sel. rewrite app_rev. split; intros (H & x & S); (split; [exact H|]); exists x.
  - apply (sv_cons here rb l n q x Hr Hq) in S as (f' & o' & k' & A' & _ & _ & _ & S). destruct (same_dir l n f o k f' o' k' Hd A A') as (<- & <- & <-). exact S.
  - apply (sv_cons here rb l n q x Hr Hq). exists f, o, k. auto 10.
Qed.
Lemma cp_cons : forall here rb l n f o k q, distinct l -> rb_ok rb -> q <> [] -> In (Dir n f o k) l -> readable c (Dir n f o k) -> wanted c (rev here ++ [n]) (Dir n f o k) -> f_fail f = No_failure -> (cp here rb l (n :: q) <-> cp (n :: here) (below_of rb n) (entered c o k) q).
Proof.
  intros here rb l n f o k q Hd Hr Hq A B C D. unfold cp. split; intros (m & g & Hg & S); exists m, g; (split; [exact Hg|]).
  - apply (sv_cons here rb l n q _ Hr Hq) in S as (f' & o' & k' & A' & _ & _ & _ & S). destruct (same_dir l n f o k f' o' k' Hd A A') as (<- & <- & <-). exact S.
  - apply (sv_cons here rb l n q _ Hr Hq). exists f, o, k. auto 10.
Qed.
Lemma hkd_cons : forall here rb l n f o k q, distinct l -> rb_ok rb -> q <> [] -> In (Dir n f o k) l -> readable c (Dir n f o k) -> wanted c (rev here ++ [n]) (Dir n f o k) -> f_fail f = No_failure -> (hkd here rb l (n :: q) <-> ~ sel here rb l [n] /\ hkd (n :: here) (below_of rb n) (entered c o k) q).
Proof.
  intros here rb l n f o k q Hd Hr Hq A B C D. unfold hkd. rewrite (sel_cons here rb l n f o k q Hd Hr Hq A B C D). split.
  - intros [S P]. split; [apply (P [n] q); [reflexivity|exact Hq]|]. split; [exact S|]. intros d e E He K. destruct d as [|m d]; [exact (sel_nil _ _ _ K)|]. apply (P (n :: m :: d) e); [cbn; rewrite E; reflexivity|exact He|]. apply (sel_cons here rb l n f o k (m :: d)); auto; discriminate.
  - intros (Ns & S & P). split; [exact S|]. intros d e E He K. destruct d as [|m d]; [exact (sel_nil _ _ _ K)|]. cbn in E. injection E as <- E. destruct d as [|m d]; [exact (Ns K)|]. apply (P (m :: d) e E He). apply (sel_cons here rb l n f o k (m :: d)); auto; discriminate.
Qed.
Lemma unique : forall l x y, NoDup (map fname l) -> In x l -> In y l -> fname x = fname y -> x = y.
Proof. intros l x y. induction l as [|z l IH]; intros Nd Hx Hy E; [destruct Hx|]. cbn in Nd. inversion Nd as [|w ws Nz Nd' E']. subst. destruct Hx as [->|Hx], Hy as [->|Hy]; auto; exfalso; apply Nz; [rewrite E|rewrite <- E]; apply in_map; assumption. Qed.

(** ** the paths of the events *)
Definition path_of (e : ev) : rpath := match e with Hook_start p | Hook_end p | Data p => p end.
Lemma datas_prefix : forall x here b p, In p (datas c here b x) -> exists q, rev p = rev here ++ fname x :: q.
Proof.
  intro x. induction x as [n f|n f o l IH] using fnode_ind2; intros here b p H; cbn [datas fname ffacts] in *; destruct (hidden c _); try destruct H; destruct (covered c _ _); try destruct H; destruct (f_fail f); try destruct H; apply in_app_or in H as [H|H]; try (destruct (saves c b _ && _); [|destruct H]; destruct H as [<-|[]]; exists []; reflexivity); try destruct H.
  destruct (goes_in c o l); [|destruct H]. apply in_flat_map in H as (y & Hy & H). rewrite Forall_forall in IH. apply (IH y Hy) in H as (q & E). exists (fname y :: q). rewrite E. cbn. rewrite <- app_assoc. reflexivity.
Qed.
Lemma logs_prefix : forall x here b e, In e (logs c here b x) -> exists q, rev (path_of e) = rev here ++ fname x :: q.
Proof.
  intro x. induction x as [n f|n f o l IH] using fnode_ind2; intros here b e H.
  - cbn [logs fname ffacts] in *. destruct (hidden c _); [destruct H|]. destruct (covered c _ _); [|destruct H]. assert (G : forall L, In e (if saves c b (Fil n f) && hook c (rev (n :: here)) then Hook_start (n :: here) :: map Data (datas c here b (Fil n f)) ++ [Hook_end (n :: here)] else (if saves c b (Fil n f) && plain (Fil n f) then [Data (n :: here)] else []) ++ L) -> L = [] -> exists q, rev (path_of e) = rev here ++ n :: q).
    { intros L HL ->. destruct (_ && hook c _).
      - destruct HL as [<-|HL]; [exists []; reflexivity|]. apply in_app_or in HL as [HL|[<-|[]]]; [|exists []; reflexivity]. apply in_map_iff in HL as (p & <- & HL). exact (datas_prefix (Fil n f) here b p HL).
      - apply in_app_or in HL as [HL|[]]. destruct (_ && _); [|destruct HL]. destruct HL as [<-|[]]. exists []. reflexivity. }
    destruct (f_fail f); [eapply G; [exact H|reflexivity]|destruct H|eapply G; [exact H|reflexivity]].
  - cbn [logs fname ffacts] in H. cbn [fname]. destruct (hidden c _); [destruct H|]. destruct (covered c _ _); [|destruct H]. assert (G : forall L, In e (if saves c b (Dir n f o l) && hook c (rev (n :: here)) then Hook_start (n :: here) :: map Data (datas c here b (Dir n f o l)) ++ [Hook_end (n :: here)] else (if saves c b (Dir n f o l) && plain (Dir n f o l) then [Data (n :: here)] else []) ++ L) -> (In e L -> exists q, rev (path_of e) = rev here ++ n :: q) -> exists q, rev (path_of e) = rev here ++ n :: q).
    { intros L HL K. destruct (_ && hook c _).
      - destruct HL as [<-|HL]; [exists []; reflexivity|]. apply in_app_or in HL as [HL|[<-|[]]]; [|exists []; reflexivity]. apply in_map_iff in HL as (p & <- & HL). exact (datas_prefix (Dir n f o l) here b p HL).
      - apply in_app_or in HL as [HL|HL]; [|apply K; exact HL]. destruct (_ && _); [|destruct HL]. destruct HL as [<-|[]]. exists []. reflexivity. }
    destruct (f_fail f); [eapply G; [exact H|]|destruct H|eapply G; [exact H|intros []]].
    intro K. destruct (goes_in c o l); [|destruct K]. apply in_flat_map in K as (y & Hy & K). rewrite Forall_forall in IH. apply (IH y Hy) in K as (q & E). exists (fname y :: q). rewrite E. cbn. rewrite <- app_assoc. reflexivity.
Qed.
Lemma flat_nodup2 : forall (A : Type) (pth : A -> rpath) (g : fnode -> list A) here l, (forall x e, In e (g x) -> exists q, rev (pth e) = rev here ++ fname x :: q) -> NoDup (map fname l) -> (forall x, In x l -> NoDup (g x)) -> NoDup (flat_map g l).
Proof.
  intros A pth g here l Hp. induction l as [|x l IH]; intros Nd H; [constructor|]. cbn in Nd. inversion Nd as [|z zs Nz Nd' E]. subst. cbn [flat_map]. apply NoDup_app2.
  - apply H. left. reflexivity.
  - apply IH; [exact Nd'|]. intros y Hy. apply H. right. exact Hy.
  - intros p P K. apply in_flat_map in K as (y & Hy & K). apply Hp in P as (q & E1). apply Hp in K as (q' & E2). rewrite E1 in E2. apply app_inv_head in E2. injection E2 as E3 E4. apply Nz. rewrite E3. apply in_map. exact Hy.
Qed.
Lemma sub_distinct : forall l x, distinct l -> In x l -> distinct [x].
Proof. intros l x H Hx. inversion H as [l0 Nd Hs E]. subst. constructor; [cbn; constructor; [intros []|constructor]|]. intros n f o k [->|[]]. eapply Hs. exact Hx. Qed.
Lemma dir_distinct : forall n f o k, distinct [Dir n f o k] -> distinct k.
Proof. intros n f o k H. inversion H as [l0 Nd Hs E]. eapply Hs. left. reflexivity. Qed.
Lemma datas_nodup : forall x here b, distinct [x] -> NoDup (datas c here b x).
Proof.
  intro x. induction x as [n f|n f o l IH] using fnode_ind2; intros here b H; cbn [datas fname ffacts].
  - destruct (hidden c _); [constructor|]. destruct (covered c _ _); [|constructor]. destruct (f_fail f); try constructor; rewrite app_nil_r; (destruct (saves c b _ && _); [constructor; [intros []|constructor]|constructor]).
  - destruct (hidden c _); [constructor|]. destruct (covered c _ _); [|constructor]. unfold plain. cbn [is_dir negb andb]. rewrite andb_false_r. cbn [app]. destruct (f_fail f); try constructor. destruct (goes_in c o l); [|constructor]. apply dir_distinct in H. apply (flat_nodup2 _ (fun p => p) _ (n :: here)); [intros x e K; apply (datas_prefix _ _ _ _ K)|apply distinct_nodup; exact H|]. intros x Hx. rewrite Forall_forall in IH. apply IH; [exact Hx|apply (sub_distinct l); assumption].
Qed.
Lemma hooked_nodup : forall p D, NoDup D -> NoDup (Hook_start p :: map Data D ++ [Hook_end p]).
Proof.
  intros p D H. constructor.
  - intro K. apply in_app_or in K as [K|[K|[]]]; [apply in_map_iff in K as (q & E & _)|]; discriminate.
  - apply NoDup_app2.
    + clear -H. induction H as [|x l Hx H IH]; [constructor|]. cbn. constructor; [|exact IH]. intro K. apply in_map_iff in K as (y & E & K). injection E as ->. contradiction.
    + constructor; [intros []|constructor].
    + intros e K [E|[]]. apply in_map_iff in K as (q & E2 & _). congruence.
Qed.
Lemma logs_nodup : forall x here b, distinct [x] -> NoDup (logs c here b x).
Proof.
  intro x. induction x as [n f|n f o l IH] using fnode_ind2; intros here b H.
  - pose proof (datas_nodup (Fil n f) here b H) as D. cbn [logs fname ffacts]. destruct (hidden c (Fil n f)); [constructor|]. destruct (covered c (n :: here) (Fil n f)); [|constructor]. assert (G : NoDup (if saves c b (Fil n f) && hook c (rev (n :: here)) then Hook_start (n :: here) :: map Data (datas c here b (Fil n f)) ++ [Hook_end (n :: here)] else (if saves c b (Fil n f) && plain (Fil n f) then [Data (n :: here)] else []) ++ [])).
    { destruct (_ && hook c _); [apply hooked_nodup; exact D|]. rewrite app_nil_r. destruct (_ && _); [constructor; [intros []|constructor]|constructor]. }
    destruct (f_fail f); [exact G|constructor|exact G].
  - pose proof (datas_nodup (Dir n f o l) here b H) as D. cbn [logs fname ffacts]. destruct (hidden c (Dir n f o l)); [constructor|]. destruct (covered c (n :: here) (Dir n f o l)); [|constructor].
    assert (G : forall L, NoDup L -> NoDup (if saves c b (Dir n f o l) && hook c (rev (n :: here)) then Hook_start (n :: here) :: map Data (datas c here b (Dir n f o l)) ++ [Hook_end (n :: here)] else (if saves c b (Dir n f o l) && plain (Dir n f o l) then [Data (n :: here)] else []) ++ L)).
    { intros L HL. destruct (_ && hook c _); [apply hooked_nodup; exact D|]. unfold plain. cbn [is_dir negb andb]. rewrite andb_false_r. exact HL. }
    destruct (f_fail f); [apply G|constructor|apply G; constructor]. destruct (goes_in c o l); [|constructor]. apply dir_distinct in H. apply (flat_nodup2 _ path_of _ (n :: here)); [intros x e K; apply (logs_prefix _ _ _ _ K)|apply distinct_nodup; exact H|]. intros x Hx. rewrite Forall_forall in IH. apply IH; [exact Hx|apply (sub_distinct l); assumption].
Qed.

(** ** the files read *)
Lemma datas_own : forall here b x, In (fname x :: here) (datas c here b x) <-> hidden c x = false /\ covered c (fname x :: here) x = true /\ f_fail (ffacts x) <> Early /\ saves c b x = true /\ plain x = true.
Proof.
  intros here b x. assert (Deep : forall n l b', ~ In (n :: here) (flat_map (datas c (n :: here) b') l)).
  { intros n l b' K. apply in_flat_map in K as (y & _ & K). apply datas_prefix in K as (q & E). apply (f_equal (@length name)) in E. rewrite app_length in E. cbn in E. lia. }
  destruct x as [n f|n f o l]; cbn [datas fname ffacts]; destruct (hidden c _); try (split; [intros []|intros [K _]; discriminate K]); destruct (covered c _ _); try (split; [intros []|intros (_ & K & _); discriminate K]).
  - destruct (f_fail f); try (split; [intros []|intros (_ & _ & K & _); congruence]); rewrite app_nil_r; destruct (saves c b _), (plain _); cbn; split; intuition (try congruence; try discriminate).
  - unfold plain. cbn [is_dir negb andb]. rewrite andb_false_r. cbn [app]. split; [|intros (_ & _ & _ & _ & K); discriminate K]. destruct (f_fail f); try intros []. destruct (goes_in c o l); [|intros []]. intro K. destruct (Deep _ _ _ K).
Qed.
Lemma datas_deep : forall here b x m q, In (rev (rev (fname x :: here) ++ m :: q)) (datas c here b x) <-> exists n f o l, x = Dir n f o l /\ hidden c x = false /\ covered c (n :: here) x = true /\ f_fail f = No_failure /\ In (rev (rev (n :: here) ++ m :: q)) (flat_map (datas c (n :: here) (below_of b n)) (entered c o l)).
Proof.
  intros here b x m q. assert (Own : fname x :: here <> rev (rev (fname x :: here) ++ m :: q)) by (intro E; apply (f_equal (@length name)) in E; rewrite rev_length, app_length, rev_length in E; cbn in E; lia).
  destruct x as [n f|n f o l]; cbn [datas fname ffacts] in *.
  - split; [|intros (n' & f' & o' & l' & E & _); discriminate E]. destruct (hidden c _); [intros []|]. destruct (covered c _ _); [|intros []]. destruct (f_fail f); try intros []; rewrite app_nil_r; (destruct (_ && _); [|intros []]); intros [K|[]]; contradiction.
  - unfold plain. cbn [is_dir negb andb]. rewrite andb_false_r. cbn [app]. split.
    + destruct (hidden c _) eqn:E1; [intros []|]. destruct (covered c _ _) eqn:E2; [|intros []]. destruct (f_fail f) eqn:E3; try intros []. destruct (goes_in c o l) eqn:E4; [|intros []]. intro K. exists n, f, o, l. unfold entered. rewrite E4. auto.
    + intros (n' & f' & o' & l' & E & H1 & H2 & H3 & H4). injection E as <- <- <- <-. rewrite H1, H2, H3. unfold entered in H4. destruct (goes_in c o l); [exact H4|destruct H4].
Qed.
Theorem datas_iff : forall q n here rb l, distinct l -> rb_ok rb -> (In (rev (rev here ++ n :: q)) (flat_map (datas c here (bl c rb)) l) <-> cp here rb l (n :: q)).
Proof.
  intro q. induction q as [|m q IH]; intros n here rb l Hd Hr; rewrite in_flat_map.
  - rewrite rev_app_distr, rev_involutive. cbn [rev app]. split.
    + intros (x & Hx & K). pose proof (datas_prefix _ _ _ _ K) as (q & E). cbn in E. apply app_inv_head in E. injection E as -> _. apply datas_own in K as (K1 & K2 & K3 & K4 & K5). destruct x as [m f|m f o k]; [|discriminate K5]. unfold plain in K5. cbn in K5. apply N.eqb_eq in K5. exists m, f. split; [exact K5|]. apply sv_one; [exact Hr|]. apply hidden_spec in K1. auto 10.
    + intros (m & f & Hf & S). apply (sv_one here rb l n (Fil m f) Hr) in S as (A & B & C & D & E & F). cbn in C. subst m. exists (Fil n f). split; [exact A|]. apply (datas_own here (bl c rb) (Fil n f)). apply hidden_spec in B. unfold plain. cbn. rewrite Hf. auto.
  - split.
    + intros (x & Hx & K). pose proof (datas_prefix _ _ _ _ K) as (q' & E). rewrite rev_involutive in E. apply app_inv_head in E. injection E as -> _. rewrite app_rev in K. apply datas_deep in K as (n & f & o & k & -> & K1 & K2 & K3 & K4). cbn [fname]. apply hidden_spec in K1. apply covered_spec in K2. rewrite bl_below in K4. apply IH in K4; [|apply (distinct_entered c l n f o k Hd Hx)|apply rb_below; exact Hr]. apply (cp_cons here rb l n f o k (m :: q)); auto. discriminate.
    + intros (y & g & Hg & S). apply (sv_cons here rb l n (m :: q)) in S as (f & o & k & A & B & C & D & S); [|exact Hr|discriminate]. exists (Dir n f o k). split; [exact A|]. rewrite app_rev. apply (datas_deep here (bl c rb) (Dir n f o k) m q). exists n, f, o, k. split; [reflexivity|]. split; [apply hidden_spec; exact B|]. split; [apply covered_spec; exact C|]. split; [exact D|]. rewrite bl_below. apply IH; [apply (distinct_entered c l n f o k Hd A)|apply rb_below; exact Hr|]. exists y, g. auto.
Qed.
Lemma datas_x : forall here rb l x n q, distinct l -> rb_ok rb -> In x l -> (In (rev (rev here ++ n :: q)) (datas c here (bl c rb) x) <-> cp here rb l (n :: q) /\ n = fname x).
Proof.
  intros here rb l x n q Hd Hr Hx. split.
  - intro K. pose proof (datas_prefix _ _ _ _ K) as (q' & E). rewrite rev_involutive in E. apply app_inv_head in E. injection E as -> _. split; [|reflexivity]. apply datas_iff; auto. apply in_flat_map. exists x. auto.
  - intros [K ->]. apply datas_iff in K; auto. apply in_flat_map in K as (y & Hy & K). pose proof (datas_prefix _ _ _ _ K) as (q' & E). rewrite rev_involutive in E. apply app_inv_head in E. injection E as E _. pose proof (unique l x y (distinct_nodup l Hd) Hx Hy E) as U. subst y. exact K.
Qed.

(** ** blocks *)
Inductive blk (here : rpath) rb l : list event -> Prop :=
| blk_nil : blk here rb l []
| blk_file : forall q L, cp here rb l q -> (forall d e, q = d ++ e -> ~ sel here rb l d) -> blk here rb l L -> blk here rb l (Reads (rev here ++ q) :: L)
| blk_hook : forall q g L, hkd here rb l q -> NoDup g -> (forall f, In f g <-> cp here rb l f /\ exists e, f = q ++ e) -> blk here rb l L -> blk here rb l (Start (rev here ++ q) :: map (fun f => Reads (rev here ++ f)) g ++ Finish (rev here ++ q) :: L).
Lemma blk_app : forall here rb l A B, blk here rb l A -> blk here rb l B -> blk here rb l (A ++ B).
Proof.
  intros here rb l A B HA HB. induction HA as [|q L H1 H2 HL IH|q g L H1 H2 H3 HL IH]; [exact HB|constructor; assumption|]. cbn. rewrite <- app_assoc. cbn. constructor; assumption.
Qed.
Lemma cp_nil : forall here rb l, ~ cp here rb l [].
Proof. intros here rb l (n & f & _ & H). exact (sv_nil _ _ _ _ H). Qed.
Lemma blk_lift : forall here rb l n f o k L, distinct l -> rb_ok rb -> In (Dir n f o k) l -> readable c (Dir n f o k) -> wanted c (rev here ++ [n]) (Dir n f o k) -> f_fail f = No_failure -> ~ sel here rb l [n] -> blk (n :: here) (below_of rb n) (entered c o k) L -> blk here rb l L.
Proof.
  intros here rb l n f o k L Hd Hr A B C D Ns H. induction H as [|q L H1 H2 HL IH|q g L H1 H2 H3 HL IH]; [constructor| |].
  - assert (Hq : q <> []) by (intros ->; exact (cp_nil _ _ _ H1)). rewrite <- app_rev. constructor; [apply (cp_cons here rb l n f o k q); auto| |exact IH]. intros d e E K. destruct d as [|m d]; [exact (sel_nil _ _ _ K)|]. cbn in E. injection E as <- E. destruct d as [|m d]; [exact (Ns K)|]. apply (H2 (m :: d) e E). apply (sel_cons here rb l n f o k (m :: d)); auto; discriminate.
  - assert (Hq : q <> []) by (intros ->; destruct H1 as [H1 _]; exact (sel_nil _ _ _ H1)). rewrite <- app_rev. replace (map (fun f => Reads (rev (n :: here) ++ f)) g) with (map (fun f => Reads (rev here ++ f)) (map (cons n) g)) by (rewrite map_map; apply map_ext; intro z; rewrite app_rev; reflexivity).
    constructor; [apply (hkd_cons here rb l n f o k q); auto| | |exact IH].
    + clear -H2. induction H2 as [|x g Hx Hg IHg]; [constructor|]. cbn. constructor; [|exact IHg]. intro K. apply in_map_iff in K as (y & E & K). injection E as ->. contradiction.
    + intro z. rewrite in_map_iff. split.
      * intros (w & <- & Hw). apply H3 in Hw as [Hw (e & ->)]. assert (q ++ e <> []) by (destruct q; [congruence|discriminate]). split; [apply (cp_cons here rb l n f o k (q ++ e)); auto|exists e; reflexivity].
      * intros [Hz (e & ->)]. exists (q ++ e). split; [reflexivity|]. apply H3. assert (q ++ e <> []) by (destruct q; [congruence|discriminate]). split; [apply (cp_cons here rb l n f o k (q ++ e)); auto|exists e; reflexivity].
Qed.
Lemma sel_one : forall here rb l x, distinct l -> rb_ok rb -> In x l -> hidden c x = false -> covered c (fname x :: here) x = true -> f_fail (ffacts x) <> Early -> (sel here rb l [fname x] <-> saves c (bl c rb) x && hook c (rev (fname x :: here)) = true).
Proof.
  intros here rb l x Hd Hr Hx H1 H2 H3. rewrite andb_true_iff. unfold sel. cbn [rev]. split.
  - intros (H & y & S). apply (sv_one here rb l (fname x) y Hr) in S as (A & B & C & D & E & F). rewrite (unique l x y (distinct_nodup l Hd) Hx A (eq_sym C)). rewrite <- C in H. auto.
  - intros [S H]. split; [exact H|]. exists x. apply sv_one; [exact Hr|]. apply hidden_spec in H1. auto 10.
Qed.
Lemma blk_hooked : forall here rb l x L, distinct l -> rb_ok rb -> In x l -> hidden c x = false -> covered c (fname x :: here) x = true -> f_fail (ffacts x) <> Early -> saves c (bl c rb) x && hook c (rev (fname x :: here)) = true -> blk here rb l L -> blk here rb l (map seen (Hook_start (fname x :: here) :: map Data (datas c here (bl c rb) x) ++ [Hook_end (fname x :: here)]) ++ L).
Proof.
  intros here rb l x L Hd Hr Hx H1 H2 H3 H4 HL. set (g := map (fun p => skipn (length here) (rev p)) (datas c here (bl c rb) x)).
  assert (P : forall p, In p (datas c here (bl c rb) x) -> rev p = rev here ++ skipn (length here) (rev p)).
  { intros p Hp. apply datas_prefix in Hp as (q & E). rewrite E at 2. rewrite skipn_app, skipn_all2 by (rewrite rev_length; lia). rewrite rev_length, Nat.sub_diag. cbn. exact E. }
  assert (E : map seen (Hook_start (fname x :: here) :: map Data (datas c here (bl c rb) x) ++ [Hook_end (fname x :: here)]) ++ L = Start (rev here ++ [fname x]) :: map (fun f => Reads (rev here ++ f)) g ++ Finish (rev here ++ [fname x]) :: L).
  { cbn [map app seen rev]. f_equal. rewrite map_app, <- app_assoc. cbn. f_equal. unfold g. rewrite !map_map. apply map_ext_in. intros p Hp. cbn [seen]. f_equal. apply P. exact Hp. }
  rewrite E. constructor; [| | |exact HL].
  - split; [apply sel_one; auto|]. intros d e E' He K. destruct d as [|m d]; [exact (sel_nil _ _ _ K)|]. cbn in E'. injection E' as _ E'. destruct d; [cbn in E'; congruence|discriminate E'].
  - pose proof (datas_nodup x here (bl c rb) (sub_distinct l x Hd Hx)) as Nd. unfold g. clear -P Nd. induction Nd as [|p D Hp Nd IH]; [constructor|]. cbn. constructor; [|apply IH; intros; apply P; right; assumption]. intro K. apply in_map_iff in K as (p' & E & K). apply Hp. replace p with p'; [exact K|]. rewrite <- (rev_involutive p'), <- (rev_involutive p). f_equal. rewrite (P p' (or_intror K)), (P p (or_introl eq_refl)), E. reflexivity.
  - intro z. unfold g. rewrite in_map_iff. split.
    + intros (p & <- & Hp). pose proof (P p Hp) as E2. pose proof (datas_prefix _ _ _ _ Hp) as (q & E3). rewrite E2 in E3. apply app_inv_head in E3. rewrite E3. split; [|exists q; reflexivity]. apply (datas_x here rb l x (fname x) q Hd Hr Hx). rewrite <- E3, <- E2, rev_involutive. exact Hp.
    + intros [Hz (e & ->)]. cbn [app] in Hz |- *. exists (rev (rev here ++ fname x :: e)). split; [|apply (datas_x here rb l x (fname x) e Hd Hr Hx); auto]. rewrite rev_involutive, skipn_app, skipn_all2 by (rewrite rev_length; lia). rewrite rev_length, Nat.sub_diag. reflexivity.
Qed.
Lemma blk_list : forall here rb l k, (forall x, In x k -> blk here rb l (map seen (logs c here (bl c rb) x))) -> blk here rb l (map seen (flat_map (logs c here (bl c rb)) k)).
Proof. intros here rb l k. induction k as [|x k IH]; intro H; [constructor|]. cbn [flat_map]. rewrite map_app. apply blk_app; [apply H; left; reflexivity|apply IH; intros y Hy; apply H; right; exact Hy]. Qed.
Theorem logs_blk : forall x here rb l, distinct l -> rb_ok rb -> In x l -> blk here rb l (map seen (logs c here (bl c rb) x)).
Proof.
  intro x. induction x as [n f|n f o k IH] using fnode_ind2; intros here rb l Hd Hr Hx.
  - assert (S : hidden c (Fil n f) = false -> covered c (n :: here) (Fil n f) = true -> f_fail f <> Early -> blk here rb l (map seen (if saves c (bl c rb) (Fil n f) && hook c (rev (n :: here)) then Hook_start (n :: here) :: map Data (datas c here (bl c rb) (Fil n f)) ++ [Hook_end (n :: here)] else (if saves c (bl c rb) (Fil n f) && plain (Fil n f) then [Data (n :: here)] else []) ++ []))).
    { intros H1 H2 H3. destruct (saves c (bl c rb) (Fil n f) && hook c (rev (n :: here))) eqn:Eh.
      - rewrite <- (app_nil_r (map seen _)). apply (blk_hooked here rb l (Fil n f)); auto. constructor.
      - rewrite app_nil_r. destruct (saves c (bl c rb) (Fil n f) && plain (Fil n f)) eqn:Ep; [|constructor]. apply andb_true_iff in Ep as [E1 E2]. unfold plain in E2. cbn in E2. apply N.eqb_eq in E2. cbn [map seen rev]. apply blk_file; [| |constructor].
        + exists n, f. split; [exact E2|]. apply sv_one; [exact Hr|]. apply hidden_spec in H1. auto 10.
        + intros d e E K. destruct d as [|m d]; [exact (sel_nil _ _ _ K)|]. cbn in E. injection E as <- E. destruct d; [|discriminate E]. apply (sel_one here rb l (Fil n f)) in K; auto. cbn [fname] in K. congruence. }
    cbn [logs fname ffacts]. destruct (hidden c (Fil n f)); [constructor|]. destruct (covered c (n :: here) (Fil n f)); [|constructor]. destruct (f_fail f); [apply S; auto; discriminate|constructor|apply S; auto; discriminate].
  - assert (S : forall fl L, f_fail f = fl -> hidden c (Dir n f o k) = false -> covered c (n :: here) (Dir n f o k) = true -> fl <> Early -> (~ sel here rb l [n] -> blk here rb l (map seen L)) -> blk here rb l (map seen (if saves c (bl c rb) (Dir n f o k) && hook c (rev (n :: here)) then Hook_start (n :: here) :: map Data (datas c here (bl c rb) (Dir n f o k)) ++ [Hook_end (n :: here)] else (if saves c (bl c rb) (Dir n f o k) && plain (Dir n f o k) then [Data (n :: here)] else []) ++ L))).
    { intros fl L Ef H1 H2 H3 HL. subst fl. destruct (saves c (bl c rb) (Dir n f o k) && hook c (rev (n :: here))) eqn:Eh.
      - rewrite <- (app_nil_r (map seen _)). apply (blk_hooked here rb l (Dir n f o k)); auto. constructor.
      - unfold plain. cbn [is_dir negb andb]. rewrite andb_false_r. cbn [app]. apply HL. intro K. apply (sel_one here rb l (Dir n f o k)) in K; auto. cbn [fname] in K. congruence. }
    cbn [logs fname ffacts]. destruct (hidden c (Dir n f o k)) eqn:E1; [constructor|]. destruct (covered c (n :: here) (Dir n f o k)) eqn:E2; [|constructor]. destruct (f_fail f) eqn:Ef; [|constructor|].
    + apply (S No_failure); auto; [discriminate|]. intro Ns. apply hidden_spec in E1. apply covered_spec in E2. destruct (goes_in c o k) eqn:Eg; [|constructor]. apply (blk_lift here rb l n f o k); auto. unfold entered. rewrite Eg, bl_below. apply blk_list. intros y Hy. rewrite Forall_forall in IH. apply IH; [exact Hy| |apply rb_below; exact Hr|exact Hy]. pose proof (distinct_entered c l n f o k Hd Hx) as De. unfold entered in De. rewrite Eg in De. exact De.
    + apply (S Late); auto; [discriminate|]. intros _. constructor.
Qed.

(** ** all the events *)
Lemma datas_logs : forall x here b p, In (Data p) (logs c here b x) <-> In p (datas c here b x).
Proof.
  assert (Hk : forall P p D, In (Data p) (Hook_start P :: map Data D ++ [Hook_end P]) <-> In p D).
  { intros P p D. split; [intros [K|K]; [discriminate K|]; apply in_app_or in K as [K|[K|[]]]; [|discriminate K]; apply in_map_iff in K as (y & E & K); injection E as ->; exact K|intro K; right; apply in_or_app; left; apply in_map; exact K]. }
  intro x. induction x as [n f|n f o k IH] using fnode_ind2; intros here b p; cbn [logs datas fname ffacts].
  - destruct (hidden c _); [reflexivity|]. destruct (covered c _ _); [|reflexivity]. assert (G : In (Data p) (if saves c b (Fil n f) && plain (Fil n f) then [Data (n :: here)] else []) <-> In p (if saves c b (Fil n f) && plain (Fil n f) then [n :: here] else [])) by (destruct (_ && _); [|reflexivity]; split; intros [E|[]]; left; congruence). destruct (f_fail f); [|reflexivity|]; (destruct (_ && hook c _); [apply Hk|rewrite !app_nil_r; exact G]).
  - destruct (hidden c _); [reflexivity|]. destruct (covered c _ _); [|reflexivity]. unfold plain. cbn [is_dir negb andb]. rewrite andb_false_r. cbn [app]. destruct (f_fail f); [|reflexivity|]; (destruct (_ && hook c _); [apply Hk|]); [|reflexivity]. destruct (goes_in c o k); [|reflexivity]. rewrite Forall_forall in IH. rewrite !in_flat_map. split; intros (y & Hy & K); exists y; (split; [exact Hy|]); apply (IH y Hy); exact K.
Qed.
Lemma starts_own : forall here b x, In (Hook_start (fname x :: here)) (logs c here b x) <-> hidden c x = false /\ covered c (fname x :: here) x = true /\ f_fail (ffacts x) <> Early /\ saves c b x && hook c (rev (fname x :: here)) = true.
Proof.
  intros here b x. assert (Deep : forall n l b', ~ In (Hook_start (n :: here)) (flat_map (logs c (n :: here) b') l)).
  { intros n l b' K. apply in_flat_map in K as (y & _ & K). apply logs_prefix in K as (q & E). apply (f_equal (@length name)) in E. rewrite app_length in E. cbn in E. lia. }
  destruct x as [n f|n f o l]; cbn [logs fname ffacts]; destruct (hidden c _); try (split; [intros []|intros [K _]; discriminate K]); destruct (covered c _ _); try (split; [intros []|intros (_ & K & _); discriminate K]).
  - destruct (f_fail f); try (split; [intros []|intros (_ & _ & K & _); congruence]); rewrite app_nil_r; (destruct (_ && hook c _); [split; [intros _; repeat split; discriminate|left; reflexivity]|split; [|intros (_ & _ & _ & K); discriminate K]]); (destruct (_ && _); [intros [K|[]]; discriminate K|intros []]).
  - unfold plain. cbn [is_dir negb andb]. rewrite andb_false_r. cbn [app]. destruct (f_fail f); try (split; [intros []|intros (_ & _ & K & _); congruence]); (destruct (_ && hook c _); [split; [intros _; repeat split; discriminate|left; reflexivity]|split; [|intros (_ & _ & _ & K); discriminate K]]); [|intros []]. destruct (goes_in c o l); [|intros []]. intro K. destruct (Deep _ _ _ K).
Qed.
Lemma starts_deep : forall here b x m q, In (Hook_start (rev (rev (fname x :: here) ++ m :: q))) (logs c here b x) <-> exists n f o l, x = Dir n f o l /\ hidden c x = false /\ covered c (n :: here) x = true /\ f_fail f = No_failure /\ saves c b x && hook c (rev (n :: here)) = false /\ In (Hook_start (rev (rev (n :: here) ++ m :: q))) (flat_map (logs c (n :: here) (below_of b n)) (entered c o l)).
Proof.
  intros here b x m q. assert (Own : fname x :: here <> rev (rev (fname x :: here) ++ m :: q)) by (intro E; apply (f_equal (@length name)) in E; rewrite rev_length, app_length, rev_length in E; cbn in E; lia).
  assert (Hk : forall D, ~ In (Hook_start (rev (rev (fname x :: here) ++ m :: q))) (Hook_start (fname x :: here) :: map Data D ++ [Hook_end (fname x :: here)])).
  { intros D [K|K]; [injection K as K; contradiction|]. apply in_app_or in K as [K|[K|[]]]; [apply in_map_iff in K as (y & E & _)|]; discriminate. }
  destruct x as [n f|n f o l]; cbn [logs fname ffacts] in *.
  - split; [|intros (n' & f' & o' & l' & E & _); discriminate E]. destruct (hidden c _); [intros []|]. destruct (covered c _ _); [|intros []]. destruct (f_fail f); try intros []; rewrite app_nil_r; (destruct (_ && hook c _); [intro K; destruct (Hk _ K)|]); (destruct (_ && _); [|intros []]); intros [K|[]]; discriminate K.
  - unfold plain. cbn [is_dir negb andb]. rewrite andb_false_r. cbn [app]. split.
    + destruct (hidden c _) eqn:E1; [intros []|]. destruct (covered c _ _) eqn:E2; [|intros []]. destruct (f_fail f) eqn:E3; try intros []; (destruct (_ && hook c _) eqn:E5; [intro K; destruct (Hk _ K)|]); [|intros []]. destruct (goes_in c o l) eqn:E4; [|intros []]. intro K. exists n, f, o, l. unfold entered. rewrite E4. auto 10.
    + intros (n' & f' & o' & l' & E & H1 & H2 & H3 & H5 & H4). injection E as <- <- <- <-. rewrite H1, H2, H3, H5. unfold entered in H4. destruct (goes_in c o l); [exact H4|destruct H4].
Qed.
Theorem starts_iff : forall q n here rb l, distinct l -> rb_ok rb -> (In (Hook_start (rev (rev here ++ n :: q))) (flat_map (logs c here (bl c rb)) l) <-> hkd here rb l (n :: q)).
Proof.
  intro q. induction q as [|m q IH]; intros n here rb l Hd Hr; rewrite in_flat_map.
  - rewrite rev_app_distr, rev_involutive. cbn [rev app]. split.
    + intros (x & Hx & K). pose proof (logs_prefix _ _ _ _ K) as (q & E). cbn in E. apply app_inv_head in E. injection E as -> _. apply starts_own in K as (K1 & K2 & K3 & K4). split; [apply sel_one; auto|]. intros d e E' He K. destruct d as [|m d]; [exact (sel_nil _ _ _ K)|]. cbn in E'. injection E' as _ E'. destruct d; [cbn in E'; congruence|discriminate E'].
    + intros [[H (x & S)] _]. pose proof S as S'. apply (sv_one here rb l n x Hr) in S' as (A & B & C & D & E & F). subst n. exists x. split; [exact A|]. apply starts_own. apply hidden_spec in B. repeat (split; [assumption|]). rewrite F. exact H.
  - split.
    + intros (x & Hx & K). pose proof (logs_prefix _ _ _ _ K) as (q' & E). cbn [path_of] in E. rewrite rev_involutive in E. apply app_inv_head in E. injection E as -> _. rewrite app_rev in K. apply starts_deep in K as (n & f & o & k & -> & K1 & K2 & K3 & K5 & K4). cbn [fname]. assert (Ns : ~ sel here rb l [n]). { intro Ks. apply (sel_one here rb l (Dir n f o k)) in Ks; auto; cbn [fname ffacts] in *; congruence. }
      apply hidden_spec in K1. apply covered_spec in K2. rewrite bl_below in K4. apply IH in K4; [|apply (distinct_entered c l n f o k Hd Hx)|apply rb_below; exact Hr]. apply (hkd_cons here rb l n f o k (m :: q)); auto. discriminate.
    + intro H. pose proof H as [[_ (x & S)] _]. apply (sv_cons here rb l n (m :: q)) in S as (f & o & k & A & B & C & D & S); [|exact Hr|discriminate]. apply (hkd_cons here rb l n f o k (m :: q)) in H as [Ns H]; auto; [|discriminate]. exists (Dir n f o k). split; [exact A|]. rewrite app_rev. apply (starts_deep here (bl c rb) (Dir n f o k) m q). exists n, f, o, k. split; [reflexivity|]. split; [apply hidden_spec; exact B|]. split; [apply covered_spec; exact C|]. split; [exact D|]. split; [|rewrite bl_below; apply IH; [apply (distinct_entered c l n f o k Hd A)|apply rb_below; exact Hr|exact H]].
      destruct (saves c (bl c rb) (Dir n f o k) && hook c (rev (n :: here))) eqn:E; [|reflexivity]. exfalso. apply Ns. apply (sel_one here rb l (Dir n f o k)); auto; [apply hidden_spec; exact B|apply covered_spec; exact C|cbn; congruence].
Qed.

(** ** calm trees *)
Lemma quiet_of : forall x here l, In x l -> (forall q n f o k, met c here l q (Dir n f o k) -> wanted c (rev here ++ q) (Dir n f o k) /\ f_fail f <> Late) -> quiet c here x = true.
Proof.
  intro x. induction x as [n f|n f o k IH] using fnode_ind2; intros here l Hx H; cbn [quiet].
  - destruct (hidden c _); reflexivity.
  - destruct (hidden c _) eqn:E1; [reflexivity|]. apply hidden_spec in E1. destruct (H [n] n f o k) as [W F]; [apply met_one; auto|]. rewrite (proj2 (covered_spec c (n :: here) (Dir n f o k)) W). unfold late, failing. cbn [ffacts]. destruct (f_fail f) eqn:Ef; [|reflexivity|congruence]. cbn [andb negb]. destruct (goes_in c o k) eqn:Eg; [|reflexivity].
    apply forallb_forall. intros y Hy. rewrite Forall_forall in IH. apply (IH y Hy (n :: here) k Hy). intros q n' f' o' k' M. assert (Hq : q <> []) by (intros ->; exact (met_nil _ _ _ _ M)). rewrite <- app_rev. apply (H (n :: q)). apply met_cons; [exact Hq|]. exists f, o, k. unfold entered. rewrite Eg. auto.
Qed.
Definition calm_rel (here : rpath) (l : list fnode) : Prop := forall q n f o k, met c here l q (Dir n f o k) ->
  (~ wanted c (rev here ++ q) (Dir n f o k) -> forall d e, q = d ++ e -> d <> [] -> e <> [] -> hook c (rev here ++ d) = false) /\ (f_fail f = Late -> forall d e, q = d ++ e -> d <> [] -> hook c (rev here ++ d) = false).
Lemma good_of : forall x here b l, In x l -> calm_rel here l -> good c here b x = true.
Proof.
  intro x. induction x as [n f|n f o k IH] using fnode_ind2; intros here b l Hx H; cbn [good].
  - destruct (hidden c _); reflexivity.
  - destruct (hidden c _) eqn:E1; [reflexivity|]. apply hidden_spec in E1. destruct (covered c (n :: here) (Dir n f o k)) eqn:E2; [|reflexivity]. pose proof E2 as W. apply covered_spec in W. cbn [rev] in W.
    assert (M1 : met c here l [n] (Dir n f o k)) by (apply met_one; auto). unfold late, failing. cbn [ffacts]. destruct (f_fail f) eqn:Ef; [|reflexivity|].
    + cbn [andb negb]. destruct (goes_in c o k) eqn:Eg; [|reflexivity].
      assert (Down : forall q y, met c (n :: here) k q y -> met c here l (n :: q) y). { intros q y M. apply met_cons; [intros ->; exact (met_nil _ _ _ _ M)|]. exists f, o, k. unfold entered. rewrite Eg. auto. }
      destruct (saves c b (Dir n f o k) && hook c (rev (n :: here))) eqn:Eh.
      * apply andb_true_iff in Eh as [_ Eh]. cbn [rev] in Eh. apply forallb_forall. intros y Hy. apply (quiet_of y (n :: here) k Hy). intros q n' f' o' k' M. assert (Hq : q <> []) by (intros ->; exact (met_nil _ _ _ _ M)). destruct (H (n :: q) n' f' o' k' (Down _ _ M)) as [H1 H2]. rewrite <- app_rev. split.
        -- destruct (covered c (rev (rev here ++ n :: q)) (Dir n' f' o' k')) eqn:Ew; [apply covered_spec in Ew; rewrite rev_involutive in Ew; exact Ew|]. rewrite H1 with (d := [n]) (e := q) in Eh; [discriminate Eh| |reflexivity|discriminate|exact Hq]. intro K. rewrite <- (rev_involutive (rev here ++ n :: q)) in K. apply covered_spec in K. congruence.
        -- intro K. rewrite (H2 K [n] q) in Eh; [discriminate Eh|reflexivity|discriminate].
      * apply forallb_forall. intros y Hy. rewrite Forall_forall in IH. apply (IH y Hy (n :: here) (below_of b n) k Hy). intros q n' f' o' k' M. destruct (H (n :: q) n' f' o' k' (Down _ _ M)) as [H1 H2]. rewrite <- app_rev. split.
        -- intros K d e -> Hd He. rewrite <- app_rev. apply (H1 K (n :: d) e); [reflexivity|discriminate|exact He].
        -- intros K d e -> Hd. rewrite <- app_rev. apply (H2 K (n :: d) e); [reflexivity|discriminate].
    + destruct (H [n] n f o k M1) as [_ H2]. cbn [rev]. rewrite (H2 Ef [n] []); [reflexivity|reflexivity|discriminate].
Qed.
End Paths.
