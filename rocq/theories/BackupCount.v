(** * C49: the counts of errors and of entries left out *)
From Coq Require Import List Bool PeanoNat Lia.
From Verif Require Import Base BackupModel BackupSpec BackupProof BackupPaths.
Import ListNotations.
Open Scope N_scope.

Section Count.
Variable c : cfg.
Variable b : rpath -> fnode -> bool.
Definition through (here : rpath) (x : fnode) : bool := negb (hidden c x) && covered c (fname x :: here) x && negb (failing x).
Fixpoint counts (here : rpath) (x : fnode) : list (list name) :=
  (if b (fname x :: here) x then [rev (fname x :: here)] else []) ++
  match x with
  | Fil _ _ => []
  | Dir n f o l => if negb (hidden c x) && covered c (n :: here) x && negb (failing x) then if goes_in c o l then flat_map (counts (n :: here)) l else [] else []
  end.
Lemma counts_prefix : forall x here p, In p (counts here x) -> exists q, p = rev here ++ fname x :: q.
Proof.
  intro x. induction x as [n f|n f o l IH] using fnode_ind2; intros here p H; cbn [counts] in H; apply in_app_or in H as [H|H].
  - destruct (b _ _); [|destruct H]. destruct H as [<-|[]]. exists []. reflexivity.
  - destruct H.
  - destruct (b _ _); [|destruct H]. destruct H as [<-|[]]. exists []. reflexivity.
  - destruct (_ && _ && _); [|destruct H]. destruct (goes_in c o l); [|destruct H]. apply in_flat_map in H as (y & Hy & H). rewrite Forall_forall in IH. apply (IH y Hy) in H as (q & ->). exists (fname y :: q). cbn. rewrite <- app_assoc. reflexivity.
Qed.
Lemma NoDup_app2 : forall (A : Type) (l m : list A), NoDup l -> NoDup m -> (forall x, In x l -> ~ In x m) -> NoDup (l ++ m).
Proof.
  intros A l. induction l as [|x l IH]; intros m Hl Hm H; [exact Hm|]. cbn. inversion Hl as [|y ys Hn Hl' E]. subst. constructor.
  - intro K. apply in_app_or in K as [K|K]; [contradiction|apply (H x); [left; reflexivity|exact K]].
  - apply IH; auto. intros y Hy. apply H. right. exact Hy.
Qed.
Lemma flat_nodup : forall here l, NoDup (map fname l) -> (forall x, In x l -> NoDup (counts here x)) -> NoDup (flat_map (counts here) l).
Proof.
  intros here l. induction l as [|x l IH]; intros Nd H; [constructor|]. cbn in Nd. inversion Nd as [|z zs Nz Nd' E]. subst. cbn [flat_map]. apply NoDup_app2.
  - apply H. left. reflexivity.
  - apply IH; [exact Nd'|]. intros y Hy. apply H. right. exact Hy.
  - intros p Hp K. apply in_flat_map in K as (y & Hy & K). apply counts_prefix in Hp as (q & ->). apply counts_prefix in K as (q' & E). apply app_inv_head in E. injection E as E1 E2. apply Nz. rewrite E1. apply in_map. exact Hy.
Qed.
Lemma counts_nodup : forall x here, distinct [x] -> NoDup (counts here x).
Proof.
  intro x. induction x as [n f|n f o l IH] using fnode_ind2; intros here H; cbn [counts].
  - rewrite app_nil_r. destruct (b _ _); [constructor; [intros []|constructor]|constructor].
  - assert (Dl : distinct l) by (inversion H as [l0 Nd Hs E]; eapply Hs; left; reflexivity).
    apply NoDup_app2.
    + destruct (b _ _); [constructor; [intros []|constructor]|constructor].
    + destruct (_ && _ && _); [|constructor]. destruct (goes_in c o l); [|constructor]. inversion Dl as [l0 Nd Hs E]. subst. apply flat_nodup; [exact Nd|]. intros y Hy. rewrite Forall_forall in IH. apply IH; [exact Hy|].
      constructor; [cbn; constructor; [intros []|constructor]|]. intros n' f' o' k' [->|[]]. eapply Hs. exact Hy.
    + intros p Hp K. destruct (b _ _); [|destruct Hp]. destruct Hp as [<-|[]]. destruct (_ && _ && _); [|destruct K]. destruct (goes_in c o l); [|destruct K]. apply in_flat_map in K as (y & Hy & K). apply counts_prefix in K as (q & E). apply (f_equal (@length name)) in E. rewrite app_length in E. cbn in E. rewrite app_length in E. cbn in E. lia.
Qed.
Lemma list_nodup : forall l here, distinct l -> NoDup (flat_map (counts here) l).
Proof.
  intros l here H. inversion H as [l0 Nd Hs E]. subst. apply flat_nodup; [exact Nd|]. intros y Hy. apply counts_nodup. constructor; [cbn; constructor; [intros []|constructor]|]. intros n' f' o' k' [->|[]]. eapply Hs. exact Hy.
Qed.
Variable P : list name -> fnode -> Prop.
Hypothesis HP : forall p x, b p x = true <-> P (rev p) x.
Lemma through_spec : forall n f o l here, negb (hidden c (Dir n f o l)) && covered c (n :: here) (Dir n f o l) && negb (failing (Dir n f o l)) = true <-> readable c (Dir n f o l) /\ wanted c (rev here ++ [n]) (Dir n f o l) /\ f_fail f = No_failure.
Proof.
  intros. rewrite !andb_true_iff, !negb_true_iff, hidden_spec, failing_spec, covered_spec. cbn [rev ffacts]. tauto.
Qed.
Lemma counts_in : forall x here l p, In x l -> In p (counts here x) -> happens c P (rev here) l p.
Proof.
  intro x. induction x as [n f|n f o k IH] using fnode_ind2; intros here l p Hx H; cbn [counts] in H; apply in_app_or in H as [H|H].
  - destruct (b _ _) eqn:E; [|destruct H]. destruct H as [<-|[]]. apply HP in E. cbn [rev fname] in *. apply (happens_here c P (rev here) l (Fil n f)); assumption.
  - destruct H.
  - destruct (b _ _) eqn:E; [|destruct H]. destruct H as [<-|[]]. apply HP in E. cbn [rev fname] in *. apply (happens_here c P (rev here) l (Dir n f o k)); assumption.
  - destruct (negb _ && _ && _) eqn:T; [|destruct H]. apply through_spec in T as (T1 & T2 & T3). unfold goes_in in H. destruct o; cbn [andb] in H; [|destruct H]. destruct (cached c k) eqn:Ec; cbn [negb] in H; [destruct H|].
    apply in_flat_map in H as (y & Hy & H). rewrite Forall_forall in IH. eapply happens_below; try eassumption; [intro K; apply cached_spec in K; congruence|]. apply (IH y Hy (n :: here) k p Hy H).
Qed.
Lemma happens_in : forall here l p, happens c P here l p -> forall h, here = rev h -> In p (flat_map (counts h) l).
Proof.
  intros here l p H. induction H as [here l x Hi Hp|here l n f k p Hi Hr Hw Hf Hc Ho IH]; intros h Eh; subst here; apply in_flat_map.
  - exists x. split; [exact Hi|]. assert (Hb : b (fname x :: h) x = true) by (apply HP; exact Hp). destruct x; cbn [counts fname] in *; rewrite Hb; apply in_or_app; left; left; reflexivity.
  - exists (Dir n f true k). split; [exact Hi|]. cbn [counts]. apply in_or_app. right. replace (negb (hidden c _) && _ && _) with true by (symmetry; apply through_spec; auto). unfold goes_in. destruct (cached c k) eqn:Ec; [apply cached_spec in Ec; contradiction|]. cbn. apply IH. reflexivity.
Qed.
Theorem counted : forall root, distinct root -> all_where c P root (flat_map (counts []) (etage c root)).
Proof.
  intros root H. split; [apply list_nodup, distinct_etage, H|]. intro p. rewrite etage_eq. destruct (cached c root) eqn:Ec.
  - apply cached_spec in Ec. split; [intros []|intros [K _]; contradiction].
  - split; [intro K; split; [intro Q; apply cached_spec in Q; congruence|]|intros [_ K]; apply (happens_in [] root p K []); reflexivity]. apply in_flat_map in K as (x & Hx & K). apply (counts_in x [] root p Hx K).
Qed.
End Count.

Section Both.
Variable c : cfg.
Definition berr (p : rpath) (x : fnode) : bool :=
  if nodump_check c && f_nodump (ffacts x) then false else if f_unknown (ffacts x) then false else if f_unread (ffacts x) then true else if f_gone (ffacts x) then false else covered c p x && failing x.
Definition bign (p : rpath) (x : fnode) : bool :=
  if nodump_check c && f_nodump (ffacts x) then true else negb (hidden c x) && negb (covered c p x).
Lemma berr_spec : forall p x, berr p x = true <-> in_error c (rev p) x.
Proof.
  intros p x. unfold berr, in_error, bad_inode. rewrite <- hidden_spec, <- covered_spec. unfold hidden. pose proof (failing_spec x) as F. assert (G : failing x = true <-> f_fail (ffacts x) <> No_failure) by (rewrite <- F; destruct (failing x); split; congruence). rewrite <- G. clear F G.
  destruct (nodump_check c), (f_nodump (ffacts x)), (f_unknown (ffacts x)), (f_unread (ffacts x)), (f_gone (ffacts x)), (covered c p x), (failing x); cbn; intuition (try congruence; try discriminate).
Qed.
Lemma bign_spec : forall p x, bign p x = true <-> left_out c (rev p) x.
Proof.
  intros p x. unfold bign, left_out. rewrite <- hidden_spec, <- covered_spec.
  unfold hidden. destruct (nodump_check c), (f_nodump (ffacts x)), (f_unknown (ffacts x)), (f_unread (ffacts x)), (f_gone (ffacts x)), (covered c p x); cbn; intuition (try congruence; try discriminate).
Qed.
Lemma sum_length : forall b (g : fnode -> N) here l, (forall x, In x l -> N.of_nat (length (counts c b here x)) = g x) -> N.of_nat (length (flat_map (counts c b here) l)) = fold_left (fun e y => e + g y) l 0.
Proof.
  intros b g here l. induction l as [|x l IH]; intro H; [reflexivity|]. cbn [flat_map fold_left]. rewrite app_length, Nat2N.inj_add, fold_add, IH by (intros y Hy; apply H; right; exact Hy). rewrite (H x) by (left; reflexivity). lia.
Qed.
Lemma errs_length : forall x here, N.of_nat (length (counts c berr here x)) = errs c here x.
Proof.
  intro x. induction x as [n f|n f o l IH] using fnode_ind2; intro here; cbn [counts errs]; rewrite app_length; unfold berr at 1; cbn [ffacts fname]; unfold hidden.
  - cbn [length]. destruct (nodump_check c && f_nodump f), (f_unknown f), (f_unread f), (f_gone f); try reflexivity. destruct (covered c (n :: here) (Fil n f)), (failing (Fil n f)); reflexivity.
  - cbn [ffacts]. rewrite Forall_forall in IH. assert (S : N.of_nat (length (flat_map (counts c berr (n :: here)) l)) = fold_left (fun e y => e + errs c (n :: here) y) l 0) by (apply sum_length; intros x Hx; apply IH; exact Hx).
    destruct (nodump_check c && f_nodump f), (f_unknown f), (f_unread f), (f_gone f); try reflexivity. destruct (covered c (n :: here) (Dir n f o l)), (failing (Dir n f o l)), (goes_in c o l); cbn [negb orb andb length Nat.add]; try reflexivity. exact S.
Qed.
Lemma igns_length : forall x here, N.of_nat (length (counts c bign here x)) = igns c here x.
Proof.
  intro x. induction x as [n f|n f o l IH] using fnode_ind2; intro here; cbn [counts igns]; rewrite app_length; unfold bign at 1; cbn [ffacts fname]; unfold hidden; cbn [ffacts].
  - destruct (nodump_check c && f_nodump f), (f_unknown f), (f_unread f), (f_gone f); try reflexivity. destruct (covered c (n :: here) (Fil n f)), (failing (Fil n f)); reflexivity.
  - rewrite Forall_forall in IH. assert (S : N.of_nat (length (flat_map (counts c bign (n :: here)) l)) = fold_left (fun e y => e + igns c (n :: here) y) l 0) by (apply sum_length; intros x Hx; apply IH; exact Hx).
    destruct (nodump_check c && f_nodump f), (f_unknown f), (f_unread f), (f_gone f); try reflexivity. destruct (covered c (n :: here) (Dir n f o l)), (failing (Dir n f o l)), (goes_in c o l); cbn [negb orb andb length Nat.add]; try reflexivity. exact S.
Qed.
End Both.
