(** * C50: the hooks *)
From Coq Require Import List Bool PeanoNat Lia.
From Verif Require Import Base BackupModel BackupSpec BackupProof BackupPaths BackupCount HookSpec.
Import ListNotations.
Open Scope N_scope.

Section Hooks.
Variable c : cfg.
Definition plain (x : fnode) : bool := negb (is_dir x) && (f_kind (ffacts x) =? 0).
Definition saves (b : option (list rnode)) (x : fnode) : bool := changed c (f_id (ffacts x)) (against_of b x).
Definition late (x : fnode) : bool := match f_fail (ffacts x) with Late => true | _ => false end.
Fixpoint datas (here : rpath) (b : option (list rnode)) (x : fnode) : list rpath :=
  if hidden c x then []
  else if covered c (fname x :: here) x then
    match f_fail (ffacts x) with
    | Early => []
    | fl => (if saves b x && plain x then [fname x :: here] else []) ++
      match fl, x with
      | No_failure, Dir n _ o l => if goes_in c o l then flat_map (datas (n :: here) (below_of b n)) l else []
      | _, _ => []
      end
    end
  else [].
Fixpoint logs (here : rpath) (b : option (list rnode)) (x : fnode) : list ev :=
  if hidden c x then []
  else if covered c (fname x :: here) x then
    match f_fail (ffacts x) with
    | Early => []
    | fl =>
      if saves b x && hook c (rev (fname x :: here)) then Hook_start (fname x :: here) :: map Data (datas here b x) ++ [Hook_end (fname x :: here)]
      else (if saves b x && plain x then [Data (fname x :: here)] else []) ++
      match fl, x with
      | No_failure, Dir n _ o l => if goes_in c o l then flat_map (logs (n :: here) (below_of b n)) l else []
      | _, _ => []
      end
    end
  else [].
(** no directory below is left out or fails late *)
Fixpoint quiet (here : rpath) (x : fnode) : bool :=
  if hidden c x then true
  else match x with
  | Fil _ _ => true
  | Dir n f o l => covered c (n :: here) x && negb (late x) && (if failing x then true else if goes_in c o l then forallb (quiet (n :: here)) l else true)
  end.
Fixpoint good (here : rpath) (b : option (list rnode)) (x : fnode) : bool :=
  if hidden c x then true
  else match x with
  | Fil _ _ => true
  | Dir n f o l => if covered c (n :: here) x then negb (late x && hook c (rev (n :: here))) && (if failing x then true else if goes_in c o l then if saves b x && hook c (rev (n :: here)) then forallb (quiet (n :: here)) l else forallb (good (n :: here) (below_of b n)) l else true) else true
  end.

Lemma raise_in : forall p d s, (2 <= count s)%nat -> raise_ c p (Some true) d s = Sem (S (count s)) (chem s) (log s) /\ raise_ c p (Some false) d s = s /\ raise_ c p None d s = Sem (pred (count s)) (chem s) (log s).
Proof. intros p d s H. unfold raise_. destruct (Nat.ltb_spec 1 (count s)); [auto|lia]. Qed.
Lemma lower_in : forall s, (2 <= count s)%nat -> lower s = s.
Proof. intros s H. unfold lower. destruct (Nat.eqb_spec (count s) 1); [lia|reflexivity]. Qed.
Lemma sem_eta : forall s, Sem (count s) (chem s) (log s) = s.
Proof. intros []. reflexivity. Qed.
Lemma save_in_file : forall p x b s, is_dir x = false -> (2 <= count s)%nat -> save_ c p x b s = Sem (count s) (chem s) (log s ++ map Data (if b && plain x then [p] else [])).
Proof.
  intros p x b s Hd H. unfold save_, plain. rewrite Hd. destruct (raise_in p b s H) as (_ & E & _). destruct b; cbn [andb]; [|rewrite E; cbn; rewrite ?app_nil_r, sem_eta; reflexivity]. rewrite E. destruct (negb false && (f_kind (ffacts x) =? 0)); [rewrite lower_in by exact H; reflexivity|rewrite lower_in by exact H; cbn; rewrite app_nil_r, sem_eta; reflexivity].
Qed.
Lemma save_in_dir : forall p x b s, is_dir x = true -> (2 <= count s)%nat -> save_ c p x b s = Sem (S (count s)) (chem s) (log s).
Proof.
  intros p x b s Hd H. unfold save_. rewrite Hd. destruct (raise_in p b s H) as (E & _). destruct b; rewrite E; [|reflexivity]. cbn [negb andb]. apply lower_in. cbn. lia.
Qed.
Lemma inside_list : forall here b l s, (forall x s, In x l -> (2 <= count s)%nat -> quiet here x = true -> hooks c here b s x = Sem (count s) (chem s) (log s ++ map Data (datas here b x))) -> (2 <= count s)%nat -> forallb (quiet here) l = true -> fold_left (hooks c here b) l s = Sem (count s) (chem s) (log s ++ map Data (flat_map (datas here b) l)).
Proof.
  intros here b l. induction l as [|x l IH]; intros s H Hs Hq; [cbn; rewrite ?app_nil_r, sem_eta; reflexivity|]. cbn in Hq. apply andb_true_iff in Hq as [Q1 Q2]. cbn [fold_left flat_map]. rewrite (H x s) by (auto; left; reflexivity). rewrite IH; [|intros y t Hy; apply H; right; exact Hy|exact Hs|exact Q2]. cbn [count chem log]. rewrite map_app, app_assoc. reflexivity.
Qed.
Lemma inside : forall x here b s, (2 <= count s)%nat -> quiet here x = true -> hooks c here b s x = Sem (count s) (chem s) (log s ++ map Data (datas here b x)).
Proof.
  intro x. induction x as [n f|n f o l IH] using fnode_ind2; intros here b s H Hq.
  - cbn [hooks datas fname ffacts]. destruct (hidden c _); [cbn; rewrite ?app_nil_r, sem_eta; reflexivity|]. destruct (covered c _ _).
    + fold (saves b (Fil n f)). destruct (f_fail f); rewrite ?app_nil_r.
      * change (changed c (f_id f) (against_of b (Fil n f))) with (saves b (Fil n f)). apply save_in_file; [reflexivity|exact H].
      * cbn. rewrite ?app_nil_r, sem_eta. reflexivity.
      * change (changed c (f_id f) (against_of b (Fil n f))) with (saves b (Fil n f)). apply save_in_file; [reflexivity|exact H].
    + cbn [is_dir]. destruct (raise_in (n :: here) false s H) as (_ & E & _). rewrite E. cbn. rewrite ?app_nil_r, sem_eta. reflexivity.
  - cbn [hooks datas quiet fname ffacts] in *. destruct (hidden c _); [cbn; rewrite ?app_nil_r, sem_eta; reflexivity|]. apply andb_true_iff in Hq as [Hq Hr]. apply andb_true_iff in Hq as [Hc Hl]. rewrite Hc. unfold late, failing in Hl, Hr. cbn [ffacts] in Hl, Hr.
    destruct (f_fail f); [|cbn; rewrite ?app_nil_r, sem_eta; reflexivity|discriminate Hl].
    rewrite save_in_dir by (auto; reflexivity). unfold plain at 1. cbn [is_dir negb andb]. rewrite andb_false_r. cbn [app].
    assert (E : (if goes_in c o l then fold_left (hooks c (n :: here) (below_of b n)) l (Sem (S (count s)) (chem s) (log s)) else Sem (S (count s)) (chem s) (log s)) = Sem (S (count s)) (chem s) (log s ++ map Data (if goes_in c o l then flat_map (datas (n :: here) (below_of b n)) l else []))).
    { destruct (goes_in c o l); [|cbn; rewrite app_nil_r; reflexivity]. rewrite (inside_list (n :: here) (below_of b n) l); [reflexivity| |cbn; lia|exact Hr]. intros x t Hx. rewrite Forall_forall in IH. apply IH. exact Hx. }
    rewrite E. destruct (raise_in (n :: here) true (Sem (S (count s)) (chem s) (log s ++ map Data (if goes_in c o l then flat_map (datas (n :: here) (below_of b n)) l else [])))) as (_ & _ & E2); [cbn; lia|]. rewrite E2. cbn [count chem log pred]. apply lower_in. exact H.
Qed.

Lemma outside_list : forall here b l s, (forall x s, In x l -> count s = 0%nat -> good here b x = true -> exists ch, hooks c here b s x = Sem 0 ch (log s ++ logs here b x)) -> count s = 0%nat -> forallb (good here b) l = true -> exists ch, fold_left (hooks c here b) l s = Sem 0 ch (log s ++ flat_map (logs here b) l).
Proof.
  intros here b l. induction l as [|x l IH]; intros s H Hs Hq; [exists (chem s); cbn; rewrite app_nil_r, <- Hs, sem_eta; reflexivity|]. cbn in Hq. apply andb_true_iff in Hq as [Q1 Q2]. cbn [fold_left flat_map]. destruct (H x s) as [ch E]; [left; reflexivity|exact Hs|exact Q1|]. rewrite E. destruct (IH (Sem 0 ch (log s ++ logs here b x))) as [ch' E']; [intros y t Hy; apply H; right; exact Hy|reflexivity|exact Q2|]. exists ch'. rewrite E'. cbn [log]. rewrite app_assoc. reflexivity.
Qed.
Lemma raise_out : forall p w d s, count s = 0%nat -> raise_ c p w d s = match w with None => s | Some t => if d && hook c (rev p) then Sem (if t then 2%nat else 1%nat) p (log s ++ [Hook_start p]) else s end.
Proof. intros p w d s H. unfold raise_. rewrite H. reflexivity. Qed.
Lemma lower_out : forall s, count s = 0%nat -> lower s = s.
Proof. intros s H. unfold lower. rewrite H. reflexivity. Qed.
Lemma save_out_file : forall p x b s, is_dir x = false -> count s = 0%nat -> exists ch, save_ c p x b s = Sem 0 ch (log s ++ if b && hook c (rev p) then Hook_start p :: map Data (if b && plain x then [p] else []) ++ [Hook_end p] else if b && plain x then [Data p] else []).
Proof.
  intros p x b s Hd H. unfold save_, plain. rewrite Hd. destruct b; cbn [andb negb]; [|exists (chem s); rewrite raise_out by exact H; cbn [andb]; rewrite app_nil_r, <- H, sem_eta; reflexivity].
  rewrite raise_out by exact H. cbn [andb]. destruct (hook c (rev p)).
  - exists p. destruct (f_kind (ffacts x) =? 0); unfold lower, copied; cbn; rewrite <- !app_assoc; reflexivity.
  - exists (chem s). destruct (f_kind (ffacts x) =? 0); unfold lower, copied; cbn; rewrite H; cbn; rewrite ?app_nil_r; try reflexivity. rewrite <- H. symmetry. apply sem_eta.
Qed.
Lemma save_out_dir : forall p x b s, is_dir x = true -> count s = 0%nat -> save_ c p x b s = if b && hook c (rev p) then Sem 2 p (log s ++ [Hook_start p]) else s.
Proof.
  intros p x b s Hd H. unfold save_. rewrite Hd. destruct b; rewrite raise_out by exact H; cbn [andb negb]; [|reflexivity]. destruct (hook c (rev p)); [reflexivity|apply lower_out; exact H].
Qed.
Lemma outside : forall x here b s, count s = 0%nat -> good here b x = true -> exists ch, hooks c here b s x = Sem 0 ch (log s ++ logs here b x).
Proof.
  intro x. induction x as [n f|n f o l IH] using fnode_ind2; intros here b s H Hq.
  - assert (E0 : exists ch, s = Sem 0 ch (log s ++ [])) by (exists (chem s); rewrite app_nil_r, <- H, sem_eta; reflexivity).
    cbn [hooks logs datas fname ffacts]. destruct (hidden c (Fil n f)); [exact E0|]. destruct (covered c (n :: here) (Fil n f)).
    + change (changed c (f_id f) (against_of b (Fil n f))) with (saves b (Fil n f)). destruct (f_fail f); [rewrite ?app_nil_r|exact E0|rewrite ?app_nil_r]; apply (save_out_file (n :: here) (Fil n f) (saves b (Fil n f)) s eq_refl H).
    + cbn [is_dir]. rewrite raise_out by exact H. exact E0.
  - assert (E0 : exists ch, s = Sem 0 ch (log s ++ [])) by (exists (chem s); rewrite app_nil_r, <- H, sem_eta; reflexivity).
    cbn [hooks logs datas good fname ffacts] in *. destruct (hidden c (Dir n f o l)); [exact E0|]. destruct (covered c (n :: here) (Dir n f o l)) eqn:Ec; [|cbn [is_dir]; rewrite raise_out by exact H; exact E0].
    change (changed c (f_id f) (against_of b (Dir n f o l))) with (saves b (Dir n f o l)). set (sv := saves b (Dir n f o l)) in *. apply andb_true_iff in Hq as [Hl Hr]. unfold late, failing in Hl, Hr. cbn [ffacts] in Hl, Hr. unfold plain. cbn [is_dir negb andb]. rewrite andb_false_r. cbn [app]. destruct (f_fail f).
    + rewrite save_out_dir by (auto; reflexivity). destruct (sv && hook c (rev (n :: here))).
      * exists (n :: here). assert (E : (if goes_in c o l then fold_left (hooks c (n :: here) (below_of b n)) l (Sem 2 (n :: here) (log s ++ [Hook_start (n :: here)])) else Sem 2 (n :: here) (log s ++ [Hook_start (n :: here)])) = Sem 2 (n :: here) ((log s ++ [Hook_start (n :: here)]) ++ map Data (if goes_in c o l then flat_map (datas (n :: here) (below_of b n)) l else []))).
        { destruct (goes_in c o l); [|cbn; rewrite app_nil_r; reflexivity]. apply (inside_list (n :: here) (below_of b n) l); [|cbn; lia|exact Hr]. intros x t _. apply inside. }
        rewrite E. unfold raise_, lower. cbn [count Nat.ltb Nat.leb chem log pred Nat.eqb]. rewrite <- !app_assoc. reflexivity.
      * destruct (goes_in c o l).
        -- destruct (outside_list (n :: here) (below_of b n) l s) as [ch E]; [|exact H|exact Hr|]. { intros x t Hx. rewrite Forall_forall in IH. apply IH. exact Hx. }
           rewrite E. rewrite raise_out by reflexivity. exists ch. apply lower_out. reflexivity.
        -- rewrite raise_out by exact H. rewrite lower_out by exact H. exact E0.
    + exact E0.
    + rewrite save_out_dir by (auto; reflexivity). cbn [andb] in Hl. apply negb_true_iff in Hl. rewrite Hl, andb_false_r. exact E0.
Qed.
Theorem whole : forall b l, forallb (good [] b) l = true -> exists ch, fold_left (hooks c [] b) l (Sem 0 [] []) = Sem 0 ch (flat_map (logs [] b) l).
Proof. intros b l H. apply (outside_list [] b l (Sem 0 [] [])); [|reflexivity|exact H]. intros x s _. apply outside. Qed.
End Hooks.
