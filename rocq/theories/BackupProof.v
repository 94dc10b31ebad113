From Coq Require Import List Bool PeanoNat Lia.
From Verif Require Import Base BackupModel BackupSpec.
Import ListNotations.
Open Scope N_scope.

Lemma same_name_spec : forall a b, reflect (a = b) (same_name a b).
Proof. intros. unfold same_name. destruct (list_eq_dec N.eq_dec a b); constructor; assumption. Qed.
Lemma same_name_refl : forall a, same_name a a = true.
Proof. intro. destruct (same_name_spec a a); congruence. Qed.
Section Ind.
Variable P : fnode -> Prop.
Hypothesis H1 : forall n f, P (Fil n f).
Hypothesis H2 : forall n f o l, Forall P l -> P (Dir n f o l).
Fixpoint fnode_ind2 (x : fnode) : P x :=
  match x with Fil n f => H1 n f | Dir n f o l => H2 n f o l ((fix go l : Forall P l := match l with [] => Forall_nil P | y :: r => Forall_cons y (fnode_ind2 y) (go r) end) l) end.
End Ind.

Section Proof.
Variable c : cfg.
(** ** what the loop computes, by recursion on the tree *)
Definition hidden (x : fnode) : bool := (nodump_check c && f_nodump (ffacts x)) || f_unknown (ffacts x) || f_unread (ffacts x) || f_gone (ffacts x).
Definition cached (l : list fnode) : bool := cache_tagging c && existsb is_tag l.
Definition goes_in (o : bool) (l : list fnode) : bool := o && negb (cached l).
Lemma etage_eq : forall l, etage c l = if cached l then [] else l.
Proof.
  intro l. unfold etage, cached. assert (G : readdir (cache_tagging c) l = if cache_tagging c && existsb is_tag l then (fst (readdir (cache_tagging c) l), true) else (l, false)).
  { induction l as [|x l IH]; cbn; [rewrite andb_false_r; reflexivity|]. rewrite andb_orb_distrib_r. destruct (cache_tagging c && is_tag x); [reflexivity|]. cbn [orb]. rewrite IH. destruct (cache_tagging c && existsb is_tag l); reflexivity. }
  rewrite G. destruct (cache_tagging c && existsb is_tag l); reflexivity.
Qed.
Lemma enter_eq : forall o l, enter c o l = if goes_in o l then l else [].
Proof. intros. unfold enter, goes_in. rewrite etage_eq. destruct o, (cached l); reflexivity. Qed.
Definition against_of (below : option (list rnode)) (x : fnode) : option N :=
  match below with Some l => match rsearch (fname x) l with Some r => same_as x r | None => None end | None => None end.
Definition below_of (below : option (list rnode)) (n : name) : option (list rnode) :=
  match below with Some l => match rsearch n l with Some (RDir _ _ k) => Some k | _ => None end | None => None end.
Definition failing (x : fnode) : bool := match f_fail (ffacts x) with No_failure => false | _ => true end.
Fixpoint want (here : rpath) (below : option (list rnode)) (x : fnode) : list cent :=
  if hidden x then []
  else if covered c (fname x :: here) x then
    if failing x then [CIgn (fname x)]
    else match x with
    | Fil n f => [CFil n (f_id f) (against_of below x)]
    | Dir n f o l => [CDir n (f_id f) (against_of below x) (if goes_in o l then flat_map (want (n :: here) (below_of below n)) l else [])]
    end
  else [if is_dir x && empty_dir c then CIgd (fname x) (f_id (ffacts x)) else CIgn (fname x)].
Fixpoint errs (here : rpath) (x : fnode) : N :=
  if nodump_check c && f_nodump (ffacts x) then 0 else if f_unknown (ffacts x) then 0 else if f_unread (ffacts x) then 1 else if f_gone (ffacts x) then 0
  else if covered c (fname x :: here) x then
    if failing x then 1
    else match x with Fil _ _ => 0 | Dir n f o l => if goes_in o l then fold_left (fun e y => e + errs (n :: here) y) l 0 else 0 end
  else 0.
Fixpoint igns (here : rpath) (x : fnode) : N :=
  if nodump_check c && f_nodump (ffacts x) then 1 else if f_unknown (ffacts x) then 0 else if f_unread (ffacts x) then 0 else if f_gone (ffacts x) then 0
  else if covered c (fname x :: here) x then
    if failing x then 0
    else match x with Fil _ _ => 0 | Dir n f o l => if goes_in o l then fold_left (fun e y => e + igns (n :: here) y) l 0 else 0 end
  else 1.
Definition save_ (p : rpath) (x : fnode) (to_save : bool) (s : sem) : sem :=
  if to_save then let s := raise_ c p (Some (is_dir x)) true s in lower (if negb (is_dir x) && (f_kind (ffacts x) =? 0) then copied p s else s)
  else raise_ c p (Some (is_dir x)) false s.
Fixpoint hooks (here : rpath) (below : option (list rnode)) (s : sem) (x : fnode) : sem :=
  if hidden x then s
  else let p := fname x :: here in
  if covered c p x then
    match f_fail (ffacts x) with
    | Early => s
    | fl =>
      let s1 := save_ p x (changed c (f_id (ffacts x)) (against_of below x)) s in
      match fl, x with
      | No_failure, Dir n _ o l => lower (raise_ c p None true (if goes_in o l then fold_left (hooks p (below_of below n)) l s1 else s1))
      | _, _ => s1
      end
    end
  else raise_ c p (Some (is_dir x)) false s.

(** ** steps *)
Definition run (s s' : st) : Prop := exists k, forall n, loop (k + n) c s = loop n c s'.
Lemma run_refl : forall s, run s s.
Proof. intro s. exists O. reflexivity. Qed.
Lemma run_trans : forall a b d, run a b -> run b d -> run a d.
Proof. intros a b d [k H] [m K]. exists (k + m)%nat. intro n. rewrite <- Nat.add_assoc, H, K. reflexivity. Qed.
Lemma run_step : forall s s', step c s = Ok (inl s') -> run s s'.
Proof. intros s s' H. exists 1%nat. intro n. cbn [loop Nat.add]. rewrite H. reflexivity. Qed.

Lemma raise_ok : forall p w d s, count s <> 1%nat -> raise c p w d s = Ok (raise_ c p w d s).
Proof. intros p w d s H. unfold raise. destruct (Nat.eqb_spec (count s) 1); [contradiction|reflexivity]. Qed.
Lemma lower_count : forall s, count (lower s) <> 1%nat.
Proof. intro s. unfold lower. destruct (Nat.eqb_spec (count s) 1); [discriminate|assumption]. Qed.
Lemma raise_false_count : forall p d s, count s <> 1%nat -> count (raise_ c p (Some d) false s) <> 1%nat.
Proof. intros p d s H. unfold raise_. destruct (Nat.ltb_spec 1 (count s)); destruct d; cbn; lia. Qed.
Lemma save_ok : forall p x b s, count s <> 1%nat -> save_inode c p x b s = Ok (save_ p x b s).
Proof. intros p x b s H. unfold save_inode, save_. destruct b; rewrite raise_ok by assumption; reflexivity. Qed.
Lemma save_count : forall p x b s, count s <> 1%nat -> count (save_ p x b s) <> 1%nat.
Proof. intros p x b s H. unfold save_. destruct b; [apply lower_count|apply raise_false_count; exact H]. Qed.
Lemma hooks_count : forall x here below s, count s <> 1%nat -> count (hooks here below s x) <> 1%nat.
Proof.
  intro x. induction x as [n f|n f o l IH] using fnode_ind2; intros here below s H; cbn [hooks ffacts]; destruct (hidden _); auto; destruct (covered c _ _); try (apply raise_false_count; exact H).
  - destruct (f_fail f); auto; apply save_count; exact H.
  - destruct (f_fail f); [apply lower_count|exact H|apply save_count; exact H].
Qed.
Lemma hooks_list_count : forall l here below s, count s <> 1%nat -> count (fold_left (hooks here below) l s) <> 1%nat.
Proof. intro l. induction l as [|x l IH]; intros here below s H; [exact H|]. cbn. apply IH, hooks_count, H. Qed.

(** the comparison *)
Definition rep (cm : list (list rnode)) (ot : list name) (below : option (list rnode)) : Prop :=
  if by_date c then below = None else match below with Some l => ot = [] /\ exists r, cm = l :: r | None => ot <> [] end.
Definition cmp_entry (x : fnode) (cm : list (list rnode)) (ot : list name) := if by_date c then Ok (None, cm, ot) else compare x cm ot.
Definition cmp_eod (cm : list (list rnode)) (ot : list name) := if by_date c then Ok (cm, ot) else compare_eod cm ot.
Lemma cmp_file : forall x cm ot below, is_dir x = false -> rep cm ot below -> cmp_entry x cm ot = Ok (against_of below x, cm, ot).
Proof.
  intros x cm ot below Hd H. unfold rep, cmp_entry in *. destruct (by_date c); [subst; reflexivity|]. unfold compare, against_of. rewrite Hd. destruct below as [l|].
  - destruct H as [-> [r ->]]. destruct (rsearch (fname x) l) as [y|]; reflexivity.
  - destruct ot; [congruence|reflexivity].
Qed.
Lemma cmp_dir : forall n f o k cm ot below, rep cm ot below -> exists cm' ot', cmp_entry (Dir n f o k) cm ot = Ok (against_of below (Dir n f o k), cm', ot') /\ rep cm' ot' (below_of below n) /\ cmp_eod cm' ot' = Ok (cm, ot).
Proof.
  intros n f o k cm ot below H. unfold rep, cmp_entry, cmp_eod in *. destruct (by_date c); [subst; exists cm, ot; repeat split; reflexivity|]. unfold compare, against_of, below_of. cbn [is_dir fname]. destruct below as [l|].
  - destruct H as [-> [r ->]]. destruct (rsearch n l) as [[m kd i|m i k'|m]|].
    + exists (l :: r), [n]. repeat split. discriminate.
    + exists (k' :: l :: r), []. repeat split. exists (l :: r). reflexivity.
    + exists (l :: r), [n]. repeat split. discriminate.
    + exists (l :: r), [n]. repeat split. discriminate.
  - destruct ot as [|a ot]; [congruence|]. exists cm, (n :: a :: ot). repeat split. discriminate.
Qed.

(** additions to the catalogue *)
Lemma csearch_none : forall n l, ~ In n (map cname l) -> csearch n l = None.
Proof. intros n l. induction l as [|x l IH]; intro H; [reflexivity|]. cbn in *. destruct (same_name_spec n (cname x)); [subst; tauto|apply IH; tauto]. Qed.
Lemma add_new : forall x l, ~ In (cname x) (map cname l) -> add_children x l = Ok (l ++ [x]).
Proof. intros x l H. unfold add_children. rewrite csearch_none by exact H. reflexivity. Qed.
Lemma add_entry_new : forall x f r, ~ In (cname x) (map cname (fr_kids f)) -> add_entry x (f :: r) = Ok (Frame (fr_n f) (fr_id f) (fr_against f) (fr_kids f ++ [x]) :: r).
Proof. intros x f r H. unfold add_entry. rewrite add_new by exact H. reflexivity. Qed.

Definition inside (here : rpath) (ch : rpath) (ini : bool) : Prop := if ini then ch = here else exists m, ch = m :: here.
Lemma enfile_entry : forall here ch ini n d, inside here ch ini -> enfile (Some (n, d)) ch ini = Ok (n :: here, d).
Proof. intros here ch ini n d H. unfold enfile. destruct ini; [rewrite H; reflexivity|]. destruct H as [m ->]. reflexivity. Qed.
Lemma enfile_eod : forall here ch ini, inside here ch ini -> enfile None ch ini = Ok (here, false).
Proof. intros here ch ini H. unfold enfile. destruct ini; [rewrite H; reflexivity|]. destruct H as [m ->]. reflexivity. Qed.

Definition err_all (here : rpath) (l : list fnode) (e : N) : N := fold_left (fun e y => e + errs here y) l e.
Definition ign_all (here : rpath) (l : list fnode) (e : N) : N := fold_left (fun e y => e + igns here y) l e.
Lemma fold_add : forall (g : fnode -> N) l e, fold_left (fun e y => e + g y) l e = e + fold_left (fun e y => e + g y) l 0.
Proof. intros g l. induction l as [|x l IH]; intro e; cbn; [rewrite N.add_0_r; reflexivity|]. rewrite IH, (IH (g x)). lia. Qed.

(** the state in the middle of a directory *)
Record at_dir (here : rpath) (below : option (list rnode)) (l : list fnode) (rest : list (list fnode)) (n : name) (i : N) (a : option N) (kids : list cent) (fr : list frame) (cm : list (list rnode)) (ot : list name) (sm_ : sem) (e g : N) (s : st) : Prop := AtDir {
  ad_pile : pile s = l :: rest; ad_in : inside here (chemin s) (init s); ad_cat : cat s = Frame n i a kids :: fr; ad_cmp : cmp s = cm; ad_out : out s = ot; ad_rep : rep cm ot below; ad_sm : sm s = sm_;
  ad_err : errored s + pending_err s = e; ad_ign : ignored s + pending_skip s = g }.
Lemma want_names : forall here below x y, In y (want here below x) -> cname y = fname x.
Proof.
  intros here below x y H. destruct x as [n f|n f o l]; cbn [want fname] in H; destruct (hidden _); try contradiction; destruct (covered c _ _).
  - destruct (failing _); destruct H as [<-|[]]; reflexivity.
  - destruct H as [<-|[]]. reflexivity.
  - destruct (failing _); destruct H as [<-|[]]; reflexivity.
  - destruct H as [<-|[]]. cbn. destruct (empty_dir c); reflexivity.
Qed.
Lemma hidden_read : forall x e k, hidden x = match read_entry c x e k with Some _ => true | None => false end.
Proof. intros. unfold hidden, read_entry. destruct (nodump_check c && f_nodump (ffacts x)), (f_unknown (ffacts x)), (f_unread (ffacts x)), (f_gone (ffacts x)); reflexivity. Qed.

Definition entry_ok (y : fnode) : Prop := forall here below l rest n i a kids fr cm ot sm_ e g s, at_dir here below (y :: l) rest n i a kids fr cm ot sm_ e g s -> distinct [y] -> ~ In (fname y) (map cname kids) -> count sm_ <> 1%nat ->
  exists s', run s s' /\ at_dir here below l rest n i a (kids ++ want here below y) fr cm ot (hooks here below sm_ y) (e + errs here y) (g + igns here y) s' /\ (hidden y = false -> pending_err s' = 0 /\ pending_skip s' = 0).
Lemma run_list_with : forall k', Forall entry_ok k' -> forall here' bl kd s1 e1 g1 sm2, distinct k' -> (forall m, In m (map fname k') -> ~ In m (map cname kd)) -> count sm2 <> 1%nat -> forall cm ot rest n i a fr, at_dir here' bl k' rest n i a kd fr cm ot sm2 e1 g1 s1 ->
  exists s2, run s1 s2 /\ at_dir here' bl [] rest n i a (kd ++ flat_map (want here' bl) k') fr cm ot (fold_left (hooks here' bl) k' sm2) (err_all here' k' e1) (ign_all here' k' g1) s2 /\
    (forall l x, k' = l ++ [x] -> hidden x = false -> pending_err s2 = 0 /\ pending_skip s2 = 0) /\ (k' = [] -> s2 = s1).
Proof.
  intros k' Hf. induction Hf as [|y k' Hy Hf IHk]; intros here' bl kd s1 e1 g1 sm2 Hd Hn Hc cm ot rest n i a fr Ha.
  - exists s1. split; [apply run_refl|]. split; [cbn; rewrite app_nil_r; exact Ha|]. split; [intros l x E; destruct l; discriminate E|reflexivity].
  - inversion Hd as [l Nd Hsub E2]. subst. cbn in Nd. inversion Nd as [|z zs Nz Nd' E3]. subst.
    destruct (Hy here' bl k' rest n i a kd fr cm ot sm2 e1 g1 s1 Ha) as (s2 & R2 & A2 & Z2).
    { constructor; [cbn; constructor; [intros []|constructor]|]. intros nn ff oo kk [Hin|[]]. subst y. eapply Hsub. left. reflexivity. }
    { apply Hn. left. reflexivity. } { exact Hc. }
    destruct (IHk here' bl (kd ++ want here' bl y) s2 (e1 + errs here' y) (g1 + igns here' y) (hooks here' bl sm2 y)) with (cm := cm) (ot := ot) (rest := rest) (n := n) (i := i) (a := a) (fr := fr) as (s3 & R3 & A3 & Z3 & Y3); [| | |exact A2|].
    { constructor; [exact Nd'|]. intros. eapply Hsub. right. eassumption. }
    { intros m Hm. rewrite map_app, in_app_iff. intros [Hm1|Hm1]; [apply (Hn m); [right; exact Hm|exact Hm1]|]. apply in_map_iff in Hm1 as (w & Ew & Hw). apply want_names in Hw. rewrite Hw in Ew. subst m. contradiction. }
    { apply hooks_count. exact Hc. }
    exists s3. split; [eapply run_trans; eassumption|]. cbn [flat_map fold_left]. rewrite <- app_assoc in A3. unfold err_all, ign_all in *. cbn [fold_left]. split; [exact A3|]. split; [|discriminate]. intros l x E Hx. destruct l as [|w l]; cbn in E; injection E as E4 E5; [|apply (Z3 l x E5 Hx)]. subst y. rewrite (Y3 E5). apply Z2. exact Hx.
Qed.
Theorem run_entry : forall x, entry_ok x.
Proof.
  intro x. induction x as [nm f|nm f o k IH] using fnode_ind2; intros here below l rest n i a kids fr cm ot sm_ e g s [Hp Hi Hc Hm Ho Hr Hs He Hg] Hd Hn Hk.
  - (* not a directory *)
    cbn [want hooks errs igns]. pose proof (hidden_read (Fil nm f) (pending_err s) (pending_skip s)) as Hh. destruct (read_entry c (Fil nm f) (pending_err s) (pending_skip s)) as [[e' k']|] eqn:Er.
    + rewrite Hh, app_nil_r. eexists. split; [apply run_step; unfold step; rewrite Hp, Er; reflexivity|]. 
      split; [|intro Z; congruence]. unfold read_entry in Er. cbn [ffacts] in *. constructor; cbn; auto.
      * destruct (nodump_check c && f_nodump f); [injection Er as <- <-; lia|]. destruct (f_unknown f); [injection Er as <- <-; lia|]. destruct (f_unread f); [injection Er as <- <-; lia|]. destruct (f_gone f); [injection Er as <- <-; lia|discriminate Er].
      * destruct (nodump_check c && f_nodump f); [injection Er as <- <-; lia|]. destruct (f_unknown f); [injection Er as <- <-; lia|]. destruct (f_unread f); [injection Er as <- <-; lia|]. destruct (f_gone f); [injection Er as <- <-; lia|discriminate Er].
    + rewrite Hh. unfold read_entry in Er. cbn [ffacts fname] in *. destruct (nodump_check c && f_nodump f) eqn:E1; [discriminate Er|]. destruct (f_unknown f) eqn:E2; [discriminate Er|]. destruct (f_unread f) eqn:E3; [discriminate Er|]. destruct (f_gone f) eqn:E4; [discriminate Er|]. clear Er.
      assert (St1 : forall t, treat c (Fil nm f) (l :: rest) (St [] (nm :: here) false (cat s) (cmp s) (out s) (sm s) 0 0 (ignored s + pending_skip s) (errored s + pending_err s)) = Ok t -> step c s = Ok (inl t)).
      { intros t Ht. unfold step. rewrite Hp. unfold read_entry. cbn [ffacts fname is_dir]. rewrite E1, E2, E3, E4. rewrite (enfile_entry here _ _ nm false Hi). cbn [bind]. rewrite Ht. reflexivity. }
      unfold treat in St1. cbn [chemin ffacts fname BackupModel.cmp out sm cat ignored errored init] in St1. rewrite Hc, Hm, Ho, Hs, He, Hg in St1. unfold failing. cbn [ffacts].
      destruct (covered c (nm :: here) (Fil nm f)).
      * pose proof (cmp_file (Fil nm f) cm ot below eq_refl Hr) as Ec. unfold cmp_entry in Ec. rewrite Ec in St1. cbn [bind is_dir andb] in St1.
        destruct (f_fail f).
        -- rewrite save_ok in St1 by exact Hk. cbn [bind] in St1. rewrite add_entry_new in St1 by exact Hn. cbn [bind fr_n fr_id fr_against fr_kids] in St1. eexists. split; [apply run_step, St1; reflexivity|]. split; [constructor; cbn; auto; try lia; exists nm; reflexivity|intros _; split; reflexivity].
        -- rewrite add_entry_new in St1 by exact Hn. cbn [bind fr_n fr_id fr_against fr_kids] in St1. eexists. split; [apply run_step, St1; reflexivity|]. split; [constructor; cbn; auto; try lia; exists nm; reflexivity|intros _; split; reflexivity].
        -- rewrite save_ok in St1 by exact Hk. cbn [bind] in St1. rewrite add_entry_new in St1 by exact Hn. cbn [bind fr_n fr_id fr_against fr_kids] in St1. eexists. split; [apply run_step, St1; reflexivity|]. split; [constructor; cbn; auto; try lia; exists nm; reflexivity|intros _; split; reflexivity].
      * cbn [is_dir andb] in St1. rewrite raise_ok in St1 by exact Hk. cbn [bind] in St1. rewrite add_entry_new in St1 by exact Hn. cbn [bind fr_n fr_id fr_against fr_kids] in St1. eexists. split; [apply run_step, St1; reflexivity|]. split; [constructor; cbn; auto; try lia; exists nm; reflexivity|intros _; split; reflexivity].
  - (* a directory *)
    cbn [want hooks errs igns]. pose proof (hidden_read (Dir nm f o k) (pending_err s) (pending_skip s)) as Hh. destruct (read_entry c (Dir nm f o k) (pending_err s) (pending_skip s)) as [[e' k']|] eqn:Er.
    + rewrite Hh, app_nil_r. eexists. split; [apply run_step; unfold step; rewrite Hp, Er; reflexivity|]. 
      split; [|intro Z; congruence]. unfold read_entry in Er. cbn [ffacts] in *. constructor; cbn; auto.
      * destruct (nodump_check c && f_nodump f); [injection Er as <- <-; lia|]. destruct (f_unknown f); [injection Er as <- <-; lia|]. destruct (f_unread f); [injection Er as <- <-; lia|]. destruct (f_gone f); [injection Er as <- <-; lia|discriminate Er].
      * destruct (nodump_check c && f_nodump f); [injection Er as <- <-; lia|]. destruct (f_unknown f); [injection Er as <- <-; lia|]. destruct (f_unread f); [injection Er as <- <-; lia|]. destruct (f_gone f); [injection Er as <- <-; lia|discriminate Er].
    + rewrite Hh. unfold read_entry in Er. cbn [ffacts fname] in *. destruct (nodump_check c && f_nodump f) eqn:E1; [discriminate Er|]. destruct (f_unknown f) eqn:E2; [discriminate Er|]. destruct (f_unread f) eqn:E3; [discriminate Er|]. destruct (f_gone f) eqn:E4; [discriminate Er|]. clear Er.
      set (x := Dir nm f o k) in *.
      assert (St1 : forall t, treat c x (enter c o k :: l :: rest) (St [] (nm :: here) true (cat s) (cmp s) (out s) (sm s) 0 0 (ignored s + pending_skip s) (errored s + pending_err s)) = Ok t -> step c s = Ok (inl t)).
      { intros t Ht. unfold step. rewrite Hp. unfold read_entry, x. cbn [ffacts fname is_dir]. rewrite E1, E2, E3, E4. rewrite (enfile_entry here _ _ nm true Hi). cbn [bind]. fold x. rewrite Ht. reflexivity. }
      unfold treat in St1. unfold x in St1. cbn [chemin ffacts fname BackupModel.cmp out sm cat ignored errored init] in St1. fold x in St1. rewrite Hc, Hm, Ho, Hs, He, Hg in St1. unfold failing. unfold x at 2. cbn [ffacts].
      destruct (cmp_dir nm f o k cm ot below Hr) as (cm' & ot' & Ec & Rc & Ee). fold x in Ec.
      assert (F : forall g' sm', cmp_eod cm' ot' = Ok (cm, ot) -> (let* '(cmp2, out2) := if is_dir x && negb (by_date c) then compare_eod cm' ot' else Ok (cm', ot') in
         let* k0 := add_entry (CIgn nm) (Frame n i a kids :: fr) in
         if is_dir x then let* pl := skip_read (enter c o k :: l :: rest) in let* '(ch, ini) := enfile None (nm :: here) true in Ok (St pl ch ini k0 cmp2 out2 sm' 0 0 g' (e + 1)) else Ok (St (enter c o k :: l :: rest) (nm :: here) true k0 cmp2 out2 sm' 0 0 g' (e + 1)))
         = Ok (St (l :: rest) (nm :: here) false (Frame n i a (kids ++ [CIgn nm]) :: fr) cm ot sm' 0 0 g' (e + 1))).
      { intros g' sm' Hee. unfold cmp_eod in Hee. unfold x. cbn [is_dir andb]. rewrite add_entry_new by exact Hn. cbn [fr_n fr_id fr_against fr_kids bind skip_read enfile]. destruct (by_date c); cbn [negb]; rewrite Hee; reflexivity. }
      destruct (covered c (nm :: here) x).
      * unfold cmp_entry in Ec. rewrite Ec in St1. cbn [bind] in St1. destruct (f_fail f) eqn:Ef.
        -- (* entered *)
           rewrite save_ok in St1 by exact Hk. cbn [bind] in St1. unfold x in St1 at 3. cbn iota in St1. unfold add_dir in St1. rewrite add_new in St1 by exact Hn. cbn [bind] in St1. eapply run_step in St1; [|reflexivity]. 
           set (sm1 := save_ (nm :: here) x (changed c (f_id f) (against_of below x)) sm_) in *. assert (K1 : count sm1 <> 1%nat) by (apply save_count; exact Hk).
           assert (L : exists s2, run s s2 /\ at_dir (nm :: here) (below_of below nm) [] (l :: rest) nm (f_id f) (against_of below x) (if goes_in o k then flat_map (want (nm :: here) (below_of below nm)) k else []) (Frame n i a kids :: fr) cm' ot' (if goes_in o k then fold_left (hooks (nm :: here) (below_of below nm)) k sm1 else sm1)
              (e + (if goes_in o k then fold_left (fun e y => e + errs (nm :: here) y) k 0 else 0)) (g + (if goes_in o k then fold_left (fun e y => e + igns (nm :: here) y) k 0 else 0)) s2).
           { rewrite enter_eq in St1. destruct (goes_in o k).
             - edestruct (run_list_with k IH (nm :: here) (below_of below nm) [] (St (k :: l :: rest) (nm :: here) true (Frame nm (f_id f) (against_of below x) [] :: Frame n i a kids :: fr) cm' ot' sm1 0 0 g e) e g sm1) as (s2 & R2 & A2 & _); [| | |constructor; cbn; try reflexivity; first [exact Rc|lia]|].
               { inversion Hd as [l' Nd Hsub E']. eapply Hsub. left. reflexivity. } { intros m _ []. } { exact K1. }
               exists s2. split; [eapply run_trans; [exact St1|exact R2]|]. unfold err_all, ign_all in A2. rewrite (fold_add (errs (nm :: here))), (fold_add (igns (nm :: here))) in A2. exact A2.
             - eexists. split; [exact St1|]. constructor; cbn; try reflexivity; exact Rc. }
           destruct L as (s2 & R2 & [Lp Li Lc Lm Lo Lr Ls Le Lg]). eexists. split.
           { eapply run_trans; [exact R2|]. apply run_step. unfold step. rewrite Lp. cbn iota. rewrite (enfile_eod _ _ _ Li). cbn [bind]. rewrite raise_ok; [|rewrite Ls; destruct (goes_in o k); [apply hooks_list_count|]; exact K1]. cbn [bind]. unfold cmp_eod in Ee. rewrite Lm, Lo, Ee. cbn [bind]. rewrite Lc. cbn [add_eod tl fr_n fr_id fr_against fr_kids]. rewrite add_entry_new by exact Hn. cbn [bind fr_n fr_id fr_against fr_kids]. reflexivity. }
           split; [constructor; cbn; rewrite ?Ef; auto; try lia; first [exists nm; reflexivity|rewrite Ls; reflexivity]|intros _; split; reflexivity].
        -- (* early failure *)
           rewrite (F g sm_ Ee) in St1. eexists. split; [apply run_step, St1; reflexivity|]. split; [constructor; cbn; rewrite ?Ef; auto; try lia; exists nm; reflexivity|intros _; split; reflexivity].
        -- rewrite save_ok in St1 by exact Hk. cbn [bind] in St1. rewrite (F g _ Ee) in St1. eexists. split; [apply run_step, St1; reflexivity|]. split; [constructor; cbn; rewrite ?Ef; auto; try lia; exists nm; reflexivity|intros _; split; reflexivity].
      * unfold x in St1 at 1 2 3. cbn [is_dir andb] in St1. rewrite raise_ok in St1 by exact Hk. cbn [bind] in St1. rewrite add_entry_new in St1 by (destruct (empty_dir c); exact Hn). cbn [bind fr_n fr_id fr_against fr_kids] in St1.
        assert (Q : (if empty_dir c && negb (by_date c) then (let* '(_, c1, o1) := compare x cm ot in compare_eod c1 o1) else Ok (cm, ot)) = Ok (cm, ot)).
        { unfold cmp_entry, cmp_eod in *. destruct (by_date c); [rewrite andb_false_r; reflexivity|]. destruct (empty_dir c); [|reflexivity]. cbn [andb negb]. rewrite Ec. cbn [bind]. exact Ee. }
        rewrite Q in St1. cbn [bind skip_read enfile] in St1. eexists. split; [apply run_step, St1; reflexivity|]. split; [constructor; cbn; auto; try lia; exists nm; reflexivity|intros _; split; reflexivity].
Qed.

(** ** the whole loop *)
Lemma all_ok : forall l, Forall entry_ok l.
Proof. intro l. apply Forall_forall. intros x _. apply run_entry. Qed.
Lemma distinct_etage : forall l, distinct l -> distinct (etage c l).
Proof. intros l H. rewrite etage_eq. destruct (cached l); [|exact H]. constructor; [constructor|intros ? ? ? ? []]. Qed.
Definition bl (rb : option (list rnode)) : option (list rnode) := if by_date c then None else rb.
Lemma loop_run : forall root ref, distinct root -> exists fuel0 s, (forall fuel, (fuel0 <= fuel)%nat -> loop fuel c (start c root ref) = Ok s) /\
  cat s = [Frame [] 0 None (flat_map (want [] (bl (Some ref))) (etage c root))] /\ sm s = fold_left (hooks [] (bl (Some ref))) (etage c root) (Sem 0 [] []) /\
  errored s + pending_err s = err_all [] (etage c root) 0 /\ ignored s + pending_skip s = ign_all [] (etage c root) 0 /\ inside [] (chemin s) (init s) /\ cmp s = [ref] /\ out s = [] /\
  (forall l x, etage c root = l ++ [x] -> hidden x = false -> pending_err s = 0 /\ pending_skip s = 0).
Proof.
  intros root ref Hd. edestruct (run_list_with (etage c root) (all_ok _) [] (bl (Some ref)) [] (start c root ref) 0 0 (Sem 0 [] []) (distinct_etage _ Hd)) with (cm := [ref]) (ot := @nil name) (rest := @nil (list fnode)) (n := @nil N) (i := 0) (a := @None N) (fr := @nil frame) as (s & [k R] & [A1 A2 A3 A4 A5 A6 A7 A8 A9] & Z & _).
  - intros m _ [].
  - discriminate.
  - constructor; try reflexivity. unfold rep, bl. destruct (by_date c); [reflexivity|]. split; [reflexivity|]. exists []. reflexivity.
  - exists (S k), s. split; [|cbn [app] in A3; auto 12]. intros fuel Hf. replace fuel with (k + S (fuel - S k))%nat by lia. rewrite R. cbn [loop]. unfold step. rewrite A1. reflexivity.
Qed.

(** ** paths *)
Lemma hidden_spec : forall x, hidden x = false <-> readable c x.
Proof.
  intro x. unfold hidden, readable. rewrite !orb_false_iff, andb_false_iff. split.
  - intros [[[H1 H2] H3] H4]. repeat split; auto. intro H. destruct H1; congruence.
  - intros (H1 & H2 & H3 & H4). repeat split; auto. destruct (nodump_check c); auto.
Qed.
Lemma has_spec : forall k l, has k l = true <-> In k l.
Proof. intros. unfold has. rewrite existsb_exists. split; [intros (x & H & E); apply N.eqb_eq in E; subst; exact H|intro H; exists k; split; [exact H|apply N.eqb_refl]]. Qed.
Lemma fs_spec : forall d, same_fs c d = true <-> fs_taken c d.
Proof.
  intro d. unfold same_fs, fs_taken. destruct (N.eqb_spec d (root_dev c)) as [->|Hn]; [tauto|].
  assert (G : forall l, has d l = false <-> ~ In d l) by (intro l; rewrite <- has_spec; destruct (has d l); split; congruence).
  destruct (included c) as [|a inc], (excluded c) as [|b ex].
  - split; [intros _; right; split; [congruence|auto]|auto].
  - rewrite negb_true_iff, G. split; [intro H; right; split; [congruence|exact H]|intros [H|[_ H]]; [congruence|exact H]].
  - rewrite has_spec. split; [intro H; right; split; [auto|auto]|intros [H|[H _]]; [congruence|apply H; discriminate]].
  - destruct (has d (a :: inc)) eqn:E.
    + apply has_spec in E. rewrite negb_true_iff, G. split; [intro H; right; auto|intros [H|[_ H]]; [congruence|exact H]].
    + apply G in E. split; [discriminate|intros [H|[H _]]; [congruence|]]. exfalso. apply E, H. discriminate.
Qed.
Lemma covered_spec : forall p x, covered c p x = true <-> wanted c (rev p) x.
Proof.
  intros p x. unfold covered, wanted. rewrite !andb_true_iff, orb_true_iff, fs_spec, negb_true_iff, andb_false_iff. split.
  - intros [[[H1 H2] H3] H4]. repeat split; auto. intro H. destruct H4; congruence.
  - intros (H1 & H2 & H3 & H4). repeat split; auto. destruct (use_xea c); auto.
Qed.
Lemma cached_spec : forall l, cached l = true <-> cache_directory c l.
Proof.
  intro l. unfold cached, cache_directory. rewrite andb_true_iff, existsb_exists. split; intros [H1 H2]; split; auto.
  - destruct H2 as ([n f|n f o k] & Hin & E); cbn in E; [|discriminate E]. apply andb_true_iff in E as [E1 E2]. destruct (same_name_spec n TAG); [subst|discriminate E1]. exists f. auto.
  - destruct H2 as (f & Hin & E). exists (Fil TAG f). split; [exact Hin|]. cbn. rewrite E. reflexivity.
Qed.
Lemma failing_spec : forall x, failing x = false <-> f_fail (ffacts x) = No_failure.
Proof. intro x. unfold failing. destruct (f_fail (ffacts x)); split; congruence. Qed.
Definition entered (o : bool) (k : list fnode) : list fnode := if goes_in o k then k else [].

(** ** one level of the archive *)
Definition upd (rb : option (list rnode)) (cur : list cent) : list cent := match rb with Some r => update_destroyed r cur | None => cur end.
Definition arc (here : rpath) (rb : option (list rnode)) (l : list fnode) : list cent := flat_map dumped (upd rb (flat_map (want here (bl rb)) l)).
Definition descend (r : list rnode) (x : cent) : cent := match x with CDir n i a k => CDir n i a (upd (below_of (Some r) n) k) | _ => x end.
Definition live (r : rnode) : bool := match r with RDet _ => false | _ => true end.
Lemma csearch_some : forall n l x, NoDup (map cname l) -> (csearch n l = Some x <-> In x l /\ cname x = n).
Proof.
  intros n l x. induction l as [|y l IH]; intro Nd; cbn; [split; [discriminate|intros [[] _]]|]. inversion Nd as [|z zs Nz Nd' E]. subst. destruct (same_name_spec n (cname y)) as [->|Hn].
  - split; [intro H; injection H as <-; auto|intros [[->|H] E]; [reflexivity|]]. exfalso. apply Nz. rewrite <- E. apply in_map. exact H.
  - rewrite (IH Nd'). split; [intros [H1 H2]; auto|intros [[->|H] E]; [congruence|auto]].
Qed.
Lemma csearch_none_iff : forall n l, csearch n l = None <-> ~ In n (map cname l).
Proof. intros n l. split; [|apply csearch_none]. induction l as [|y l IH]; cbn; [auto|]. destruct (same_name_spec n (cname y)); [discriminate|]. intros H [H1|H1]; [congruence|exact (IH H H1)]. Qed.
Lemma rsearch_some : forall n l x, NoDup (map rname l) -> (rsearch n l = Some x <-> In x l /\ rname x = n).
Proof.
  intros n l x. induction l as [|y l IH]; intro Nd; cbn; [split; [discriminate|intros [[] _]]|]. inversion Nd as [|z zs Nz Nd' E]. subst. destruct (same_name_spec n (rname y)) as [->|Hn].
  - split; [intro H; injection H as <-; auto|intros [[->|H] E]; [reflexivity|]]. exfalso. apply Nz. rewrite <- E. apply in_map. exact H.
  - rewrite (IH Nd'). split; [intros [H1 H2]; auto|intros [[->|H] E]; [congruence|auto]].
Qed.
Lemma rsearch_none_iff : forall n l, rsearch n l = None <-> ~ In n (map rname l).
Proof. intros n l. induction l as [|y l IH]; cbn; [tauto|]. destruct (same_name_spec n (rname y)) as [->|Hn]; [split; [discriminate|tauto]|]. rewrite IH. split; [intros H [H1|H1]; [congruence|tauto]|tauto]. Qed.
Lemma cupdate_spec : forall z l, NoDup (map cname l) -> forall x, In x (cupdate z l) <-> (In x l /\ cname x <> cname z) \/ (x = z /\ In (cname z) (map cname l)).
Proof.
  intros z l. induction l as [|y l IH]; intros Nd x; cbn; [tauto|]. inversion Nd as [|w ws Nz Nd' E]. subst. destruct (same_name_spec (cname z) (cname y)) as [Ez|Ez].
  - cbn. split; [intros [<-|H]; [right; auto|left; split; [auto|]]|intros [[[->|H] H1]|[-> _]]; [congruence|auto|auto]]. intro K. apply Nz. rewrite <- Ez, <- K. apply in_map. exact H.
  - cbn. rewrite (IH Nd'). split; [intros [->|[[H H1]|[-> H]]]; [left; split; [auto|congruence]|left; auto|right; auto]|intros [[[->|H] H1]|[-> [H|H]]]; [auto|auto|congruence|auto]].
Qed.
Lemma cupdate_names : forall z l, map cname (cupdate z l) = map cname l.
Proof. intros z l. induction l as [|y l IH]; cbn; [reflexivity|]. destruct (same_name_spec (cname z) (cname y)) as [Ez|Ez]; cbn; [rewrite Ez; reflexivity|rewrite IH; reflexivity]. Qed.
Lemma go_eq : forall l cur, (fix go l cur := match l with [] => cur | r :: q => go q (destroyed r cur) end) l cur = update_destroyed l cur.
Proof. intro l. induction l as [|r l IH]; intro cur; [reflexivity|]. cbn. apply IH. Qed.
Lemma destroyed_dir : forall n i l cur, destroyed (RDir n i l) cur = match csearch n cur with None => cur ++ [CDet n] | Some (CDir n' j a k) => cupdate (CDir n' j a (update_destroyed l k)) cur | Some _ => cur end.
Proof. intros. cbn [destroyed]. destruct (csearch n cur) as [[]|]; try reflexivity. Qed.
(** names are kept, and new removals come last *)
Lemma destroyed_names : forall r cur, map cname (destroyed r cur) = map cname cur ++ (if live r && match csearch (rname r) cur with None => true | _ => false end then [rname r] else []).
Proof.
  intros r cur. destruct r as [n k i|n i l|n]; cbn [live rname andb].
  - cbn. destruct (csearch n cur); [rewrite app_nil_r; reflexivity|rewrite map_app; reflexivity].
  - rewrite destroyed_dir. destruct (csearch n cur) as [[]|]; rewrite ?app_nil_r, ?cupdate_names; try reflexivity. rewrite map_app. reflexivity.
  - rewrite app_nil_r. reflexivity.
Qed.
Lemma NoDup_snoc : forall (l : list name) x, NoDup l -> ~ In x l -> NoDup (l ++ [x]).
Proof. intros l x H Hx. apply NoDup_Add with (a := x) (l := l); [rewrite <- (app_nil_r l) at 1; apply Add_app|split; assumption]. Qed.
Lemma destroyed_nodup : forall r cur, NoDup (map cname cur) -> NoDup (map cname (destroyed r cur)).
Proof.
  intros r cur H. rewrite destroyed_names. destruct (live r && _) eqn:E; [|rewrite app_nil_r; exact H]. apply andb_true_iff in E as [_ E]. destruct (csearch (rname r) cur) eqn:Es; [discriminate E|]. apply csearch_none_iff in Es.
  apply NoDup_snoc; assumption.
Qed.
Lemma upd_level : forall r cur, NoDup (map cname cur) -> NoDup (map rname r) -> forall z, In z (update_destroyed r cur) <-> (exists x, In x cur /\ z = descend r x) \/ (exists y, In y r /\ live y = true /\ ~ In (rname y) (map cname cur) /\ z = CDet (rname y)).
Proof.
  intros r. induction r as [|y r IH]; intros cur Nc Nr z.
  - cbn. split; [intro H; left; exists z; split; [exact H|]; destruct z; reflexivity|intros [(x & H & ->)|(y & [] & _)]]. destruct x; exact H.
  - cbn [update_destroyed fold_left]. change (fold_left (fun cur r => destroyed r cur) r (destroyed y cur)) with (update_destroyed r (destroyed y cur)). cbn in Nr. inversion Nr as [|w ws Nz Nr' E]. subst. rewrite (IH _ (destroyed_nodup y cur Nc) Nr'). clear IH.
    (* names of the rest of r are not touched by y *)
    assert (Nm : forall m, In m (map rname r) -> In m (map cname (destroyed y cur)) <-> In m (map cname cur)).
    { intros m Hm. rewrite destroyed_names, in_app_iff. split; [intros [H|H]; [exact H|]|auto]. destruct (live y && _); [destruct H as [<-|[]]; contradiction|destruct H]. }
    assert (Ds : forall x, cname x = rname y -> descend r x = x).
    { intros x Ex. destruct x as [| n i a k | | |]; try reflexivity. cbn in Ex. subst n. cbn. rewrite (proj2 (rsearch_none_iff (rname y) r) Nz). reflexivity. }
    assert (Dn : forall x, cname x <> rname y -> descend (y :: r) x = descend r x).
    { intros x Ex. destruct x as [| n i a k | | |]; try reflexivity. cbn in Ex |- *. destruct (same_name_spec n (rname y)); [contradiction|reflexivity]. }
    assert (S2 : (exists y0, In y0 r /\ live y0 = true /\ ~ In (rname y0) (map cname (destroyed y cur)) /\ z = CDet (rname y0)) <-> (exists y0, In y0 r /\ live y0 = true /\ ~ In (rname y0) (map cname cur) /\ z = CDet (rname y0))).
    { split; intros (y0 & A & B & C & D); exists y0; repeat split; auto; rewrite (Nm (rname y0)) in * by (apply in_map; exact A); exact C. }
    rewrite S2. 
    assert (S1 : (exists x, In x (destroyed y cur) /\ z = descend r x) <-> (exists x, In x cur /\ z = descend (y :: r) x) \/ (live y = true /\ ~ In (rname y) (map cname cur) /\ z = CDet (rname y))).
    { destruct y as [n kd i|n i l|n]; cbn [live rname] in *.
      - cbn [destroyed]. destruct (csearch n cur) as [o|] eqn:Es.
        + apply (csearch_some n cur o Nc) in Es as [Es1 Es2]. split.
          * intros (x & Hx & ->). left. exists x. split; [exact Hx|]. destruct (same_name_spec (cname x) n) as [E|E]; [|symmetry; apply Dn; exact E]. rewrite (Ds x E). destruct x as [| m j a k | | |]; try reflexivity. cbn in E. subst m. cbn. rewrite same_name_refl. reflexivity.
          * intros [(x & Hx & ->)|(_ & H & _)]; [|exfalso; apply H; rewrite <- Es2; apply in_map; exact Es1]. exists x. split; [exact Hx|]. destruct (same_name_spec (cname x) n) as [E|E]; [|apply Dn; exact E]. rewrite (Ds x E). destruct x as [| m j a k | | |]; try reflexivity. cbn in E. subst m. cbn. rewrite same_name_refl. reflexivity.
        + apply csearch_none_iff in Es. split.
          * intros (x & Hx & ->). apply in_app_or in Hx as [Hx|[<-|[]]]; [|right; auto]. left. exists x. split; [exact Hx|]. symmetry. apply Dn. intro E. apply Es. rewrite <- E. apply in_map. exact Hx.
          * intros [(x & Hx & ->)|(_ & H & ->)]; [|exists (CDet n); split; [apply in_or_app; right; left; reflexivity|reflexivity]]. exists x. split; [apply in_or_app; left; exact Hx|]. apply Dn. intro E. apply Es. rewrite <- E. apply in_map. exact Hx.
      - rewrite destroyed_dir. destruct (csearch n cur) as [o|] eqn:Es.
        + apply (csearch_some n cur o Nc) in Es as [Es1 Es2].
          assert (U : forall x, In x cur -> cname x = n -> x = o). { intros x Hx Ex. assert (Hs : csearch n cur = Some x) by (apply csearch_some; auto). assert (Ho : csearch n cur = Some o) by (apply csearch_some; auto). congruence. }
          assert (NI : In n (map cname cur)) by (rewrite <- Es2; apply in_map; exact Es1).
          assert (Q : (exists x, In x match o with CDir n' j a k => cupdate (CDir n' j a (update_destroyed l k)) cur | _ => cur end /\ z = descend r x) <-> exists x, In x cur /\ z = descend (RDir n i l :: r) x).
          { destruct o as [m j a|m j a k|m|m|m j].
            2: { cbn in Es2. subst m. split.
                 - intros (x & Hx & ->). apply (cupdate_spec _ cur Nc) in Hx as [[Hx Hn]|[-> _]]; [exists x; split; [exact Hx|symmetry; apply Dn; exact Hn]|]. exists (CDir n j a k). split; [exact Es1|]. rewrite Ds by reflexivity. cbn. rewrite same_name_refl. reflexivity.
                 - intros (x & Hx & ->). destruct (same_name_spec (cname x) n) as [E|E].
                   + rewrite (U x Hx E). exists (CDir n j a (update_destroyed l k)). split; [apply cupdate_spec; [exact Nc|right; split; [reflexivity|exact NI]]|]. rewrite Ds by reflexivity. cbn. rewrite same_name_refl. reflexivity.
                   + exists x. split; [apply cupdate_spec; [exact Nc|left; split; [exact Hx|exact E]]|apply Dn; exact E]. }
            all: split; intros (x & Hx & ->); exists x; (split; [exact Hx|]); (destruct (same_name_spec (cname x) n) as [E|E]; [rewrite (U x Hx E); reflexivity|first [apply Dn; exact E|symmetry; apply Dn; exact E]]). }
          rewrite Q. split; [auto|intros [H|(_ & H & _)]; [exact H|contradiction]].
        + apply csearch_none_iff in Es. split.
          * intros (x & Hx & ->). apply in_app_or in Hx as [Hx|[<-|[]]]; [|right; auto]. left. exists x. split; [exact Hx|]. symmetry. apply Dn. intro E. apply Es. rewrite <- E. apply in_map. exact Hx.
          * intros [(x & Hx & ->)|(_ & H & ->)]; [|exists (CDet n); split; [apply in_or_app; right; left; reflexivity|reflexivity]]. exists x. split; [apply in_or_app; left; exact Hx|]. apply Dn. intro E. apply Es. rewrite <- E. apply in_map. exact Hx.
      - cbn [destroyed]. split.
        + intros (x & Hx & ->). left. exists x. split; [exact Hx|]. destruct (same_name_spec (cname x) n) as [E|E]; [|symmetry; apply Dn; exact E]. rewrite (Ds x E). destruct x as [| m j a k | | |]; try reflexivity. cbn in E. subst m. cbn. rewrite same_name_refl. reflexivity.
        + intros [(x & Hx & ->)|(H & _)]; [|discriminate H]. exists x. split; [exact Hx|]. destruct (same_name_spec (cname x) n) as [E|E]; [|apply Dn; exact E]. rewrite (Ds x E). destruct x as [| m j a k | | |]; try reflexivity. cbn in E. subst m. cbn. rewrite same_name_refl. reflexivity. }
    rewrite S1. split.
    + intros [[H|(A & B & D)]|(y0 & A & B & C & D)]; [left; exact H|right; exists y; split; [left; reflexivity|auto]|right; exists y0; split; [right; exact A|auto]].
    + intros [H|(y0 & [<-|A] & B & C & D)]; [left; left; exact H|left; right; auto|right; exists y0; auto].
Qed.
End Proof.
