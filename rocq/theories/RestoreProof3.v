(** Proofs for C40, part 3: the restoration of an archive, and of a history of archives. *)
From Coq Require Import NArith List Bool Lia.
From Verif Require Import Base DatetimeModel PropDatetime PropChange CritModel RestoreModel RestoreSpec RestoreProof RestoreProof2.
Import ListNotations.
Open Scope N_scope.
Local Set Warnings "-notation-overridden".

Lemma mark_mark : forall a b l, mark a (mark b l) = mark (b || a) l.
Proof. intros [|] [|] [|[x y z] l]; reflexivity. Qed.
Lemma dir_at_get : forall c t d, dir_at c t = Some d -> fget (rev c) t = Some d /\ h_kind (hd_of d) = KDir.
Proof. intros c t d H. unfold dir_at in H. destruct (fget (rev c) t) as [x|]; [|discriminate]. destruct (is_dir (h_kind (hd_of x))) eqn:E; [|discriminate]. apply is_dir_spec in E. injection H as <-. auto. Qed.
Lemma get_dir_at : forall c t d, fget (rev c) t = Some d -> h_kind (hd_of d) = KDir -> dir_at c t = Some d.
Proof. intros c t d H K. unfold dir_at. rewrite H, K. reflexivity. Qed.

Section Machine.
Variables (me_uid me_gid : N) (now : datetime).
Variable pol : head -> cnode -> adata * aea.
Variable rcov : rpath -> bool -> bool.
Notation rstep := (rstep me_uid me_gid now pol rcov).
Notation rrun := (rrun me_uid me_gid now pol rcov).
Inductive rsteps : rstate -> rstate -> Prop :=
| rs_refl : forall s, rsteps s s
| rs_step : forall s s1 s2, rstep s = Running s1 -> rsteps s1 s2 -> rsteps s s2.
Lemma rsteps_trans : forall a b c, rsteps a b -> rsteps b c -> rsteps a c.
Proof. intros a b c H. revert c. induction H; intros; auto. econstructor; eauto. Qed.
Lemma rsteps_one : forall a b, rstep a = Running b -> rsteps a b. Proof. intros. econstructor; [exact H|constructor]. Qed.
(** what remains to be read *)
Fixpoint todo (l : list rframe) : nat := match l with [] => O | f :: r => S (weights (rf_rest f) + todo r) end.
Lemma weights_cons : forall n x l, weights ((n, x) :: l) = (weight x + weights l)%nat. Proof. reflexivity. Qed.
Lemma weight_CIno : forall h l, weight (CIno h l) = S (S (weights l)). Proof. reflexivity. Qed.
Lemma weight_pos : forall x, (1 <= weight x)%nat. Proof. intros [h l|k|]; [rewrite weight_CIno|cbn|cbn]; lia. Qed.
Lemma eod_rd : forall s s', eod s = Running s' -> rd s' = rd s.
Proof.
  intros s s'. unfold eod. destruct (stk s) as [|f r]; [discriminate|]. destruct (sf_date f); [|intro E; injection E as <-; reflexivity].
  destruct (fget _ _) as [[h c]|]; [|discriminate]. intro E; injection E as <-; reflexivity.
Qed.
Lemma rstep_todo : forall s s', rstep s = Running s' -> (todo (rd s') < todo (rd s))%nat.
Proof.
  intros s s'. unfold RestoreModel.rstep. destruct (rd s) as [|fr up]; [discriminate|]. cbn [todo]. destruct (rf_rest fr) as [|[n x] rest].
  - destruct up as [|f2 up]; [discriminate|]. intro E. apply eod_rd in E. rewrite E. cbn [rd]. lia.
  - rewrite weights_cons. assert (W := weight_pos x).
    set (rd1 := RF (rf_name fr) rest :: up). set (rd2 := match x with CIno xh ch => if is_dir (c_kind xh) then RF n ch :: rd1 else rd1 | _ => rd1 end).
    assert (B : forall l, l = rd1 \/ l = rd2 -> (todo l < S (weight x + weights rest + todo up))%nat).
    { intros l [->| ->]; [unfold rd1; cbn [todo rf_rest]; lia|]. unfold rd2. destruct x as [xh ch|k|]; [|unfold rd1; cbn [todo rf_rest]; lia|unfold rd1; cbn [todo rf_rest]; lia].
      rewrite weight_CIno. destruct (is_dir (c_kind xh)); unfold rd1; cbn [todo rf_rest]; lia. }
    match goal with |- context [if ?c then _ else _] => destruct c end.
    + destruct (dir_at (cur s) (fs s)) as [d|].
      * destruct (write1 me_uid me_gid now pol d n x) as [[d' flag] [push|]].
        -- destruct push as [b|], x as [xh ch|k|]; intro E; injection E as <-; cbn [rd]; apply B; auto.
        -- intro E; injection E as <-; cbn [rd]; apply B; auto.
      * destruct x as [xh ch|k|]; [destruct (_ || _)| |]; intro E; injection E as <-; cbn [rd]; apply B; auto.
    + intro E; injection E as <-; cbn [rd]; apply B; auto.
Qed.
Lemma rrun_ends : forall fuel s, (todo (rd s) < fuel)%nat -> (exists s', rrun fuel s = Finished s') \/ (exists s', rrun fuel s = Aborted s').
Proof.
  induction fuel as [|k IH]; intros s H; [lia|]. cbn [RestoreModel.rrun]. destruct (rstep s) as [s1|s1|s1] eqn:E; [|left; eauto|right; eauto].
  apply IH. apply rstep_todo in E. lia.
Qed.
Lemma rsteps_finished : forall s s', rsteps s s' -> rstep s' = Finished s' -> forall fuel, (exists s1, rrun fuel s = Running s1) \/ rrun fuel s = Finished s'.
Proof.
  intros s s' H F. induction H as [s|s s1 s2 E H IH].
  - intros [|k]; cbn [RestoreModel.rrun]; [left; eauto|]. rewrite F. auto.
  - intros [|k]; cbn [RestoreModel.rrun]; [left; eauto|]. rewrite E. apply IH. exact F.
Qed.
Lemma restore_steps : forall arc t s', rsteps (RS t [] [] [RF [] arc] 0) s' -> rstep s' = Finished s' -> restore me_uid me_gid now pol rcov arc t = Finished s'.
Proof.
  intros arc t s' H F. unfold restore. set (s0 := RS t [] [] [RF [] arc] 0) in *.
  assert (T : (todo (rd s0) < S (S (weights arc)))%nat) by (unfold s0; cbn; lia).
  destruct (rsteps_finished _ _ H F (S (S (weights arc)))) as [[s1 Q]|Q]; [|exact Q]. exfalso.
  destruct (rrun_ends _ _ T) as [[s2 E]|[s2 E]]; rewrite E in Q; discriminate.
Qed.
(** every restoration ends *)
Lemma restore_ends : forall arc t, (exists s', restore me_uid me_gid now pol rcov arc t = Finished s') \/ (exists s', restore me_uid me_gid now pol rcov arc t = Aborted s').
Proof. intros. apply rrun_ends. cbn. lia. Qed.
End Machine.

Section Chain.
Variables (me_uid me_gid : N) (now : datetime).
Variable cov : rpath -> bool.
Variable s : bool.
Variables (cap : time_unit) (hourshift : N).
Definition rall : rpath -> bool -> bool := fun _ _ => true.
Notation rsteps := (rsteps me_uid me_gid now pol0 rall).
Notation rstep := (rstep me_uid me_gid now pol0 rall).
Notation trel := (trel cov s).
Notation prel := (prel cov s).
Notation cmatch := (cmatch cov).
Notation aspec := (aspec cap hourshift cov).
Notation has := (has now).

Definition env (T T' : list (name * node)) : Prop :=
  regular T /\ regular T' /\ honest cap hourshift T T' /\ (s = true -> type_kept T T').
Definition entry_ok rp C T' n (x : cnode) : Prop := match x with
  | CIno xh xch => exists h c, cov (n :: rp) = true /\ aget n T' = Some (Node h c) /\ xh = save_head cap hourshift h (ref_inode h (aget n C)) /\
      aspec (n :: rp) xch (below h (aget n C)) c
  | CDet _ => aget n T' = None /\ exists fh fch, aget n C = Some (CIno fh fch)
  | CIgn => False end.

Lemma look_sub : forall T n h c p, aget n T = Some (Node h c) -> p <> [] -> look T (n :: p) = look c p.
Proof. intros T n h c p E Hp. rewrite look_cons, E. unfold lookn. destruct p; [congruence|reflexivity]. Qed.
Lemma look_one : forall T n h c, aget n T = Some (Node h c) -> look T [n] = Some h.
Proof. intros T n h c E. rewrite look_cons, E. reflexivity. Qed.
Lemma regular_nil : regular []. Proof. constructor; [constructor|intros ? ? ? []]. Qed.
Lemma env_below : forall T T' n h c Tn, env T T' -> aget n T' = Some (Node h c) -> (Tn = [] \/ exists th, aget n T = Some (Node th Tn)) -> env Tn c.
Proof.
  intros T T' n h c Tn (R & R' & Hh & Ht) E B. destruct (regular_get _ _ _ _ R' E) as (_ & _ & _ & _ & Rc).
  destruct B as [->|(th & E')].
  - split; [apply regular_nil|]. split; [exact Rc|]. split.
    + intros p a b Ha. rewrite look_nil in Ha. discriminate.
    + intros _ p a b Ha. rewrite look_nil in Ha. discriminate.
  - destruct (regular_get _ _ _ _ R E') as (_ & _ & _ & _ & Rt). split; [exact Rt|]. split; [exact Rc|]. split.
    + intros p a b Ha Hb. destruct p as [|m q]; [discriminate|]. apply (Hh (n :: m :: q)).
      rewrite (look_sub T n th Tn) by (assumption || discriminate). exact Ha. rewrite (look_sub T' n h c) by (assumption || discriminate). exact Hb.
    + intros S p a b Ha Hb. destruct p as [|m q]; [discriminate|]. apply (Ht S (n :: m :: q)).
      rewrite (look_sub T n th Tn) by (assumption || discriminate). exact Ha. rewrite (look_sub T' n h c) by (assumption || discriminate). exact Hb.
Qed.
Lemma env_at : forall T T' n h c th tc, env T T' -> aget n T' = Some (Node h c) -> aget n T = Some (Node th tc) ->
  (h_kind th <> KDir -> tc = []) /\ (h_kind th = KDir -> h_data th = []) /\ hon cap hourshift th h /\
      (s = true -> h_kind th <> h_kind h -> h_kind th <> KDir /\ (h_ea th = [] \/ h_ea h <> [])).
Proof.
  intros T T' n h c th tc (R & R' & Hh & Ht) E E'. destruct (regular_get _ _ _ _ R E') as (A & B & _). split; [exact A|]. split; [exact B|]. split.
  - intro K. apply (Hh [n]); [eapply look_one; eauto|eapply look_one; eauto|exact K].
  - intros S K. apply (Ht S [n]); [eapply look_one; eauto|eapply look_one; eauto|exact K].
Qed.

(** the loop of filtre_restore over the entries [L] that remain in a directory *)
Definition dpost (d d' : node) (b : bool) : Prop := hd_of d' = hd_of d \/ (b = true /\ hd_of d' = with_mtime (hd_of d) now).
Lemma dpost_kind : forall d d' b, dpost d d' b -> h_kind (hd_of d) = KDir -> h_kind (hd_of d') = KDir.
Proof. intros d d' b [E|[_ E]] K; rewrite E; exact K. Qed.
Lemma dpost_trans : forall d d1 d2 a b, dpost d d1 a -> dpost d1 d2 b -> dpost d d2 (a || b).
Proof.
  intros d d1 d2 a b [E|[-> E]] [F|[-> F]]; unfold dpost.
  - left. congruence. - right. rewrite orb_true_r, F, E. auto. - right. rewrite F, E. auto. - right. rewrite F, E. auto.
Qed.
Definition list_goal (L : list (name * cnode)) : Prop := forall rp C T T' f cur stk nm up e d,
  dir_at cur f = Some d -> cmatch rp C T -> env T T' -> NoDup (map fst L) ->
  (forall n x, In (n, x) L -> entry_ok rp C T' n x) -> (forall n, In n (map fst L) -> prel rp (ch_of d) T n) ->
  exists d' b, rsteps (RS f cur stk (RF nm L :: up) e) (RS (fput (rev cur) d' f) cur (mark b stk) (RF nm [] :: up) e) /\
    dpost d d' b /\ (forall n, In n (map fst L) -> prel rp (ch_of d') T' n) /\ (forall n, ~ In n (map fst L) -> aget n (ch_of d') = aget n (ch_of d)).

(** from the entries to the whole directory *)
Lemma list_all : forall A, list_goal A -> forall rp C T T' f cur stk nm up e d,
  dir_at cur f = Some d -> cmatch rp C T -> env T T' -> aspec rp A C T' -> trel rp (ch_of d) T ->
  exists d' b, rsteps (RS f cur stk (RF nm A :: up) e) (RS (fput (rev cur) d' f) cur (mark b stk) (RF nm [] :: up) e) /\
    dpost d d' b /\ trel rp (ch_of d') T'.
Proof.
  intros A G rp C T T' f cur stk nm up e d Hd Cm En As Tr. inversion As as [rp0 A0 C0 T0 Nd Hi Hx Hg Hn]; subst.
  destruct (G rp C T T' f cur stk nm up e d Hd Cm En Nd) as (d' & b & St & Dp & Hin & Hout).
  - intros n x I. apply in_aget in I; [|exact Nd]. destruct x as [xh xch|k|]; cbn [entry_ok].
    + apply Hi in I. exact I. + apply Hx in I. exact I. + apply Hg in I. exact I.
  - intros n _. apply trel_prel. exact Tr.
  - exists d', b. split; [exact St|]. split; [exact Dp|]. apply trel_prel. intro n.
    destruct (in_dec (list_eq_dec N.eq_dec) n (map fst A)) as [I|I]; [auto|].
    assert (E := Hout n I). apply trel_prel with (n := n) in Tr. apply aget_none in I. destruct (Hn n I) as [H1 H2].
    apply (prel_ext cov s rp (ch_of d) (ch_of d') T' n (eq_sym E)). unfold RestoreProof.prel in *. destruct (cov (n :: rp)) eqn:Ec; [|exact Tr].
    destruct H1 as [H1|H1]; [|discriminate]. rewrite H1. destruct (aget n T) as [[th tc]|] eqn:ET; [|exact Tr].
    destruct (cmatch_get cov rp C T n th tc Cm ET Ec) as (fh & fch & F & _). exfalso. exact (H2 H1 fh fch F).
Qed.

Lemma step_entry : forall f cur stk nm n x rest up e d d' flag push, dir_at cur f = Some d ->
  write1 me_uid me_gid now pol0 d n x = (d', flag, WOk push) ->
  rstep (RS f cur stk (RF nm ((n, x) :: rest) :: up) e) =
   match push, x with
   | Some b, CIno xh ch => Running (RS (fput (rev cur) d' f) (n :: cur) (SF n xh b :: mark flag stk) (if is_dir (c_kind xh) then RF n ch :: RF nm rest :: up else RF nm rest :: up) e)
   | _, CIno xh ch => Running (RS (fput (rev cur) d' f) cur (mark flag stk) (if is_dir (c_kind xh) then RF n ch :: RF nm rest :: up else RF nm rest :: up) e)
   | _, _ => Running (RS (fput (rev cur) d' f) cur (mark flag stk) (RF nm rest :: up) e)
   end.
Proof.
  intros. unfold RestoreModel.rstep. cbn [rd rf_rest rf_name fs RestoreModel.cur RestoreModel.stk errs]. unfold rall. cbv iota. rewrite H, H0. destruct push, x; reflexivity.
Qed.

Lemma entry_run : forall n x, match x with CIno _ xch => list_goal xch | _ => True end ->
  forall rp C T T' f cur stk nm rest up e d,
  dir_at cur f = Some d -> cmatch rp C T -> env T T' -> entry_ok rp C T' n x -> prel rp (ch_of d) T n ->
  exists d' b, rsteps (RS f cur stk (RF nm ((n, x) :: rest) :: up) e) (RS (fput (rev cur) d' f) cur (mark b stk) (RF nm rest :: up) e) /\
    dpost d d' b /\ prel rp (ch_of d') T' n /\ (forall m, m <> n -> aget m (ch_of d') = aget m (ch_of d)).
Proof.
  intros n x G rp C T T' f cur stk nm rest up e d Hd Cm En Ok Hp. destruct x as [xh xch|k|]; cbn [entry_ok] in Ok; [| |destruct Ok].
  - destruct Ok as (h & c & Hc & ET' & -> & As). destruct En as (Rg & Rg' & Hh & Ht). assert (En : env T T') by (split; auto).
    destruct (regular_get _ _ _ _ Rg' ET') as (Nc & Dd & Ne & Lk & Rc).
    destruct (write_ino me_uid me_gid now cov s cap hourshift rp d C T n h xch Hp Cm Hc) as (d1 & flag & b & h1 & c1 & Tn & W & Ha & Kk & Kd & Ke & Km & Ktr & Kc & KTn & KT0); auto.
    { intros th tc E. eapply env_at; eauto. }
    assert (En2 := env_below T T' n h c Tn En ET' KTn).
    assert (Sk : c_kind (save_head cap hourshift h (ref_inode h (aget n C))) = h_kind h) by reflexivity.
    destruct Ha as (Ho & Hhd & Hg). destruct (dir_at_get _ _ _ Hd) as [Hfd Kdir].
    destruct (is_dir (h_kind h)) eqn:Dir.
    + (* a directory: its entries, then its end *)
      set (xh := save_head cap hourshift h (ref_inode h (aget n C))) in *.
      assert (Hd1 : dir_at (n :: cur) (fput (rev cur) d1 f) = Some (Node h1 c1)).
      { apply get_dir_at; [|cbn [hd_of]; rewrite Kk; apply is_dir_spec; exact Dir]. cbn [rev]. rewrite fget_snoc, (fget_put _ _ _ _ Hfd). exact Hg. }
      destruct (list_all xch G (n :: rp) (below h (aget n C)) Tn c _ (n :: cur) (SF n xh b :: mark flag stk) n (RF nm rest :: up) e (Node h1 c1) Hd1 Kc En2 As Ktr)
        as ([h2 c2] & b2 & St & Dp & Tr2).
      cbn [rev] in St. rewrite (fput_snoc _ n (Node h2 c2) _ d1 (Node h1 c1) (fget_put _ _ _ _ Hfd) Hg) in St. rewrite (fput_put _ _ _ _ _ Hfd) in St.
      set (d2 := Node (hd_of d1) (aset n (Node h2 c2) (ch_of d1))) in *.
      assert (G2 : fget (rev cur) (fput (rev cur) d2 f) = Some d2) by (eapply fget_put; exact Hfd).
      assert (G3 : fget (rev (n :: cur)) (fput (rev cur) d2 f) = Some (Node h2 c2)).
      { cbn [rev]. rewrite fget_snoc, G2. unfold d2. cbn [ch_of]. apply aget_set_same. }
      assert (W1 := step_entry f cur stk nm n (CIno xh xch) rest up e d d1 flag (Some b) Hd W). cbv iota beta in W1. rewrite Sk, Dir in W1.
      assert (Mk : mark b2 (SF n xh b :: mark flag stk) = SF n xh (b || b2) :: mark flag stk).
      { cbn [mark sf_name sf_head]. destruct b2; [rewrite orb_true_r; reflexivity|]. rewrite orb_false_r. reflexivity. }
      rewrite Mk in St.
      set (h3 := if b || b2 then with_meta h2 xh else h2). set (d3 := Node (hd_of d1) (aset n (Node h3 c2) (ch_of d1))).
      assert (W2 : rstep (RS (fput (rev cur) d2 f) (n :: cur) (SF n xh (b || b2) :: mark flag stk) (RF n [] :: RF nm rest :: up) e) =
         Running (RS (fput (rev cur) d3 f) cur (mark flag stk) (RF nm rest :: up) e)).
      { unfold RestoreModel.rstep. cbn [rd rf_rest fs RestoreModel.cur RestoreModel.stk errs]. unfold eod. cbn [RestoreModel.cur RestoreModel.stk fs rd errs tl sf_date sf_name sf_head].
        unfold d3, h3. destruct (b || b2).
        - rewrite G3. cbn [rev]. rewrite (fput_snoc _ n _ _ d2 (Node h2 c2) G2) by (unfold d2; cbn [ch_of]; apply aget_set_same).
          rewrite (fput_put _ _ _ _ _ Hfd). unfold d2. cbn [hd_of ch_of]. rewrite aset_set. reflexivity.
        - reflexivity. }
      exists d3, flag. split.
      { eapply rs_step; [exact W1|]. eapply rsteps_trans; [exact St|]. apply rsteps_one. exact W2. }
      split; [exact Hhd|]. split.
      { unfold RestoreProof.prel. unfold d3. cbn [ch_of]. rewrite aget_set_same, Hc, ET'. cbn [hd_of ch_of]. split; [|exact Tr2].
        assert (K2 : h_kind h2 = h_kind h1 /\ h_data h2 = h_data h1 /\ h_ea h2 = h_ea h1) by (destruct Dp as [E|[_ E]]; cbn [hd_of] in E; rewrite E; auto).
        destruct K2 as (K2 & D2 & E2). unfold h3. split; [|split].
        - destruct (b || b2); cbn; congruence.
        - destruct (b || b2); cbn; congruence.
        - intro S. destruct (b || b2) eqn:Bb.
          + assert (M := with_meta_save cap hourshift h2 h (ref_inode h (aget n C))). fold xh in M. destruct M as (M1 & M2 & M3 & M4).
            { intro Q. rewrite Q in Dir. discriminate. } split; [exact M1|]. split; [exact M2|]. split; [exact M3|]. split; [exact M4|]. cbn. rewrite E2. auto.
          + apply orb_false_iff in Bb. destruct Bb as [-> ->]. destruct (Km S (or_intror eq_refl)) as (M1 & M2 & M3 & M4).
            destruct Dp as [E|[E _]]; [|discriminate]. cbn [hd_of] in E. rewrite E. auto 10. }
      intros m Hm. unfold d3. cbn [ch_of]. rewrite aget_set_other by exact Hm. auto.
    + exists d1, flag. split.
      { apply rsteps_one. rewrite (step_entry f cur stk nm n _ rest up e d d1 flag None Hd W). rewrite Sk, Dir. reflexivity. }
      split; [exact Hhd|]. split; [|exact Ho]. unfold RestoreProof.prel. rewrite Hg, Hc, ET'. cbn [hd_of ch_of].
      assert (KN : h_kind h <> KDir) by (apply nondir; exact Dir). rewrite (Nc KN). split.
      * split; [exact Kk|]. split; [exact Kd|]. intro S. destruct (Km S (or_introl eq_refl)) as (? & ? & ? & ?). auto 10.
      * rewrite (KT0 eq_refl) in Ktr. exact Ktr.
  - destruct Ok as (ET' & fh & fch & EC). inversion Cm as [rp0 C0 T0 Ci Cx]; subst. destruct (Ci n fh fch EC) as (Hc & th & tc & ET & _).
    unfold RestoreProof.prel in Hp. rewrite Hc, ET in Hp. destruct (aget n (ch_of d)) as [e0|] eqn:Ed; [|destruct Hp].
    assert (W : write1 me_uid me_gid now pol0 d n (CDet k) = (remove now n d, true, WOk None)) by (unfold write1; rewrite Ed; reflexivity).
    exists (remove now n d), true. split; [apply rsteps_one; exact (step_entry f cur stk nm n _ rest up e d _ true None Hd W)|].
    split; [right; auto|]. unfold remove, touch. cbn [ch_of]. split.
    + unfold RestoreProof.prel. cbn [ch_of]. rewrite aget_del_same, Hc, ET'. exact I.
    + intros m Hm. apply aget_del_other. exact Hm.
Qed.

Lemma list_run : forall A, list_goal A.
Proof.
  assert (G : forall x, match x with CIno _ A => list_goal A | _ => True end).
  { apply cnode_rect'; [|intros; exact I|exact I]. intros _ L IH. induction L as [|[n x] rest IHL].
    - intros rp C T T' f cur stk nm up e d Hd Cm En Nd Ok Hp. exists d, false. destruct (dir_at_get _ _ _ Hd) as [Hfd _]. rewrite (fput_id _ _ _ Hfd).
      split; [replace (mark false stk) with stk by (destruct stk; reflexivity); constructor|]. split; [left; reflexivity|]. split; [intros ? []|reflexivity].
    - intros rp C T T' f cur stk nm up e d Hd Cm En Nd Ok Hp. inversion Nd as [|? ? Nn Nd']; subst.
      destruct (entry_run n x (IH n x (or_introl eq_refl)) rp C T T' f cur stk nm rest up e d Hd Cm En (Ok n x (or_introl eq_refl)) (Hp n (or_introl eq_refl)))
        as (d1 & b1 & St1 & Dp1 & P1 & O1).
      destruct (dir_at_get _ _ _ Hd) as [Hfd Kd].
      assert (Hd1 : dir_at cur (fput (rev cur) d1 f) = Some d1) by (apply get_dir_at; [eapply fget_put; exact Hfd|eapply dpost_kind; eauto]).
      destruct (IHL (fun m y I => IH m y (or_intror I)) rp C T T' _ cur (mark b1 stk) nm up e d1 Hd1 Cm En Nd') as (d2 & b2 & St2 & Dp2 & P2 & O2).
      { intros m y I. apply Ok. right. exact I. }
      { intros m I. apply (prel_ext cov s rp (ch_of d) (ch_of d1)); [symmetry; apply O1; intros ->; contradiction|]. apply Hp. right. exact I. }
      rewrite (fput_put _ _ _ _ _ Hfd), mark_mark in St2. exists d2, (b1 || b2). split; [eapply rsteps_trans; eauto|].
      split; [eapply dpost_trans; eauto|]. split.
      + intros m [<-|I]; [|auto]. cbn [fst] in *. apply (prel_ext cov s rp (ch_of d1)); [symmetry; apply O2; exact Nn|exact P1].
      + intros m I. cbn [map fst In] in I. rewrite O2 by tauto. apply O1. intros ->. tauto. }
  intro A. exact (G (CIno (CHead KDir 0 0 0 (DT 0 tu_s) (DT 0 tu_s) 0 true [] EA_none) A)).
Qed.

(** one restoration *)
Lemma restore_one : forall C T T' d, h_kind (hd_of d) = KDir -> cmatch [] C T -> cnodup C -> env T T' -> trel [] (ch_of d) T ->
  exists st, restore me_uid me_gid now pol0 rall (backup cap hourshift cov C T') d = Finished st /\ errs st = 0%nat /\ h_kind (hd_of (fs st)) = KDir /\
    trel [] (ch_of (fs st)) T' /\ cmatch [] (backup cap hourshift cov C T') T' /\ cnodup (backup cap hourshift cov C T').
Proof.
  intros C T T' d K Cm Cn En Tr. assert (Rg : regular T') by apply En. destruct (back_aspec cap hourshift cov T' Rg [] C Cn) as [As Cn'].
  unfold back in *. unfold backup in *. set (A := written_list _) in *.
  destruct (list_all A (list_run A) [] C T T' d [] [] [] [] 0%nat d (get_dir_at [] d d eq_refl K) Cm En As Tr) as (d' & b & St & Dp & Tr').
  cbn [rev] in St. cbn [fput] in St.
  replace (mark b []) with (@nil sframe) in St by reflexivity.
  eexists. split; [apply (restore_steps me_uid me_gid now pol0 rall _ _ _ St); reflexivity|]. cbn [errs fs]. split; [reflexivity|]. split; [eapply dpost_kind; eauto|].
  split; [exact Tr'|]. split; [eapply aspec_cmatch; exact As|exact Cn'].
Qed.

Lemma last_any : forall (A : Type) (x : A) l a b, last (x :: l) a = last (x :: l) b.
Proof. intros A x l a b. revert x. induction l as [|y l IH]; intro x; [reflexivity|]. exact (IH y). Qed.
Lemma chain : forall states C T d, h_kind (hd_of d) = KDir -> cmatch [] C T -> cnodup C -> trel [] (ch_of d) T -> regular T ->
  (forall t, In t states -> regular t) -> consecutive (fun a b => honest cap hourshift a b /\ (s = true -> type_kept a b)) (T :: states) ->
  exists r, restore_all me_uid me_gid now pol0 rall (archives cap hourshift cov C states) d = Some r /\ trel [] (ch_of r) (last states T).
Proof.
  induction states as [|t l IH]; intros C T d K Cm Cn Tr Rg Rgs Cs.
  - exists d. auto.
  - cbn [consecutive] in Cs. destruct Cs as [[Hh Ht] Cs]. destruct (restore_one C T t d K Cm Cn) as (st & R & E & K' & Tr' & Cm' & Cn'); [split; [exact Rg|split; [apply Rgs; left; reflexivity|split; [exact Hh|exact Ht]]]|exact Tr|].
    cbn [archives restore_all]. rewrite R, E. destruct (IH _ t (fs st) K' Cm' Cn' Tr') as (r & R2 & F).
    + apply Rgs; left; reflexivity. + intros; apply Rgs; right; assumption. + exact Cs.
    + exists r. split; [exact R2|]. destruct l as [|t2 l]; [exact F|]. change (last (t :: t2 :: l) T) with (last (t2 :: l) T). rewrite (last_any _ t2 l T t). exact F.
Qed.
End Chain.
