(** Proofs for C42, part 1: the restoration of an archive, however it was made, that leads from one state of a tree to another. *)
From Coq Require Import NArith List Bool Lia.
From Verif Require Import Base DatetimeModel PropDatetime PropChange CritModel RestoreModel RestoreSpec RestoreProof RestoreProof2 RestoreProof3.
Import ListNotations.
Open Scope N_scope.
Local Set Warnings "-notation-overridden".

Section Gen.
Variables (me_uid me_gid : N) (now : datetime).
Variable cov : rpath -> bool.
Variable s : bool.
Notation write1 := (write1 me_uid me_gid now pol0).
Notation trel := (trel cov s).
Notation prel := (prel cov s).
Notation has := (has now).

(** what an archive holds for the inode [h], when the state before had [o] at that path *)
Definition gmeta (xh : chead) (h : head) : Prop :=
  c_kind xh = h_kind h /\ c_uid xh = h_uid h /\ c_gid xh = h_gid h /\ c_perm xh = h_perm h /\ c_mtime xh = h_mtime h.
Definition gdata (o : option head) (xh : chead) (h : head) : Prop :=
  c_saved xh = true /\ c_data xh = h_data h \/
  c_saved xh = false /\ exists th, o = Some th /\ h_kind th = h_kind h /\ meta_eq th h /\ h_data th = h_data h.
Definition gea (o : option head) (xh : chead) (h : head) : Prop :=
  match c_ea xh with
  | EA_full l => l = h_ea h
  | EA_removed => h_ea h = []
  | EA_none => h_ea h = [] /\ (forall th, o = Some th -> s = true -> h_ea th = [])
  | EA_partial => exists th, o = Some th /\ (s = true -> h_ea th = h_ea h)
  end.
Definition gino (o : option head) (xh : chead) (h : head) : Prop :=
  gmeta xh h /\ gdata o xh h /\ gea o xh h /\ (forall th, o = Some th -> s = true -> h_kind th <> h_kind h -> h_kind th <> KDir).
Definition tbelow (h : head) (o : option node) : list (name * node) :=
  match o with Some (Node th tc) => if is_dir (h_kind h) && is_dir (h_kind th) then tc else [] | None => [] end.
(** the archive [A] leads from the state [T] to the state [T'] *)
Inductive gspec : rpath -> list (name * cnode) -> list (name * node) -> list (name * node) -> Prop :=
| gspec_i : forall rp A T T', NoDup (map fst A) ->
    (forall n xh xch, aget n A = Some (CIno xh xch) -> exists h c, cov (n :: rp) = true /\ aget n T' = Some (Node h c) /\
       gino (option_map hd_of (aget n T)) xh h /\ gspec (n :: rp) xch (tbelow h (aget n T)) c) ->
    (forall n k, aget n A = Some (CDet k) -> aget n T' = None /\ cov (n :: rp) = true /\ aget n T <> None) ->
    (forall n, aget n A <> Some CIgn) ->
    (forall n, aget n A = None -> cov (n :: rp) = true -> aget n T' = None /\ aget n T = None) ->
    gspec rp A T T'.

Lemma with_meta_g : forall h0 h xh, gmeta xh h -> (h_kind h = KLink -> h_perm h0 = h_perm h) -> meta_eq (with_meta h0 xh) h.
Proof. intros h0 h xh (A & B & C & D & E) K. unfold meta_eq, with_meta. cbn. rewrite A. repeat split; auto. destruct (h_kind h); auto. Qed.

(** restoring an inode over the tree of the previous state *)
Lemma write_ino_g : forall rp d T n h xh xch,
  prel rp (ch_of d) T n -> cov (n :: rp) = true ->
  (forall th tc, aget n T = Some (Node th tc) -> (h_kind th <> KDir -> tc = []) /\ (h_kind th = KDir -> h_data th = [])) ->
  gino (option_map hd_of (aget n T)) xh h ->
  NoDup (map fst (h_ea h)) -> (h_kind h = KDir -> h_data h = []) -> (h_kind h = KLink -> h_perm h = 511) ->
  exists d' flag b h1 c1,
    write1 d n (CIno xh xch) = (d', flag, WOk (if is_dir (h_kind h) then Some b else None)) /\
    has d d' n flag h1 c1 /\ h_kind h1 = h_kind h /\ h_data h1 = h_data h /\ (s = true -> h_ea h1 = h_ea h) /\
    (s = true -> is_dir (h_kind h) = false \/ b = false -> meta_eq h1 h) /\ trel (n :: rp) c1 (tbelow h (aget n T)).
Proof.
  intros rp d T n h x xch Hp Hc HT (Gm & Gd & Ge & Gk) Nd Dd Lk. unfold RestoreProof.prel in Hp. rewrite Hc in Hp. unfold RestoreModel.write1.
  assert (Xk : c_kind x = h_kind h) by apply Gm.
  assert (Xm : c_uid x = h_uid h /\ c_gid x = h_gid h /\ c_perm x = h_perm h /\ c_mtime x = h_mtime h) by apply Gm.
  destruct (aget n (ch_of d)) as [[eh ec]|] eqn:Ed.
  - (* an entry of that name exists *)
    destruct (aget n T) as [[th tc]|] eqn:ET; [|destruct Hp]. cbn [hd_of ch_of option_map] in *. destruct Hp as [(Hk & Hdt & Hs) Htr].
    destruct (HT th tc eq_refl) as (Tc & Te).
    destruct (over_char me_uid me_gid now d n eh ec x xch Ed) as (d' & h1 & W & Ha & HK & HD & HE & HU & HM).
    destruct (kind_eqb (h_kind h) (h_kind th)) eqn:Ek.
    + (* same type *)
      apply kind_eqb_spec in Ek. assert (K : h_kind th = h_kind h) by congruence.
      assert (Rp : replaced eh x = c_saved x && negb (is_dir (h_kind h))).
      { unfold replaced. rewrite Xk, Hk, K, kind_eqb_refl, andb_true_r. reflexivity. }
      assert (Tcn : is_dir (h_kind h) = false -> tc = []) by (intro Q; apply Tc; rewrite K; apply nondir; exact Q).
      assert (TB : tbelow h (Some (Node th tc)) = tc).
      { cbn [tbelow]. rewrite K. destruct (is_dir (h_kind h)); cbn [andb]; [reflexivity|]. symmetry. apply Tcn. reflexivity. }
      exists d', (c_saved x), (c_saved x), h1, (if replaced eh x then [] else ec).
      split. { rewrite W, Xk, Hk, K. destruct (is_dir (h_kind h)); reflexivity. }
      split; [exact Ha|]. split. { rewrite HK, Xk. destruct (replaced eh x); congruence. }
      split. { rewrite HD, Rp. destruct Gd as [(Sv & Dt)|(Sv & th' & E & _ & _ & Dt)]; rewrite Sv; cbn [andb].
        - destruct (is_dir (h_kind h)) eqn:Q; cbn [negb]; [|exact Dt]. apply is_dir_spec in Q. rewrite Hdt, Te, Dd; congruence.
        - injection E as <-. congruence. }
      split. { intro S. destruct (Hs S) as (_ & _ & _ & _ & E). rewrite HE. unfold gea in Ge. destruct (c_ea x) as [| |l|] eqn:Ex; cbn [ea_saved xlist].
        - destruct Ge as [Se1 Se2]. rewrite E, Se1. rewrite (Se2 th eq_refl S). destruct (replaced eh x); reflexivity.
        - destruct Ge as (th' & E' & Q). injection E' as <-. rewrite E, (Q S). destruct (replaced eh x); [apply ea_write_nil; exact Nd|reflexivity].
        - subst l. apply ea_write_nil; exact Nd.
        - rewrite Ge. reflexivity. }
      split. { intros S Q. destruct (Hs S) as (S1 & S2 & S3 & S4 & _). destruct Gd as [(Sv & Dt)|(Sv & th' & E & _ & (M1 & M2 & M3 & M4) & Dt)].
        - destruct Q as [Q|Q]; [|congruence]. destruct HM as (h0 & M1 & M2 & M3 & M4 & M5); [exact Sv|congruence|]. destruct Xm as (X1 & X2 & X3 & X4).
          unfold meta_eq. repeat split; try congruence. rewrite M4, Xk in *. destruct (h_kind h) eqn:Z; try congruence. rewrite M5, Lk; congruence.
        - injection E as <-. destruct (HU Sv) as (? & ? & ? & ?). unfold meta_eq. repeat split; congruence. }
      rewrite TB. rewrite Rp. destruct (c_saved x); cbn [andb]; [|exact Htr]. destruct (is_dir (h_kind h)) eqn:Q; cbn [negb]; [exact Htr|]. rewrite (Tcn eq_refl). apply trel_nil.
    + (* the type has changed *)
      assert (K : h_kind th <> h_kind h). { intro Q. rewrite Q, kind_eqb_refl in Ek. discriminate. }
      destruct Gd as [(Sv & Dt)|(Sv & th' & E & Q & _)]; [|injection E as <-; contradiction].
      assert (Rp : replaced eh x = true).
      { unfold replaced. rewrite Sv, Xk. destruct (kind_eqb (h_kind h) (h_kind eh)) eqn:Q; [apply kind_eqb_spec in Q; congruence|]. rewrite andb_false_r. reflexivity. }
      rewrite Rp in *.
      assert (TB : tbelow h (Some (Node th tc)) = []).
      { cbn [tbelow]. destruct (is_dir (h_kind h)) eqn:Q1; [|reflexivity]. destruct (is_dir (h_kind th)) eqn:Q2; [|reflexivity].
        apply is_dir_spec in Q1, Q2. congruence. }
      exists d', true, true, h1, [].
      split. { rewrite W, Xk, Sv. destruct (is_dir (h_kind h)), (is_dir (h_kind eh)); reflexivity. }
      split; [rewrite Sv in Ha; exact Ha|]. split; [congruence|]. split; [congruence|].
      split. { intro S. destruct (Hs S) as (_ & _ & _ & _ & E). rewrite HE. unfold gea in Ge. destruct (c_ea x) as [| |l|] eqn:Ex; cbn [ea_saved xlist].
        - destruct Ge as [Se1 Se2]. rewrite E, Se1. rewrite (Se2 th eq_refl S). reflexivity.
        - destruct Ge as (th' & E' & Q). injection E' as <-. rewrite E, (Q S). apply ea_write_nil; exact Nd.
        - subst l. apply ea_write_nil; exact Nd.
        - rewrite Ge. reflexivity. }
      split. { intros S [Q|Q]; [|discriminate]. assert (Q1 := Gk th eq_refl S K). destruct HM as (h0 & M1 & M2 & M3 & M4 & M5); [exact Sv|apply nondir; congruence|]. destruct Xm as (X1 & X2 & X3 & X4).
          unfold meta_eq. repeat split; try congruence. rewrite M4, Xk in *. destruct (h_kind h) eqn:Z; try congruence. rewrite M5, Lk; congruence. }
      rewrite TB. apply trel_nil.
  - (* no entry of that name *)
    destruct (aget n T) as [[th tc]|] eqn:ET; [destruct Hp|]. unfold write_new. cbn [option_map] in *.
    destruct Gd as [(Sv & Dt)|(Sv & th' & E & _)]; [|discriminate]. rewrite Sv. cbn [orb].
    eexists _, true, true, _, []. split; [rewrite Xk; reflexivity|]. split; [apply has_create; exact Ed|].
    split. { destruct (c_ea x), (is_dir (h_kind h)); exact Xk. }
    split. { destruct (c_ea x), (is_dir (h_kind h)); exact Dt. }
    split. { intro S. unfold gea in Ge. destruct (c_ea x) as [| |l|] eqn:Ex.
      - destruct Ge as [Ge _]. rewrite Ge. destruct (is_dir (h_kind h)); reflexivity.
      - destruct Ge as (th' & E' & _). discriminate.
      - subst l. destruct (is_dir (h_kind h)); cbn [with_ea h_ea with_meta fresh]; rewrite !(ea_write_nil (h_ea h)) by exact Nd; apply ea_write_same; exact Nd.
      - rewrite Ge. destruct (is_dir (h_kind h)); reflexivity. }
    split. { intros S [Q|Q]; [|discriminate]. rewrite Q. assert (M := fun h0 => with_meta_g h0 h x Gm). destruct (c_ea x); cbv iota; try (refine (M _ _); intro Z; rewrite (Lk Z); unfold fresh, with_ea; cbn [h_perm]; rewrite Xk, Z; reflexivity). }
    apply trel_nil.
Qed.

Notation rstep := (rstep me_uid me_gid now pol0 rall).
Notation rsteps := (rsteps me_uid me_gid now pol0 rall).
Notation dpost := (dpost now).

Definition entry_g (rp : rpath) (T T' : list (name * node)) (n : name) (x : cnode) : Prop :=
  match x with
  | CIno xh xch => exists h c, cov (n :: rp) = true /\ aget n T' = Some (Node h c) /\ gino (option_map hd_of (aget n T)) xh h /\ gspec (n :: rp) xch (tbelow h (aget n T)) c
  | CDet _ => aget n T' = None /\ cov (n :: rp) = true /\ aget n T <> None
  | CIgn => False end.
Definition list_g (L : list (name * cnode)) : Prop := forall rp T T' f cur stk nm up e d,
  dir_at cur f = Some d -> regular T -> regular T' -> NoDup (map fst L) ->
  (forall n x, In (n, x) L -> entry_g rp T T' n x) -> (forall n, In n (map fst L) -> prel rp (ch_of d) T n) ->
  exists d' b, rsteps (RS f cur stk (RF nm L :: up) e) (RS (fput (rev cur) d' f) cur (mark b stk) (RF nm [] :: up) e) /\
    dpost d d' b /\ (forall n, In n (map fst L) -> prel rp (ch_of d') T' n) /\ (forall n, ~ In n (map fst L) -> aget n (ch_of d') = aget n (ch_of d)).

Lemma list_all_g : forall A, list_g A -> forall rp T T' f cur stk nm up e d,
  dir_at cur f = Some d -> regular T -> regular T' -> gspec rp A T T' -> trel rp (ch_of d) T ->
  exists d' b, rsteps (RS f cur stk (RF nm A :: up) e) (RS (fput (rev cur) d' f) cur (mark b stk) (RF nm [] :: up) e) /\
    dpost d d' b /\ trel rp (ch_of d') T'.
Proof.
  intros A G rp T T' f cur stk nm up e d Hd Rg Rg' As Tr. inversion As as [rp0 A0 C0 T0 Nd Hi Hx Hg Hn]; subst.
  destruct (G rp T T' f cur stk nm up e d Hd Rg Rg' Nd) as (d' & b & St & Dp & Hin & Hout).
  - intros n x I. apply in_aget in I; [|exact Nd]. destruct x as [xh xch|k|]; cbn [entry_g].
    + apply Hi in I. exact I. + apply Hx in I. exact I. + apply Hg in I. exact I.
  - intros n _. apply trel_prel. exact Tr.
  - exists d', b. split; [exact St|]. split; [exact Dp|]. apply trel_prel. intro n.
    destruct (in_dec (list_eq_dec N.eq_dec) n (map fst A)) as [I|I]; [auto|].
    assert (E := Hout n I). apply trel_prel with (n := n) in Tr. apply aget_none in I.
    apply (prel_ext cov s rp (ch_of d) (ch_of d') T' n (eq_sym E)). unfold RestoreProof.prel in *. destruct (cov (n :: rp)) eqn:Ec; [|exact Tr].
    destruct (Hn n I Ec) as [H1 H2]. rewrite H1. rewrite H2 in Tr. exact Tr.
Qed.
Lemma regular_tbelow : forall T h n, regular T -> regular (tbelow h (aget n T)).
Proof.
  intros T h n R. assert (Z : regular []) by (constructor; [constructor|intros ? ? ? []]). unfold tbelow. destruct (aget n T) as [[th tc]|] eqn:E; [|exact Z].
  destruct (_ && _); [|exact Z]. eapply regular_get in E; [|exact R]. apply E.
Qed.
Lemma entry_run_g : forall n x, match x with CIno _ xch => list_g xch | _ => True end ->
  forall rp T T' f cur stk nm rest up e d,
  dir_at cur f = Some d -> regular T -> regular T' -> entry_g rp T T' n x -> prel rp (ch_of d) T n ->
  exists d' b, rsteps (RS f cur stk (RF nm ((n, x) :: rest) :: up) e) (RS (fput (rev cur) d' f) cur (mark b stk) (RF nm rest :: up) e) /\
    dpost d d' b /\ prel rp (ch_of d') T' n /\ (forall m, m <> n -> aget m (ch_of d') = aget m (ch_of d)).
Proof.
  intros n x G rp T T' f cur stk nm rest up e d Hd Rg Rg' Ok Hp. destruct x as [xh xch|k|]; cbn [entry_g] in Ok; [| |destruct Ok].
  - destruct Ok as (h & c & Hc & ET' & Gi & As).
    destruct (regular_get _ _ _ _ Rg' ET') as (Nc & Dd & Ne & Lk & Rc).
    destruct (write_ino_g rp d T n h xh xch Hp Hc) as (d1 & flag & b & h1 & c1 & W & Ha & Kk & Kd & Ke & Km & Ktr); auto.
    { intros th tc E. destruct (regular_get _ _ _ _ Rg E) as (A & B & _). auto. }
    assert (Rb := regular_tbelow T h n Rg). set (Tn := tbelow h (aget n T)) in *.
    assert (Gm := proj1 Gi). assert (Sk : c_kind xh = h_kind h) by apply Gm.
    destruct Ha as (Ho & Hhd & Hg). destruct (dir_at_get _ _ _ Hd) as [Hfd Kdir].
    destruct (is_dir (h_kind h)) eqn:Dir.
    + (* a directory: its entries, then its end *)
      assert (Hd1 : dir_at (n :: cur) (fput (rev cur) d1 f) = Some (Node h1 c1)).
      { apply get_dir_at; [|cbn [hd_of]; rewrite Kk; apply is_dir_spec; exact Dir]. cbn [rev]. rewrite fget_snoc, (fget_put _ _ _ _ Hfd). exact Hg. }
      destruct (list_all_g xch G (n :: rp) Tn c _ (n :: cur) (SF n xh b :: mark flag stk) n (RF nm rest :: up) e (Node h1 c1) Hd1 Rb Rc As Ktr)
        as ([h2 c2] & b2 & St & Dp & Tr2).
      cbn [rev] in St. rewrite (fput_snoc _ n (Node h2 c2) _ d1 (Node h1 c1) (fget_put _ _ _ _ Hfd) Hg) in St. rewrite (fput_put _ _ _ _ _ Hfd) in St.
      set (d2 := Node (hd_of d1) (aset n (Node h2 c2) (ch_of d1))) in *.
      assert (G2 : fget (rev cur) (fput (rev cur) d2 f) = Some d2) by (eapply fget_put; exact Hfd).
      assert (G3 : fget (rev (n :: cur)) (fput (rev cur) d2 f) = Some (Node h2 c2)).
      { cbn [rev]. rewrite fget_snoc, G2. unfold d2. cbn [ch_of]. apply aget_set_same. }
      assert (W1 := step_entry me_uid me_gid now f cur stk nm n (CIno xh xch) rest up e d d1 flag (Some b) Hd W). cbv iota beta in W1. rewrite Sk, Dir in W1.
      assert (Mk : mark b2 (SF n xh b :: mark flag stk) = SF n xh (b || b2) :: mark flag stk).
      { cbn [mark sf_name sf_head]. destruct b2; [rewrite orb_true_r; reflexivity|]. rewrite orb_false_r. reflexivity. }
      rewrite Mk in St.
      set (h3 := if b || b2 then with_meta h2 xh else h2). set (d3 := Node (hd_of d1) (aset n (Node h3 c2) (ch_of d1))).
      assert (W2 : rstep (RS (fput (rev cur) d2 f) (n :: cur) (SF n xh (b || b2) :: mark flag stk) (RF n [] :: RF nm rest :: up) e) =
         Running (RS (fput (rev cur) d3 f) cur (mark flag stk) (RF nm rest :: up) e)).
      { unfold RestoreModel.rstep. cbn [rd rf_rest fs RestoreModel.cur RestoreModel.stk errs]. unfold eod. cbn [RestoreModel.cur RestoreModel.stk fs rd errs tl sf_date sf_name sf_head].
        unfold d3, h3. destruct (b || b2).
        - rewrite G3. cbn [rev]. rewrite (fput_snoc _ n _ _ d2 (Node h2 c2) G2) by (unfold d2; cbn [ch_of]; apply aget_set_same).
          rewrite (fput_put _ _ _ _ _ Hfd). unfold d2. cbn [hd_of ch_of]. rewrite aset_set. reflexivity.
        - reflexivity. }
      exists d3, flag. split.
      { eapply rs_step; [exact W1|]. eapply rsteps_trans; [exact St|]. apply rsteps_one. exact W2. }
      split; [exact Hhd|]. split.
      { unfold RestoreProof.prel. unfold d3. cbn [ch_of]. rewrite aget_set_same, Hc, ET'. cbn [hd_of ch_of]. split; [|exact Tr2].
        assert (K2 : h_kind h2 = h_kind h1 /\ h_data h2 = h_data h1 /\ h_ea h2 = h_ea h1) by (destruct Dp as [E|[_ E]]; cbn [hd_of] in E; rewrite E; auto).
        destruct K2 as (K2 & D2 & E2). unfold h3. split; [|split].
        - destruct (b || b2); cbn; congruence.
        - destruct (b || b2); cbn; congruence.
        - intro S. destruct (b || b2) eqn:Bb.
          + assert (M := with_meta_g h2 h xh Gm). destruct M as (M1 & M2 & M3 & M4).
            { intro Q. rewrite Q in Dir. discriminate. } split; [exact M1|]. split; [exact M2|]. split; [exact M3|]. split; [exact M4|]. cbn. rewrite E2. auto.
          + apply orb_false_iff in Bb. destruct Bb as [-> ->]. destruct (Km S (or_intror eq_refl)) as (M1 & M2 & M3 & M4).
            destruct Dp as [E|[E _]]; [|discriminate]. cbn [hd_of] in E. rewrite E. auto 10. }
      intros m Hm. unfold d3. cbn [ch_of]. rewrite aget_set_other by exact Hm. auto.
    + exists d1, flag. split.
      { apply rsteps_one. rewrite (step_entry me_uid me_gid now f cur stk nm n _ rest up e d d1 flag None Hd W). rewrite Sk, Dir. reflexivity. }
      split; [exact Hhd|]. split; [|exact Ho]. unfold RestoreProof.prel. rewrite Hg, Hc, ET'. cbn [hd_of ch_of].
      assert (KN : h_kind h <> KDir) by (apply nondir; exact Dir). rewrite (Nc KN). split.
      * split; [exact Kk|]. split; [exact Kd|]. intro S. destruct (Km S (or_introl eq_refl)) as (? & ? & ? & ?). auto 10.
      * assert (Z : Tn = []) by (unfold Tn, tbelow; rewrite Dir; destruct (aget n T) as [[? ?]|]; reflexivity). rewrite Z in Ktr. exact Ktr.
  - destruct Ok as (ET' & Hc & ET). unfold RestoreProof.prel in Hp. rewrite Hc in Hp. destruct (aget n T) as [[th tc]|] eqn:ET0; [|congruence].
    destruct (aget n (ch_of d)) as [e0|] eqn:Ed; [|destruct Hp].
    assert (W : write1 d n (CDet k) = (remove now n d, true, WOk None)) by (unfold RestoreModel.write1; rewrite Ed; reflexivity).
    exists (remove now n d), true. split; [apply rsteps_one; exact (step_entry me_uid me_gid now f cur stk nm n _ rest up e d _ true None Hd W)|].
    split; [right; auto|]. unfold remove, touch. cbn [ch_of]. split.
    + unfold RestoreProof.prel. cbn [ch_of]. rewrite aget_del_same, Hc, ET'. exact I.
    + intros m Hm. apply aget_del_other. exact Hm.
Qed.
Lemma list_run_g : forall A, list_g A.
Proof.
  assert (G : forall x, match x with CIno _ A => list_g A | _ => True end).
  { apply cnode_rect'; [|intros; exact I|exact I]. intros _ L IH. induction L as [|[n x] rest IHL].
    - intros rp T T' f cur stk nm up e d Hd Rg Rg' Nd Ok Hp. exists d, false. destruct (dir_at_get _ _ _ Hd) as [Hfd _]. rewrite (fput_id _ _ _ Hfd).
      split; [replace (mark false stk) with stk by (destruct stk; reflexivity); constructor|]. split; [left; reflexivity|]. split; [intros ? []|reflexivity].
    - intros rp T T' f cur stk nm up e d Hd Rg Rg' Nd Ok Hp. inversion Nd as [|? ? Nn Nd']; subst.
      destruct (entry_run_g n x (IH n x (or_introl eq_refl)) rp T T' f cur stk nm rest up e d Hd Rg Rg' (Ok n x (or_introl eq_refl)) (Hp n (or_introl eq_refl)))
        as (d1 & b1 & St1 & Dp1 & P1 & O1).
      destruct (dir_at_get _ _ _ Hd) as [Hfd Kd].
      assert (Hd1 : dir_at cur (fput (rev cur) d1 f) = Some d1) by (apply get_dir_at; [eapply fget_put; exact Hfd|eapply dpost_kind; eauto]).
      destruct (IHL (fun m y I => IH m y (or_intror I)) rp T T' _ cur (mark b1 stk) nm up e d1 Hd1 Rg Rg' Nd') as (d2 & b2 & St2 & Dp2 & P2 & O2).
      { intros m y I. apply Ok. right. exact I. }
      { intros m I. apply (prel_ext cov s rp (ch_of d) (ch_of d1)); [symmetry; apply O1; intros ->; contradiction|]. apply Hp. right. exact I. }
      rewrite (fput_put _ _ _ _ _ Hfd), mark_mark in St2. exists d2, (b1 || b2). split; [eapply rsteps_trans; eauto|].
      split; [eapply dpost_trans; eauto|]. split.
      + intros m [<-|I]; [|auto]. cbn [fst] in *. apply (prel_ext cov s rp (ch_of d1)); [symmetry; apply O2; exact Nn|exact P1].
      + intros m I. cbn [map fst In] in I. rewrite O2 by tauto. apply O1. intros ->. tauto. }
  intro A. exact (G (CIno (CHead KDir 0 0 0 (DT 0 tu_s) (DT 0 tu_s) 0 true [] EA_none) A)).
Qed.
(** one restoration *)
Lemma restore_g : forall A T T' d, h_kind (hd_of d) = KDir -> regular T -> regular T' -> gspec [] A T T' -> trel [] (ch_of d) T ->
  exists st, restore me_uid me_gid now pol0 rall A d = Finished st /\ errs st = 0%nat /\ h_kind (hd_of (fs st)) = KDir /\ trel [] (ch_of (fs st)) T'.
Proof.
  intros A T T' d K Rg Rg' As Tr.
  destruct (list_all_g A (list_run_g A) [] T T' d [] [] [] [] 0%nat d (get_dir_at [] d d eq_refl K) Rg Rg' As Tr) as (d' & b & St & Dp & Tr').
  cbn [rev] in St. cbn [fput] in St.
  replace (mark b []) with (@nil sframe) in St by reflexivity.
  eexists. split; [apply (restore_steps me_uid me_gid now pol0 rall _ _ _ St); reflexivity|]. cbn [errs fs]. split; [reflexivity|]. split; [eapply dpost_kind; eauto|]. exact Tr'.
Qed.
End Gen.
