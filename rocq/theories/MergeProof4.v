(** Proofs for C42, part 4: a full backup and its differential backups merged into one. *)
From Coq Require Import NArith List Bool Lia.
From Verif Require Import Base DatetimeModel PropDatetime PropChange DbModel CritModel RestoreModel RestoreSpec RestoreProof RestoreProof2 RestoreProof3 MergeModel MergeSpec MergeProof MergeProof2 MergeProof3.
Import ListNotations.
Open Scope N_scope.
Local Set Warnings "-notation-overridden".

Lemma all_none : forall A (l : list (name * A)), (forall n, aget n l = None) -> l = [].
Proof. intros A [|[n a] l] H; [reflexivity|]. specialize (H n). cbn in H. rewrite neqb_refl in H. discriminate. Qed.
Lemma gspec_tidy : forall cov s A rp T', gspec cov s rp A [] T' -> regular T' -> tidy A.
Proof.
  intros cov s A. induction A as [A IH] using entries_ind. intros rp T' H R. inversion H as [rp0 A0 T0 T'0 Nd Hi Hx Hg Hn]; subst. constructor; [exact Nd|].
  intros n e I. assert (E := in_aget _ _ _ Nd I). destruct e as [xh xch|k|].
  - destruct (Hi n xh xch E) as (h & c & _ & E' & Gi & Gs). destruct (regular_get _ _ _ _ R E') as (Z & _ & _ & _ & Rc). cbn [entries]. cbn [aget tbelow] in Gs. split.
    + intro D. assert (K : h_kind h <> KDir). { intro Q. cbn in D. destruct Gi as ((Km & _) & _). rewrite Km, Q in D. discriminate. }
      rewrite (Z K) in Gs. inversion Gs as [rp1 A1 T1 T1' Nd1 Hi1 Hx1 Hg1 Hn1]; subst. apply all_none. intro m. destruct (aget m xch) as [[yh yc|k|]|] eqn:Em; [| | |reflexivity].
      * destruct (Hi1 m yh yc Em) as (? & ? & _ & F & _). discriminate.
      * destruct (Hx1 m k Em) as (_ & _ & F). exfalso. apply F. reflexivity.
      * destruct (Hg1 m Em).
    + apply (IH n (CIno xh xch) I (n :: rp) c Gs Rc).
  - cbn. split; [reflexivity|apply tidy_nil].
  - cbn. split; [reflexivity|apply tidy_nil].
Qed.
Lemma gspec_nil : forall cov s rp, gspec cov s rp [] [] [].
Proof. intros. constructor; cbn; try discriminate; auto. constructor. Qed.

Section Flat.
Variables (cap hcap : time_unit) (hourshift : N).
Variable cov : rpath -> bool.
Notation pol := (policy_of hcap flat_policy).
Notation aspec := (aspec cap hourshift cov).
Notation env := (env false cap hourshift).
Notation gs := (gspec cov true).
Notation save_head := (save_head cap hourshift).

Definition ea_partial_b (e : eastat) : bool := match e with EA_partial => true | _ => false end.
Lemma flat_action : forall yh ych xh xch, pol (CIno yh ych) (CIno xh xch) = Ok (if c_saved xh then D_overwrite else D_preserve, if ea_partial_b (c_ea xh) then A_preserve else A_overwrite).
Proof.
  intros yh ych xh xch. unfold policy_of, flat_policy, entry_of.
  assert (Es : e_saved (ino_of xh) = if c_saved xh then ss_saved else ss_not_saved) by reflexivity.
  assert (Ea : e_ea (ino_of xh) = ea_status_of (c_ea xh)) by reflexivity.
  remember (ino_of xh) as j eqn:Ej. cbn [get_action evaluate is_inode get_inode bind negb d_undef e_undef orb]. rewrite Es, Ea. clear.
  destruct (c_saved xh), (c_ea xh); reflexivity.
Qed.
Lemma flat_removed : forall yh ych k, pol (CIno yh ych) (CDet k) = Ok (D_remove, A_clear). Proof. reflexivity. Qed.

(** the inode that results from both *)
Lemma flat_head : forall h1 yh h ref, gino true None yh h1 -> (forall f, ref = Some f -> crel f h1 /\ h_kind h1 = h_kind h /\ hon cap hourshift h1 h) ->
  let xh := save_head h ref in
  let e := if ea_partial_b (c_ea xh) then A_preserve else A_overwrite in
  (c_saved xh = true /\ forall ych xch, exists z, new_entry D_overwrite e (CIno yh ych) (CIno xh xch) = Ok (CIno z xch) /\ gino true None z h) \/
  (c_saved xh = false /\ h_kind h1 = h_kind h /\ forall ych xch, exists z, kept_entry D_preserve e (CIno yh ych) (CIno xh xch) = Ok (CIno z ych) /\ gino true None z h).
Proof.
  intros h1 yh h ref ((K1 & K2 & K3 & K4 & K5) & Gd & Ge & _) Hr. cbv zeta. destruct Gd as [[Ys Yd]|(_ & th & F & _)]; [|discriminate].
  assert (Y : match c_ea yh with EA_full l => l = h_ea h1 | EA_partial => False | _ => h_ea h1 = [] end).
  { unfold gea in Ge. destruct (c_ea yh); [exact (proj1 Ge)|destruct Ge as (? & F & _); discriminate|exact Ge|exact Ge]. }
  assert (X : (c_saved (save_head h ref) = false /\ ref <> None /\ meta_eq h1 h /\ h_data h1 = h_data h \/ c_saved (save_head h ref) = true /\ c_data (save_head h ref) = h_data h) /\
     match c_ea (save_head h ref) with EA_full l => l = h_ea h | EA_removed => h_ea h = [] | EA_none => h_ea h = [] | EA_partial => h_ea h1 = h_ea h end).
  { destruct ref as [f|].
    - destruct (Hr f eq_refl) as (Cr & K & Hn). destruct (save_same cap hourshift h1 h f Cr K Hn) as [A B]. split.
      + destruct A as [(A1 & A2 & A3)|A]; [left; split; [exact A1|split; [discriminate|split; [exact A2|exact A3]]]|right; exact A].
      + destruct (c_ea (save_head h (Some f))); try exact B. apply B.
    - split; [right; split; reflexivity|]. rewrite save_none_ea. destruct (h_ea h); reflexivity. }
  destruct X as [Xd Xe].
  assert (Gm : gmeta (save_head h ref) h) by (repeat split). remember (save_head h ref) as xh eqn:Ex.
  destruct Xd as [(Sv & Rn & (M1 & M2 & M3 & M4) & M5)|[Sv Xd]]; [right|left].
  - split; [exact Sv|]. destruct ref as [f|]; [|congruence]. destruct (Hr f eq_refl) as (_ & K & _). split; [exact K|]. intros ych xch.
    destruct (ea_partial_b (c_ea xh)) eqn:Ep.
    + exists yh. split; [reflexivity|]. split; [repeat split; congruence|]. split; [left; split; [exact Ys|congruence]|]. split; [|discriminate].
      destruct (c_ea xh); try discriminate. unfold gea. destruct (c_ea yh); try (destruct Y; fail); try congruence. split; [congruence|discriminate].
    + cbn [kept_entry ea_transfert bind]. eexists. split; [reflexivity|]. split; [repeat split; cbn; congruence|]. split; [left; split; cbn; [exact Ys|congruence]|]. split; [|discriminate].
      unfold gea. cbn [put_ea c_ea]. destruct (c_ea xh); try discriminate; try congruence; (split; [exact Xe|discriminate]).
  - split; [exact Sv|]. intros ych xch. destruct (ea_partial_b (c_ea xh)) eqn:Ep.
    + unfold new_entry. cbn [ea_transfert bind]. eexists. split; [reflexivity|]. split; [destruct Gm as (G1 & G2 & G3 & G4 & G5); repeat split; cbn; assumption|].
      split; [left; split; cbn; assumption|]. split; [|discriminate]. destruct (c_ea xh); try discriminate. unfold gea. cbn [put_ea c_ea]. destruct (c_ea yh); try (destruct Y; fail); try congruence; (split; [congruence|discriminate]).
    + exists xh. split; [reflexivity|]. split; [exact Gm|]. split; [left; split; assumption|]. split; [|discriminate]. unfold gea. destruct (c_ea xh); try discriminate; try congruence. split; [congruence|discriminate].
Qed.

Lemma flat_list : forall a rp C T1 T2 M, env T1 T2 -> cmatch cov rp C T1 -> aspec rp a C T2 -> gs rp M [] T1 ->
  exists M', merge_list pol all_of_it false rp a M = Ok M' /\ gs rp M' [] T2.
Proof.
  intro a. induction a as [a IH] using entries_ind. intros rp C T1 T2 M En Cm As Gm.
  assert (En' := En). destruct En' as (R1 & R2 & Hh & _). assert (Tm := gspec_tidy _ _ _ _ _ Gm R1).
  inversion As as [rp0 A0 C0 T0 Nd Hi Hx Hg Hn]; subst. inversion Gm as [rp1 A1 T1' T2' MNd Mi Mx Mg Mn]; subst.
  assert (Mget : forall n, cov (n :: rp) = true -> match aget n T1 with
     | Some (Node h1 c1) => exists yh ych, aget n M = Some (CIno yh ych) /\ gino true None yh h1 /\ gs (n :: rp) ych [] c1
     | None => aget n M = None end).
  { intros n Ec. destruct (aget n M) as [[yh ych|k|]|] eqn:E.
    - destruct (Mi n yh ych E) as (h & c & _ & E' & Gi & Gs). rewrite E'. exists yh, ych. split; [reflexivity|]. split; [exact Gi|exact Gs].
    - destruct (Mx n k E) as (_ & _ & F). exfalso. apply F. reflexivity.
    - destruct (Mg n E).
    - destruct (Mn n E Ec) as [-> _]. reflexivity. }
  assert (S : forall n x, In (n, x) a -> exists p,
    merge_entry pol all_of_it false (merge_node pol all_of_it false (n :: rp) x) rp n x (aget n M) = Ok p /\
    match aget n T2 with
    | None => put_get p (aget n M) = None
    | Some (Node h c) => cov (n :: rp) = true /\ exists z d, put_get p (aget n M) = Some (CIno z d) /\ gino true None z h /\ gs (n :: rp) d [] c
    end).
  { intros n x I. assert (E := in_aget _ _ _ Nd I). destruct x as [xh xch|k|].
    - destruct (Hi n xh xch E) as (h & c & Ec & E2 & Xh & Xs). rewrite E2. destruct (regular_get _ _ _ _ R2 E2) as (Z2 & _ & _ & _ & Rc2).
      specialize (Mget n Ec). unfold merge_entry, all_of_it at 1.
      assert (Kx : dir_of (CIno xh xch) = is_dir (h_kind h)) by (rewrite Xh; reflexivity).
      (* what is below, when nothing was there *)
      assert (Fresh : below h (aget n C) = [] -> exists d, (if dir_of (CIno xh xch) then merge_node pol all_of_it false (n :: rp) (CIno xh xch) [] else Ok []) = Ok d /\ gs (n :: rp) d [] c).
      { intro Z. rewrite Kx. destruct (is_dir (h_kind h)) eqn:Dh.
        - rewrite Z in Xs. rewrite merge_node_entries. apply (IH n (CIno xh xch) I (n :: rp) [] [] c []).
          + split; [apply regular_nil|]. split; [exact Rc2|]. split; [|discriminate]. intros p ? ? F. rewrite look_nil in F. discriminate.
          + apply cmatch_nil. + exact Xs. + apply gspec_nil.
        - exists []. split; [reflexivity|]. rewrite Z2 by (apply nondir; exact Dh). apply gspec_nil. }
      destruct (aget n T1) as [[h1 c1]|] eqn:E1.
      + destruct Mget as (yh & ych & Em & Gi & Gs). rewrite Em. rewrite flat_action. cbn [bind].
        destruct (cmatch_get cov rp C T1 n h1 c1 Cm E1 Ec) as (fh & fch & Ef & Cr & Cmc).
        destruct (regular_get _ _ _ _ R1 E1) as (Z1 & _ & _ & _ & Rc1).
        destruct (env_at false cap hourshift T1 T2 n h c h1 c1 En E2 E1) as (_ & _ & Hon & _).
        assert (Ky : dir_of (CIno yh ych) = is_dir (h_kind h1)) by (destruct Gi as ((Q & _) & _); cbn; rewrite Q; reflexivity).
        assert (Kf : c_kind fh = h_kind h1) by apply Cr.
        assert (Rf : forall f, ref_inode h (aget n C) = Some f -> crel f h1 /\ h_kind h1 = h_kind h /\ hon cap hourshift h1 h).
        { intros f Q. rewrite Ef in Q. cbn [ref_inode] in Q. destruct (kind_eqb (h_kind h) (c_kind fh)) eqn:Kk; [|discriminate]. injection Q as <-. apply kind_eqb_spec in Kk. split; [exact Cr|]. split; [congruence|exact Hon]. }
        assert (FH := flat_head h1 yh h (ref_inode h (aget n C)) Gi Rf). cbv zeta in FH. rewrite <- Xh in FH.
        assert (Both : is_dir (h_kind h1) = true -> is_dir (h_kind h) = true -> exists d, merge_node pol all_of_it false (n :: rp) (CIno xh xch) ych = Ok d /\ gs (n :: rp) d [] c).
        { intros D1 D2. rewrite merge_node_entries. apply (IH n (CIno xh xch) I (n :: rp) (below h (aget n C)) c1 c ych).
          - eapply env_below; [exact En|exact E2|right; eauto].
          - rewrite Ef. unfold below. rewrite D2. cbn [ref_below]. rewrite Kf, D1. exact Cmc.
          - exact Xs.
          - exact Gs. }
        assert (Not : is_dir (h_kind h1) = false -> below h (aget n C) = []).
        { intro D1. rewrite Ef. unfold below. cbn [ref_below]. rewrite Kf, D1. destruct (is_dir (h_kind h)); reflexivity. }
        assert (Not2 : is_dir (h_kind h) = false -> below h (aget n C) = []) by (intro D2; unfold below; rewrite D2; reflexivity).
        rewrite Kx, Ky. destruct FH as [[Sv FH]|(Sv & Kk & FH)]; destruct (FH ych xch) as (z & Ez & Gz); rewrite Sv; rewrite Ez; cbn [bind].
        * destruct (is_dir (h_kind h1)) eqn:D1; cbn [andb].
          -- destruct (is_dir (h_kind h)) eqn:D2.
             ++ cbn [below_of]. destruct (Both eq_refl eq_refl) as (d & -> & Gd). cbn [bind with_below]. eexists. split; [reflexivity|]. split; [exact Ec|]. exists z, d. split; [reflexivity|]. split; [exact Gz|exact Gd].
             ++ destruct (Fresh (Not2 eq_refl)) as (d & Ed & Gd). rewrite Kx in Ed. cbv iota in Ed. rewrite Ed. cbn [bind with_below]. eexists. split; [reflexivity|]. split; [exact Ec|]. exists z, d. split; [reflexivity|]. split; [exact Gz|exact Gd].
          -- destruct (Fresh (Not eq_refl)) as (d & Ed & Gd). rewrite Kx in Ed. rewrite Ed. cbn [bind with_below]. eexists. split; [reflexivity|]. split; [exact Ec|]. exists z, d. split; [reflexivity|]. split; [exact Gz|exact Gd].
        * rewrite <- Kk in *. destruct (is_dir (h_kind h1)) eqn:D1; cbn [andb].
          -- cbn [below_of]. destruct (Both eq_refl eq_refl) as (d & -> & Gd). cbn [bind with_below]. eexists. split; [reflexivity|]. split; [exact Ec|]. exists z, d. split; [reflexivity|]. split; [exact Gz|exact Gd].
          -- eexists. split; [reflexivity|]. split; [exact Ec|]. exists z, ych. split; [reflexivity|]. split; [exact Gz|].
             assert (N1 : h_kind h1 <> KDir) by (apply nondir; exact D1). assert (N2 : h_kind h <> KDir) by congruence.
             rewrite (Z2 N1). rewrite (Z1 N1) in Gs. exact Gs.
      + rewrite Mget. destruct (cmatch_none cov rp C T1 n h Cm E1) as [Rn Bn]. destruct (Fresh Bn) as (d & -> & Gd). cbn [bind with_below]. eexists. split; [reflexivity|]. split; [exact Ec|].
        exists xh, d. split; [reflexivity|]. split; [|exact Gd]. rewrite Xh, Rn. apply (full_gino true h).
    - destruct (Hx n k E) as (E2 & fh & fch & Ef). rewrite E2. inversion Cm as [rp2 C2 T3 Cm1 Cm2]; subst. destruct (Cm1 n fh fch Ef) as (Ec & h1 & c1 & E1 & _).
      specialize (Mget n Ec). rewrite E1 in Mget. destruct Mget as (yh & ych & Em & _). rewrite Em. unfold merge_entry, all_of_it at 1. rewrite flat_removed. cbn [bind]. eexists. split; [reflexivity|]. reflexivity.
    - destruct (Hg n E). }
  destruct (merge_names pol all_of_it false rp a M Nd) as (M' & EM & HM & HN & HD).
  { intros n x I. destruct (S n x I) as (p & E & _). eauto. }
  exists M'. split; [exact EM|]. specialize (HD MNd).
  assert (GM : forall n, match aget n T2 with
    | Some (Node h c) => if cov (n :: rp) then exists z d, aget n M' = Some (CIno z d) /\ gino true None z h /\ gs (n :: rp) d [] c else aget n M' = None
    | None => aget n M' = None end).
  { intro n. destruct (aget n a) as [x|] eqn:Ex.
    - destruct (S n x (aget_in _ _ _ Ex)) as (p & E & Q). specialize (HM n x p Ex E). rewrite HM. destruct (aget n T2) as [[h c]|]; [|exact Q]. destruct Q as (Ec & Q). rewrite Ec. exact Q.
    - specialize (HN n Ex). destruct (Hn n Ex) as [Q1 Q2].
      assert (Nm : aget n M = None).
      { destruct (aget n M) as [[yh ych|k|]|] eqn:Em; [| | |reflexivity].
        - destruct (Mi n yh ych Em) as (h1 & c1 & Ec & E1 & _). destruct Q1 as [Q1|Q1]; [|congruence].
          destruct (cmatch_get cov rp C T1 n h1 c1 Cm E1 Ec) as (fh & fch & Ef & _). destruct (Q2 Q1 fh fch Ef).
        - destruct (Mx n k Em) as (_ & _ & F). exfalso. apply F. reflexivity.
        - destruct (Mg n Em). }
      rewrite HN, Nm. destruct (aget n T2) as [[h c]|]; [|reflexivity]. destruct Q1 as [Q1|Q1]; [discriminate|]. rewrite Q1. reflexivity. }
  constructor; [exact HD| | | |].
  - intros n xh xch E. specialize (GM n). destruct (aget n T2) as [[h c]|]; [|congruence]. destruct (cov (n :: rp)); [|congruence]. destruct GM as (z & d & Q & Gz & Gd). rewrite E in Q. injection Q as <- <-.
    exists h, c. split; [reflexivity|]. split; [reflexivity|]. split; [exact Gz|exact Gd].
  - intros n k E. specialize (GM n). destruct (aget n T2) as [[h c]|]; [|congruence]. destruct (cov (n :: rp)); [|congruence]. destruct GM as (z & d & Q & _). congruence.
  - intros n E. specialize (GM n). destruct (aget n T2) as [[h c]|]; [|congruence]. destruct (cov (n :: rp)); [|congruence]. destruct GM as (z & d & Q & _). congruence.
  - intros n E Ec. specialize (GM n). rewrite Ec in GM. split; [|reflexivity]. destruct (aget n T2) as [[h c]|]; [|reflexivity]. destruct GM as (z & d & Q & _). congruence.
Qed.

(** the whole history *)
Lemma flat_chain : forall states C T M, regular T -> cmatch cov [] C T -> cnodup C -> gs [] M [] T -> (forall t, In t states -> regular t) -> consecutive (honest cap hourshift) (T :: states) ->
  exists M', merge_all hcap flat_policy M (archives cap hourshift cov C states) = Ok M' /\ gs [] M' [] (last states T).
Proof.
  induction states as [|t l IH]; intros C T M R Cm Cn Gm Rs Cs.
  - exists M. auto.
  - cbn [consecutive] in Cs. destruct Cs as [Hh Cs]. assert (Rt : regular t) by (apply Rs; left; reflexivity).
    destruct (back_aspec cap hourshift cov t Rt [] C Cn) as [As Cn'].
    destruct (flat_list (back cap hourshift cov [] C t) [] C T t M) as (M1 & E1 & G1); [split; [exact R|split; [exact Rt|split; [exact Hh|discriminate]]]|exact Cm|exact As|exact Gm|].
    cbn [archives merge_all]. unfold merge. rewrite first_all by (eapply gspec_tidy; [exact Gm|exact R]). cbn [bind]. change (backup cap hourshift cov C t) with (back cap hourshift cov [] C t). rewrite E1.
    destruct (IH (back cap hourshift cov [] C t) t M1 Rt) as (M' & E & G); [eapply aspec_cmatch; exact As|exact Cn'|exact G1|intros; apply Rs; right; assumption|exact Cs|].
    exists M'. split; [exact E|]. destruct l as [|t2 l]; [exact G|]. change (last (t :: t2 :: l) T) with (last (t2 :: l) T). rewrite (last_any _ t2 l T t). exact G.
Qed.
End Flat.
