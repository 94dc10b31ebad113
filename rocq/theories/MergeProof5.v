(** Proofs for C42, part 5: two inodes in conflict, whatever the policy. *)
From Coq Require Import NArith List Bool Lia.
From Verif Require Import Base DatetimeModel PropDatetime PropChange DbModel CritModel RestoreModel RestoreSpec RestoreProof MergeModel MergeSpec MergeProof2.
Import ListNotations.
Open Scope N_scope.
Local Set Warnings "-notation-overridden".

Lemma merge_ea_get : forall l1 l2 k, entry_named k (merge_ea l1 l2) = match entry_named k l1 with Some v => Some v | None => entry_named k l2 end.
Proof.
  intros l1 l2 k. rewrite <- !aget_named. unfold merge_ea. rewrite aget_app. destruct (aget k l1) as [v|] eqn:E; [reflexivity|].
  induction l2 as [|[m v] l2 IH]; [reflexivity|]. cbn [filter fst]. destruct (aget m l1) as [w|] eqn:Em.
  - cbn [aget]. destruct (name_eqb k m) eqn:Ek; [apply neqb_spec in Ek; congruence|exact IH].
  - cbn [aget]. destruct (name_eqb k m); [reflexivity|exact IH].
Qed.
Definition keeps (da : adata) : Prop := da = D_preserve \/ da = D_preserve_mark \/ da = D_undefined.
Definition replaces (da : adata) : Prop := da = D_overwrite \/ da = D_overwrite_mark.
(** what is wrong with r: see the refutation *)
Definition clear_ok (da : adata) (ea : aea) (yh : chead) : Prop := ea = A_clear -> keeps da \/ c_ea yh <> EA_none.
Lemma kept_rule : forall da ea yh ych xh xch, keeps da -> ea <> A_ask -> exists z, kept_entry da ea (CIno yh ych) (CIno xh xch) = Ok (CIno z ych) /\ c_kind z = c_kind yh /\ data_rule da yh xh z /\ ea_rule ea yh xh z.
Proof.
  intros da ea yh ych xh xch K Na. cbn [kept_entry]. set (y := match da with D_preserve_mark => _ | _ => _ end).
  assert (Y : c_kind y = c_kind yh /\ c_uid y = c_uid yh /\ c_gid y = c_gid yh /\ c_perm y = c_perm yh /\ c_mtime y = c_mtime yh /\ c_size y = c_size yh /\ c_ctime y = c_ctime yh /\ c_ea y = c_ea yh /\
    match da with D_preserve_mark => c_saved y = false | _ => y = yh end).
  { unfold y. destruct K as [->|[->| ->]]; try (repeat split; fail). destruct (c_saved yh) eqn:S; repeat split; assumption. }
  destruct Y as (Y1 & Y2 & Y3 & Y4 & Y5 & Y6 & Y7 & Y8 & Y9). clearbody y.
  assert (D : forall z, c_kind z = c_kind y -> c_uid z = c_uid y -> c_gid z = c_gid y -> c_perm z = c_perm y -> c_mtime z = c_mtime y -> c_size z = c_size y -> c_saved z = c_saved y -> c_data z = c_data y ->
    c_kind z = c_kind yh /\ data_rule da yh xh z).
  { intros z A B C E F G H I. split; [congruence|]. unfold data_rule. destruct K as [->|[->| ->]]; repeat split; try congruence. }
  destruct ea; try congruence; cbn [ea_transfert bind].
  - exists y. split; [reflexivity|]. destruct (D y) as [D1 D2]; auto. split; [exact D1|]. split; [exact D2|]. split; [left; exact Y8|exact Y7].
  - eexists. split; [reflexivity|]. edestruct D as [D1 D2]; [..|split; [exact D1|split; [exact D2|]]]; try reflexivity. cbn [ea_rule put_ea put_ctime c_ea c_ctime]. split; [|reflexivity].
    destruct (c_ea xh); [left|left|left|right]; auto.
  - eexists. split; [reflexivity|]. edestruct D as [D1 D2]; [..|split; [exact D1|split; [exact D2|]]]; try reflexivity.
  - eexists. split; [reflexivity|]. edestruct D as [D1 D2]; [..|split; [exact D1|split; [exact D2|]]]; try reflexivity. cbn [ea_rule put_ea c_ea c_ctime]. rewrite Y8. split; [destruct (c_ea yh); reflexivity|exact Y7].
  - eexists. split; [reflexivity|]. edestruct D as [D1 D2]; [..|split; [exact D1|split; [exact D2|]]]; try reflexivity. cbn [ea_rule put_ea c_ea c_ctime]. split; [destruct (c_ea xh); reflexivity|reflexivity].
  - rewrite Y8. destruct (c_ea yh) as [| |l1|] eqn:Ey, (c_ea xh) as [| |l2|] eqn:Ex; (eexists; split; [reflexivity|]; edestruct D as [D1 D2]; [..|split; [exact D1|split; [exact D2|]]]; try reflexivity;
      cbn [ea_rule put_ea c_ea c_ctime]; rewrite Ey, Ex; cbn [union_of]; split; try exact I; try exact Y7; try congruence; try reflexivity).
    eexists. split; [reflexivity|]. apply merge_ea_get.
  - cbn [put_ctime c_ea]. rewrite Y8. destruct (c_ea yh) as [| |l1|] eqn:Ey, (c_ea xh) as [| |l2|] eqn:Ex; (eexists; split; [reflexivity|]; edestruct D as [D1 D2]; [..|split; [exact D1|split; [exact D2|]]]; try reflexivity;
      cbn [ea_rule put_ea put_ctime c_ea c_ctime]; rewrite ?Ey, ?Ex, ?Y8; cbn [union_of]; split; try exact I; try congruence; try reflexivity).
    eexists. split; [reflexivity|]. apply merge_ea_get.
  - exists y. split; [reflexivity|]. destruct (D y) as [D1 D2]; auto. split; [exact D1|]. split; [exact D2|]. split; [left; exact Y8|exact Y7].
Qed.
Lemma new_rule : forall da ea yh ych xh xch, replaces da -> ea <> A_ask -> clear_ok da ea yh ->
  exists z, new_entry da ea (CIno yh ych) (CIno xh xch) = Ok (CIno z xch) /\ c_kind z = c_kind xh /\ data_rule da yh xh z /\ ea_rule ea yh xh z.
Proof.
  intros da ea yh ych xh xch K Na Hc. unfold new_entry. cbv zeta. set (x := match da with D_overwrite_mark => _ | _ => _ end).
  assert (Y : c_kind x = c_kind xh /\ c_uid x = c_uid xh /\ c_gid x = c_gid xh /\ c_perm x = c_perm xh /\ c_mtime x = c_mtime xh /\ c_size x = c_size xh /\ c_ctime x = c_ctime xh /\ c_ea x = c_ea xh /\
    match da with D_overwrite_mark => c_saved x = false | _ => x = xh end).
  { unfold x. destruct K as [->| ->]; try (repeat split; fail). destruct (c_saved xh) eqn:S; repeat split; assumption. }
  destruct Y as (Y1 & Y2 & Y3 & Y4 & Y5 & Y6 & Y7 & Y8 & Y9). clearbody x.
  assert (D : forall z, c_kind z = c_kind x -> c_uid z = c_uid x -> c_gid z = c_gid x -> c_perm z = c_perm x -> c_mtime z = c_mtime x -> c_size z = c_size x -> c_saved z = c_saved x -> c_data z = c_data x ->
    c_kind z = c_kind xh /\ data_rule da yh xh z).
  { intros z A B C E F G H I. split; [congruence|]. unfold data_rule. destruct K as [->| ->]; repeat split; try congruence. }
  destruct ea; try congruence; cbn [ea_transfert bind].
  - eexists. split; [reflexivity|]. edestruct D as [D1 D2]; [..|split; [exact D1|split; [exact D2|]]]; try reflexivity. cbn [ea_rule put_ea put_ctime c_ea c_ctime]. split; [|reflexivity].
    destruct (c_ea yh); [left|left|left|right]; auto.
  - exists x. split; [reflexivity|]. destruct (D x) as [D1 D2]; auto. split; [exact D1|]. split; [exact D2|]. split; [left; exact Y8|exact Y7].
  - destruct (Hc eq_refl) as [Q|Q]; [destruct K as [->| ->], Q as [Q|[Q|Q]]; discriminate|]. destruct (c_ea yh) eqn:Ey; try congruence;
    (eexists; split; [reflexivity|]; edestruct D as [D1 D2]; [..|split; [exact D1|split; [exact D2|]]]; reflexivity).
  - eexists. split; [reflexivity|]. edestruct D as [D1 D2]; [..|split; [exact D1|split; [exact D2|]]]; try reflexivity. cbn [ea_rule put_ea c_ea c_ctime]. split; [destruct (c_ea yh); reflexivity|reflexivity].
  - eexists. split; [reflexivity|]. edestruct D as [D1 D2]; [..|split; [exact D1|split; [exact D2|]]]; try reflexivity. cbn [ea_rule put_ea c_ea c_ctime]. rewrite Y8. split; [destruct (c_ea xh); reflexivity|exact Y7].
  - cbn [put_ctime c_ea]. rewrite Y8. destruct (c_ea yh) as [| |l1|] eqn:Ey, (c_ea xh) as [| |l2|] eqn:Ex; (eexists; split; [reflexivity|]; edestruct D as [D1 D2]; [..|split; [exact D1|split; [exact D2|]]]; try reflexivity;
      cbn [ea_rule put_ea put_ctime c_ea c_ctime]; rewrite ?Ey, ?Ex, ?Y8; cbn [union_of]; split; try exact I; try congruence; try reflexivity).
    eexists. split; [reflexivity|]. apply merge_ea_get.
  - rewrite Y8. destruct (c_ea yh) as [| |l1|] eqn:Ey, (c_ea xh) as [| |l2|] eqn:Ex; (eexists; split; [reflexivity|]; edestruct D as [D1 D2]; [..|split; [exact D1|split; [exact D2|]]]; try reflexivity;
      cbn [ea_rule put_ea c_ea c_ctime]; rewrite ?Ey, ?Ex; cbn [union_of]; split; try exact I; try exact Y7; try congruence; try reflexivity).
    eexists. split; [reflexivity|]. apply merge_ea_get.
  - eexists. split; [reflexivity|]. edestruct D as [D1 D2]; [..|split; [exact D1|split; [exact D2|]]]; try reflexivity. cbn [ea_rule put_ea put_ctime c_ea c_ctime]. split; [|reflexivity].
    destruct (c_ea yh); [left|left|left|right]; auto.
Qed.

Section Pol.
Variable cap : time_unit.
Variable P : policy.
Variable cov : rpath -> bool -> bool.
Notation pol := (policy_of cap P).
Hypothesis HP : forall a b, exists da ea, get_action cap P (EInode a) (EInode b) = Ok (da, ea) /\ (keeps da \/ replaces da) /\ ea <> A_ask /\ (ea = A_clear -> keeps da).

Definition conflict (rp : rpath) (cur B M : list (name * cnode)) : Prop :=
  forall p yh xh, found all_of_it rp cur p = Some (CIno yh []) -> found cov rp B p = Some (CIno xh []) ->
    exists da ea zh, get_action cap P (EInode (ino_of yh)) (EInode (ino_of xh)) = Ok (da, ea) /\ found all_of_it rp M p = Some (CIno zh []) /\ data_rule da yh xh zh /\ ea_rule ea yh xh zh.
Lemma inodes_in : forall l n e, inodes_only l -> In (n, e) l -> (exists h c, e = CIno h c) /\ inodes_only (entries e).
Proof. intros l n e H I. inversion H; subst. eauto. Qed.
Lemma inodes_nil : inodes_only []. Proof. constructor. intros ? ? []. Qed.
Lemma conflict_list : forall B, tidy B -> inodes_only B -> forall rp cur, tidy cur -> inodes_only cur ->
  exists M, merge_list pol cov false rp B cur = Ok M /\ conflict rp cur B M.
Proof.
  intro B. induction B as [B IH] using entries_ind. intros TB OB rp cur TC OC.
  assert (U : forall n x, In (n, x) B -> forall c, tidy c -> inodes_only c -> exists M, merge_node pol cov false (n :: rp) x c = Ok M /\ conflict (n :: rp) c (entries x) M).
  { intros n x I c Tc Oc. rewrite merge_node_entries. apply (IH n x I); [exact (proj2 (tidy_in _ _ _ TB I))|exact (proj2 (inodes_in _ _ _ OB I))|exact Tc|exact Oc]. }
  assert (S : forall n x, In (n, x) B -> exists p, merge_entry pol cov false (merge_node pol cov false (n :: rp) x) rp n x (aget n cur) = Ok p /\
    (cov (n :: rp) (is_directory x) = true -> forall yh ych xh xch, aget n cur = Some (CIno yh ych) -> x = CIno xh xch ->
       exists da ea zh c, get_action cap P (EInode (ino_of yh)) (EInode (ino_of xh)) = Ok (da, ea) /\ data_rule da yh xh zh /\ ea_rule ea yh xh zh /\
         put_get p (aget n cur) = Some (CIno zh c) /\ (is_directory (CIno yh []) = true -> is_directory (CIno xh []) = true -> conflict (n :: rp) ych xch c))).
  { intros n x I. destruct (inodes_in _ _ _ OB I) as [(xh & xch & ->) _]. unfold merge_entry. rewrite !dir_of_is. destruct (cov (n :: rp) (is_directory (CIno xh xch))); [|eexists; split; [reflexivity|discriminate]].
    destruct (aget n cur) as [y|] eqn:Ey.
    - destruct (inodes_in _ _ _ OC (aget_in _ _ _ Ey)) as [(yh & ych & ->) Oy]. destruct (tidy_get _ _ _ TC Ey) as [_ Ty]. cbn [entries] in Oy, Ty.
      destruct (HP (ino_of yh) (ino_of xh)) as (da & ea & Ea & [K|K] & Na & Hc); unfold policy_of; cbn [entry_of]; rewrite Ea; cbn [bind].
      + destruct (kept_rule da ea yh ych xh xch K Na) as (z & Ez & Kz & Dz & Rz). rewrite Ez. cbn [bind]. rewrite !dir_of_is.
        change (is_directory (CIno yh ych)) with (is_directory (CIno yh [])). change (is_directory (CIno xh xch)) with (is_directory (CIno xh [])).
        destruct (is_directory (CIno yh []) && is_directory (CIno xh [])) eqn:Dd.
        * destruct (U n _ I ych Ty Oy) as (M & EM & CM). cbn [below_of]. unfold policy_of in EM. rewrite EM. cbn [bind with_below].
          exists (PSet (CIno z M)). split; [destruct K as [->|[->| ->]]; reflexivity|]. intros _ yh0 ych0 xh0 xch0 Q1 Q2. injection Q1 as <- <-. injection Q2 as <- <-.
          exists da, ea, z, M. split; [exact Ea|]. split; [exact Dz|]. split; [exact Rz|]. split; [reflexivity|]. intros _ _. exact CM.
        * exists (PSet (CIno z ych)). split; [destruct K as [->|[->| ->]]; reflexivity|]. intros _ yh0 ych0 xh0 xch0 Q1 Q2. injection Q1 as <- <-. injection Q2 as <- <-.
          exists da, ea, z, ych. split; [exact Ea|]. split; [exact Dz|]. split; [exact Rz|]. split; [reflexivity|]. intros Z1 Z2. rewrite Z1, Z2 in Dd. discriminate.
      + assert (Hc' : clear_ok da ea yh) by (intro Q; left; auto).
        destruct (new_rule da ea yh ych xh xch K Na Hc') as (z & Ez & Kz & Dz & Rz). rewrite Ez. cbn [bind]. rewrite !dir_of_is.
        change (is_directory (CIno yh ych)) with (is_directory (CIno yh [])). change (is_directory (CIno xh xch)) with (is_directory (CIno xh [])).
        destruct (is_directory (CIno yh []) && is_directory (CIno xh [])) eqn:Dd.
        * destruct (U n _ I ych Ty Oy) as (M & EM & CM). cbn [below_of]. unfold policy_of in EM. rewrite EM. cbn [bind with_below].
          exists (PSet (CIno z M)). split; [destruct K as [->| ->]; reflexivity|]. intros _ yh0 ych0 xh0 xch0 Q1 Q2. injection Q1 as <- <-. injection Q2 as <- <-.
          exists da, ea, z, M. split; [exact Ea|]. split; [exact Dz|]. split; [exact Rz|]. split; [reflexivity|]. intros _ _. exact CM.
        * destruct (U n _ I [] tidy_nil inodes_nil) as (M & EM & CM). unfold policy_of in EM. rewrite EM.
          exists (PMove (CIno z (if is_directory (CIno xh []) then M else []))). split; [destruct K as [->| ->], (is_directory (CIno xh [])); reflexivity|]. intros _ yh0 ych0 xh0 xch0 Q1 Q2. injection Q1 as <- <-. injection Q2 as <- <-.
          eexists da, ea, z, _. split; [exact Ea|]. split; [exact Dz|]. split; [exact Rz|]. split; [reflexivity|]. intros Z1 Z2. rewrite Z1, Z2 in Dd. discriminate.
    - destruct (is_directory (CIno xh xch)).
      + destruct (U n _ I [] tidy_nil inodes_nil) as (M & EM & CM). rewrite EM. eexists. split; [reflexivity|]. intros _ yh ych ? ? Q. discriminate.
      + eexists. split; [reflexivity|]. intros _ yh ych ? ? Q. discriminate. }
  destruct (merge_names pol cov false rp B cur (tidy_nodup _ TB)) as (M & EM & HM & HN & HD).
  { intros n x I. destruct (S n x I) as (p & E & _). eauto. }
  exists M. split; [exact EM|]. intros p yh xh Fy Fx. destruct p as [|n r]; [discriminate|]. rewrite found_cons in Fy, Fx |- *.
  destruct (aget n cur) as [y|] eqn:Ey; [|discriminate]. destruct (aget n B) as [x|] eqn:Ex; [|discriminate]. destruct (cov (n :: rp) (is_directory x)) eqn:Ec; [|discriminate].
  unfold all_of_it at 1 in Fy. destruct (inodes_in _ _ _ OC (aget_in _ _ _ Ey)) as [(y1 & yc & ->) _]. destruct (inodes_in _ _ _ OB (aget_in _ _ _ Ex)) as [(x1 & xc & ->) _].
  destruct (S n _ (aget_in _ _ _ Ex)) as (p & E & Q). specialize (HM n _ p Ex E). rewrite Ey in *. destruct (Q Ec y1 yc x1 xc eq_refl eq_refl) as (da & ea & zh & c & A & D & R & G & C). rewrite G in HM. rewrite HM. unfold all_of_it at 1.
  destruct r as [|m r].
  - cbn [alone] in *. injection Fy as <-. injection Fx as <-. exists da, ea, zh. auto.
  - cbn [entries] in *. assert (D1 : is_directory (CIno y1 []) = true).
    { destruct (is_directory (CIno y1 [])) eqn:Z; [reflexivity|]. destruct (tidy_get _ _ _ TC Ey) as [T _]. cbn [entries] in T. rewrite T in Fy by exact Z. rewrite found_nil in Fy. discriminate. }
    assert (D2 : is_directory (CIno x1 []) = true).
    { destruct (is_directory (CIno x1 [])) eqn:Z; [reflexivity|]. destruct (tidy_get _ _ _ TB Ex) as [T _]. cbn [entries] in T. rewrite T in Fx by exact Z. rewrite found_nil in Fx. discriminate. }
    exact (C D1 D2 (m :: r) yh xh Fy Fx).
Qed.
(** the first archive keeps its inodes *)
Lemma found_inodes : forall p cov' rp l e, inodes_only l -> found cov' rp l p = Some e -> exists h, e = CIno h [].
Proof.
  induction p as [|n r IH]; intros cov' rp l e O F; [discriminate|]. rewrite found_cons in F. destruct (aget n l) as [x|] eqn:E; [|discriminate]. destruct (cov' (n :: rp) (is_directory x)); [|discriminate].
  destruct (inodes_in _ _ _ O (aget_in _ _ _ E)) as [(h & c & ->) O']. destruct r as [|m r]; [injection F as <-; eauto|]. eapply IH; eauto.
Qed.
Lemma inodes_found : forall l rp, NoDup (map fst l) -> (forall n x, In (n, x) l -> tidy (entries x)) -> (forall p e, found all_of_it rp l p = Some e -> exists h, e = CIno h []) -> inodes_only l.
Proof.
  intro l. induction l as [l IH] using entries_ind. intros rp Nd T H. constructor. intros n e I. assert (E := in_aget _ _ _ Nd I). split.
  - specialize (H [n] (alone e)). rewrite found_cons, E in H. destruct (H eq_refl) as (h & Q). destruct e as [h0 c|k|]; [eauto|discriminate|discriminate].
  - apply (IH n e I (n :: rp)); [apply tidy_nodup; eauto|intros m y J; exact (proj2 (tidy_in _ _ _ (T n e I) J))|]. intros p a F. destruct p as [|m r]; [discriminate|]. apply (H (n :: m :: r) a). rewrite found_cons, E. exact F.
Qed.
Lemma conflict_merge : forall A B, tidy A -> tidy B -> inodes_only A -> inodes_only B ->
  exists M, merge pol cov false A B = Ok M /\ forall p yh xh, found cov [] A p = Some (CIno yh []) -> found cov [] B p = Some (CIno xh []) ->
    exists da ea zh, get_action cap P (EInode (ino_of yh)) (EInode (ino_of xh)) = Ok (da, ea) /\ found all_of_it [] M p = Some (CIno zh []) /\ data_rule da yh xh zh /\ ea_rule ea yh xh zh.
Proof.
  intros A B TA TB OA OB. destruct (first_pass cov pol A TA []) as (C & EC & TC & HC). unfold merge. rewrite EC. cbn [bind].
  destruct (conflict_list B TB OB [] C TC) as (M & EM & CM).
  - apply (inodes_found C []); [apply tidy_nodup; exact TC|intros n x I; exact (proj2 (tidy_in _ _ _ TC I))|]. intros p e F. rewrite HC in F. exact (found_inodes _ _ _ _ _ OA F).
  - exists M. split; [exact EM|]. intros p yh xh Fy Fx. apply (CM p yh xh); [rewrite HC; exact Fy|exact Fx].
Qed.
End Pol.
