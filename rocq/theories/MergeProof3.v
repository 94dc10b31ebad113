(** Proofs for C42, part 3: decremental backups. *)
From Coq Require Import NArith List Bool Lia.
From Verif Require Import Base DatetimeModel PropDatetime PropChange DbModel CritModel PropCrit RestoreModel RestoreSpec RestoreProof RestoreProof2 RestoreProof3 MergeModel MergeSpec MergeProof MergeProof2.
Import ListNotations.
Open Scope N_scope.
Local Set Warnings "-notation-overridden".

(** ---------- full backups ---------- *)
Section Full.
Variable cov : rpath -> bool.
Definition fb (rp : rpath) (T : list (name * node)) : list (name * cnode) := back tu_ns 0 cov rp [] T.
Definition fh (h : head) : chead := save_head tu_ns 0 h None.
Lemma full_get : forall T rp n, regular T -> aget n (fb rp T) =
  match aget n T with Some (Node h c) => if cov (n :: rp) then Some (CIno (fh h) (fb (n :: rp) c)) else None | None => None end.
Proof.
  intros T rp n R. unfold fb, back. rewrite destroyed_ref_nil. inversion R; subst. rewrite written_get by (rewrite save_fst; assumption). rewrite save_get.
  destruct (aget n T) as [[h c]|]; [|reflexivity]. destruct (cov (n :: rp)); [|reflexivity]. cbn [ref_child aget]. rewrite back_below, written_CIno.
  cbn [ref_inode ref_below]. rewrite save_none. reflexivity.
Qed.
Lemma fb_nil : forall rp, fb rp [] = []. Proof. reflexivity. Qed.
Lemma full_nodup : forall T rp, regular T -> NoDup (map fst (fb rp T)).
Proof. intros T rp R. inversion R; subst. unfold fb, back. rewrite destroyed_ref_nil. apply written_nodup. rewrite save_fst. assumption. Qed.
Lemma full_in : forall T rp n x, regular T -> In (n, x) (fb rp T) -> exists h c, aget n T = Some (Node h c) /\ cov (n :: rp) = true /\ x = CIno (fh h) (fb (n :: rp) c).
Proof.
  intros T rp n x R I. apply in_aget in I; [|apply full_nodup; exact R]. rewrite full_get in I by exact R. destruct (aget n T) as [[h c]|]; [|discriminate].
  destruct (cov (n :: rp)); [|discriminate]. injection I as <-. eauto.
Qed.
Lemma full_tidy : forall T, regular T -> forall rp, tidy (fb rp T).
Proof.
  assert (G : forall t, regular (ch_of t) -> forall rp, tidy (fb rp (ch_of t))).
  { intro t. induction t as [h0 ch IH] using node_rect'. intros R rp. cbn [ch_of] in *. constructor; [apply full_nodup; exact R|]. intros n x I. destruct (full_in _ _ _ _ R I) as (h & c & E & Ec & ->).
    destruct (regular_get _ _ _ _ R E) as (Z & _ & _ & _ & Rc). cbn [entries]. split.
    - intro D. rewrite Z; [apply fb_nil|]. intro K. cbn [is_directory fh RestoreModel.save_head c_kind] in D. rewrite K in D. discriminate.
    - apply (IH n (Node h c)); [apply aget_in; exact E|exact Rc]. }
  intros T R. exact (G (Node (Head KDir 0 0 0 (DT 0 tu_s) (DT 0 tu_s) [] []) T) R).
Qed.
Lemma full_gino : forall s h, gino s None (fh h) h.
Proof.
  intros s h. split; [repeat split|]. split; [left; split; reflexivity|]. split; [|discriminate]. unfold gea. unfold fh. rewrite save_none_ea. destruct (h_ea h); [split; [reflexivity|discriminate]|reflexivity].
Qed.
Lemma full_gspec : forall s T, regular T -> forall rp, gspec cov s rp (fb rp T) [] T.
Proof.
  intro s. assert (G : forall t, regular (ch_of t) -> forall rp, gspec cov s rp (fb rp (ch_of t)) [] (ch_of t)).
  { intro t. induction t as [h0 ch IH] using node_rect'. intros R rp. cbn [ch_of] in *. constructor; [apply full_nodup; exact R| | | |].
    - intros n xh xch E. rewrite full_get in E by exact R. destruct (aget n ch) as [[h c]|] eqn:E'; [|discriminate]. destruct (cov (n :: rp)) eqn:Ec; [|discriminate]. injection E as <- <-.
      exists h, c. split; [reflexivity|]. split; [reflexivity|]. split; [apply full_gino|]. cbn [aget tbelow]. apply (IH n (Node h c)); [apply aget_in; exact E'|]. eapply regular_get in E'; [|exact R]. apply E'.
    - intros n k E. rewrite full_get in E by exact R. destruct (aget n ch) as [[h c]|]; [|discriminate]. destruct (cov (n :: rp)); discriminate.
    - intros n E. rewrite full_get in E by exact R. destruct (aget n ch) as [[h c]|]; [|discriminate]. destruct (cov (n :: rp)); discriminate.
    - intros n E Ec. rewrite full_get in E by exact R. destruct (aget n ch) as [[h c]|]; [|auto]. rewrite Ec in E. discriminate. }
  intros T R. exact (G (Node (Head KDir 0 0 0 (DT 0 tu_s) (DT 0 tu_s) [] []) T) R).
Qed.
End Full.

(** ---------- the policy ---------- *)
Section Decr.
Variable cap : time_unit.
Lemma recent0_both : forall a b ra rb,
  (if dge a b then Ok true else equal_with_hourshift cap 0 a b) = Ok ra -> (if dge b a then Ok true else equal_with_hourshift cap 0 b a) = Ok rb ->
  ra = true -> rb = true -> instant a / coarser cap a b = instant b / coarser cap a b.
Proof.
  intros a b ra rb A B -> ->. assert (Cp : 0 < coarser cap a b) by (unfold coarser; destruct (unit_max _ _); cbn; unfold G; lia).
  assert (Cs : coarser cap b a = coarser cap a b) by (unfold coarser; destruct (uni a), (uni b), cap; reflexivity).
  destruct (dge a b) eqn:E1.
  - destruct (dge b a) eqn:E2.
    + apply dge_true in E1, E2. f_equal. lia.
    + destruct (hourshift_spec cap 0 b a) as (r & Er & H). rewrite Er in B. injection B as ->. destruct (proj1 H eq_refl) as (k & K1 & K2). rewrite Cs in K2.
      assert (k = 0) by lia. subst k. unfold ndist in K2. rewrite N.mul_0_l in K2. apply N.mul_eq_0 in K2. destruct K2 as [K2|K2]; [|lia]. lia.
  - destruct (hourshift_spec cap 0 a b) as (r & Er & H). rewrite Er in A. injection A as ->. destruct (proj1 H eq_refl) as (k & K1 & K2).
    assert (k = 0) by lia. subst k. unfold ndist in K2. rewrite N.mul_0_l in K2. apply N.mul_eq_0 in K2. destruct K2 as [K2|K2]; [|lia]. lia.
Qed.
Definition kt (k : fkind) : Prop := match k with KOther c => In c [98; 99; 112; 115] | _ => True end.
Lemma class_kind : forall a b, kt a -> kt b -> same_class (kind_of a) (kind_of b) = true -> a = b.
Proof.
  intros a b A B. destruct a as [| | |x], b as [| | |y]; cbn in *; intro H; try reflexivity; try discriminate;
  repeat match goal with F : _ \/ _ |- _ => destruct F end; try contradiction; subst; cbn in *; try discriminate; reflexivity.
Qed.
Lemma dt_eq_eq : forall a b, dt_eq a b = true -> a = b.
Proof.
  intros [v u] [w t]. unfold dt_eq. cbn. intro H. apply andb_true_iff in H. destruct H as [H1 H2]. apply N.eqb_eq in H2. subst. destruct u, t; try discriminate; reflexivity.
Qed.
Lemma decr_action : forall y x ych xch, kt (h_kind y) -> kt (h_kind x) ->
  exists da ea, policy_of cap decr_policy (CIno (fh y) ych) (CIno (fh x) xch) = Ok (da, ea) /\
    (da = D_preserve \/ da = D_preserve_mark /\ h_kind x = h_kind y /\ h_uid x = h_uid y /\ h_gid x = h_gid y /\ h_perm x = h_perm y /\ h_mtime x = h_mtime y /\
       (h_kind x = KFile -> length (h_data x) = length (h_data y)) /\ (h_kind x = KLink -> h_data x = h_data y)) /\
    (ea = A_preserve \/ ea = A_preserve_mark /\
       (h_ea y = [] /\ h_ea x = [] \/ instant (h_ctime x) / coarser cap (h_ctime x) (h_ctime y) = instant (h_ctime y) / coarser cap (h_ctime x) (h_ctime y))).
Proof.
  intros y x ych xch Ky Kx. unfold policy_of, entry_of.
  set (a := EInode (ino_of (fh y))). set (b := EInode (ino_of (fh x))).
  (* the first expression *)
  assert (P1 : exists da, get_action cap (P_test (C_and [C_same_data; C_data_recent 0; C_invert (C_data_recent 0); C_or [C_new_hardlinked; C_not C_hardlinked]])
       (P_const D_preserve_mark A_undefined) (P_const D_preserve A_undefined)) a b = Ok (da, A_undefined) /\
     (da = D_preserve \/ da = D_preserve_mark /\ same_inode_data a b = Ok true)).
  { assert (S : exists r, same_inode_data a b = Ok r).
    { unfold same_inode_data. destruct (same_type a b) eqn:St; [|eexists; reflexivity]. cbn [negb]. unfold a at 1. cbn [is_inode negb].
      unfold a, b. cbn [get_inode]. unfold a, b, same_type in St. cbn [get_inode] in St. set (i := ino_of (fh y)) in *. set (j := ino_of (fh x)) in *.
      destruct (negb (e_uid i =? e_uid j)); [eexists; reflexivity|]. destruct (negb (e_gid i =? e_gid j)); [eexists; reflexivity|]. destruct (negb (e_perm i =? e_perm j)); [eexists; reflexivity|]. destruct (negb (dt_eq (e_mtime i) (e_mtime j))); [eexists; reflexivity|].
      assert (Sf : is_file_kind (e_kind i) = is_file_kind (e_kind j) /\ (is_device (e_kind i) = true -> is_device (e_kind j) = true) /\ (is_lien (e_kind i) = true -> is_lien (e_kind j) = true)).
      { destruct (e_kind i), (e_kind j); cbn in *; try discriminate; auto. }
      destruct Sf as (Sf & Sd & Sl). rewrite Sf. destruct (is_file_kind (e_kind j)); cbn [bind].
      - destruct (e_size i =? e_size j); cbn [negb]; [|eexists; reflexivity]. destruct (is_device (e_kind i)); cbn [andb bind].
        + rewrite Sd by reflexivity. destruct (saved_eqb (e_saved i) ss_saved), (saved_eqb (e_saved j) ss_saved), (e_major i =? e_major j), (e_minor i =? e_minor j); cbn [negb bind andb]; try (eexists; reflexivity);
          destruct (is_lien (e_kind i)); cbn [andb]; try (eexists; reflexivity); rewrite Sl by reflexivity; cbn [negb]; eexists; reflexivity.
        + destruct (is_lien (e_kind i)); cbn [andb]; [|eexists; reflexivity]. rewrite Sl by reflexivity. cbn [negb]. destruct (saved_eqb (e_saved i) ss_saved); [|eexists; reflexivity]. destruct (saved_eqb (e_saved j) ss_saved); eexists; reflexivity.
      - cbn [negb]. destruct (is_device (e_kind i)); cbn [andb bind].
        + rewrite Sd by reflexivity. destruct (saved_eqb (e_saved i) ss_saved), (saved_eqb (e_saved j) ss_saved), (e_major i =? e_major j), (e_minor i =? e_minor j); cbn [negb bind andb]; try (eexists; reflexivity);
          destruct (is_lien (e_kind i)); cbn [andb]; try (eexists; reflexivity); rewrite Sl by reflexivity; cbn [negb]; eexists; reflexivity.
        + destruct (is_lien (e_kind i)); cbn [andb]; [|eexists; reflexivity]. rewrite Sl by reflexivity. cbn [negb]. destruct (saved_eqb (e_saved i) ss_saved); [|eexists; reflexivity]. destruct (saved_eqb (e_saved j) ss_saved); eexists; reflexivity. }
    destruct S as (r & S). cbn [get_action evaluate]. rewrite S. cbn [bind]. destruct r; [|cbn [get_action]; eexists; split; [reflexivity|left; reflexivity]].
    unfold a, b. cbn [get_inode]. set (m1 := e_mtime (ino_of (fh y))). set (m2 := e_mtime (ino_of (fh x))).
    destruct (recent_spec cap 0 m1 m2) as (r1 & E1 & _). destruct (recent_spec cap 0 m2 m1) as (r2 & E2 & _). rewrite E1. cbn [bind]. destruct r1; [|eexists; split; [reflexivity|left; reflexivity]].
    rewrite E2. cbn [bind]. destruct r2; [|eexists; split; [reflexivity|left; reflexivity]]. cbn [bind negb]. eexists; split; [reflexivity|right; split; reflexivity]. }
  (* the second *)
  assert (P2 : exists ea, get_action cap (P_test (C_or [C_and [C_EA_present; C_invert C_EA_present; C_EA_recent 0; C_invert (C_EA_recent 0)];
                   C_and [C_not C_EA_present; C_not (C_invert C_EA_present)]])
       (P_const D_undefined A_preserve_mark) (P_const D_undefined A_preserve)) a b = Ok (D_undefined, ea) /\
    (ea = A_preserve \/ ea = A_preserve_mark /\
       (h_ea y = [] /\ h_ea x = [] \/ instant (h_ctime x) / coarser cap (h_ctime x) (h_ctime y) = instant (h_ctime y) / coarser cap (h_ctime x) (h_ctime y)))).
  { assert (He : forall h, has_ea (e_ea (ino_of (fh h))) = match h_ea h with [] => false | _ => true end).
    { intro h. unfold fh. cbn [ino_of e_ea]. rewrite save_none_ea. destruct (h_ea h); reflexivity. }
    cbn [get_action evaluate]. unfold a, b. cbn [bind]. unfold ea_ctime. cbn [get_inode].
    destruct (has_ea (e_ea (ino_of (fh y)))) eqn:Ey; destruct (has_ea (e_ea (ino_of (fh x)))) eqn:Ex; cbn [negb bind].
    2: eexists; split; [reflexivity|left; reflexivity]. 2: eexists; split; [reflexivity|left; reflexivity].
    2: { rewrite He in Ey, Ex. eexists; split; [reflexivity|]. right. split; [reflexivity|]. left. destruct (h_ea y), (h_ea x); auto; try discriminate. }
    change (e_ctime (ino_of (fh y))) with (h_ctime y). change (e_ctime (ino_of (fh x))) with (h_ctime x).
    destruct (recent_spec cap 0 (h_ctime y) (h_ctime x)) as (r1 & E1 & _). destruct (recent_spec cap 0 (h_ctime x) (h_ctime y)) as (r2 & E2 & _). rewrite E1. cbn [bind].
    destruct r1; [|eexists; split; [reflexivity|left; reflexivity]]. rewrite E2. cbn [bind]. destruct r2; [|eexists; split; [reflexivity|left; reflexivity]].
    eexists; split; [reflexivity|right; split; [reflexivity|]]. right. exact (recent0_both _ _ _ _ E2 E1 eq_refl eq_refl). }
  destruct P1 as (da & E1 & H1), P2 as (ea & E2 & H2). exists da, ea. split; [|split; [|exact H2]].
  - unfold decr_policy. remember (P_test (C_and _) _ _) as p1 eqn:Q1. remember (P_test (C_or _) _ _) as p2 eqn:Q2. cbn [get_action d_undef e_undef orb]. rewrite E1. cbn [bind]. clear H2.
    destruct H1 as [->|[-> _]]; cbn [d_undef e_undef orb negb]; rewrite E2; reflexivity.
  - destruct H1 as [->|[-> S]]; [left; reflexivity|]. right. split; [reflexivity|]. clear - S Ky Kx.
    unfold same_inode_data in S. destruct (same_type a b) eqn:St; [|discriminate]. cbn [negb] in S. unfold a, b, same_type in St. cbn [get_inode] in St.
    assert (K : h_kind y = h_kind x) by (apply class_kind; assumption).
    unfold a, b in S. cbn [is_inode negb get_inode] in S. unfold ino_of in S.
    cbn [e_uid e_gid e_perm e_mtime e_size e_saved e_major e_minor e_target e_kind fh RestoreModel.save_head c_kind c_uid c_gid c_perm c_mtime c_saved c_data negb c_size] in S.
    destruct (h_uid y =? h_uid x) eqn:U; [|discriminate]. destruct (h_gid y =? h_gid x) eqn:Gd; [|discriminate]. destruct (h_perm y =? h_perm x) eqn:Pm; [|discriminate].
    destruct (dt_eq (h_mtime y) (h_mtime x)) eqn:Dt; [|discriminate]. cbn [negb] in S. apply N.eqb_eq in U, Gd, Pm. apply dt_eq_eq in Dt.
    repeat match goal with |- _ /\ _ => split end; try congruence.
    + intro Kf. rewrite K, Kf in S. cbn [kind_of is_file_kind bind] in S. destruct (size_of y =? size_of x) eqn:Sz; [|discriminate]. apply N.eqb_eq in Sz. unfold size_of in Sz. lia.
    + intro Kl. rewrite K, Kl in S. cbn in S. injection S as S. apply bytes_eqb_iff in S. congruence.
Qed.

Variable cov : rpath -> bool.
Variable s : bool.
Definition back_env (T2 T1 : list (name * node)) : Prop :=
  regular T2 /\ regular T1 /\ honest_back cap T2 T1 /\ known_types T2 /\ known_types T1 /\ (s = true -> ea_kept T2 T1).
Lemma back_env_below : forall T2 T1 n h2 c2 h1 c1, back_env T2 T1 -> aget n T2 = Some (Node h2 c2) -> aget n T1 = Some (Node h1 c1) -> back_env c2 c1.
Proof.
  intros T2 T1 n h2 c2 h1 c1 (R2 & R1 & Hb & K2 & K1 & Ek) E2 E1.
  assert (L2 : forall p a, look c2 p = Some a -> look T2 (n :: p) = Some a) by (intros p a H; rewrite (look_sub T2 n h2 c2); [exact H|exact E2|intros ->; discriminate]).
  assert (L1 : forall p a, look c1 p = Some a -> look T1 (n :: p) = Some a) by (intros p a H; rewrite (look_sub T1 n h1 c1); [exact H|exact E1|intros ->; discriminate]).
  split; [eapply regular_get in E2; [|exact R2]; apply E2|]. split; [eapply regular_get in E1; [|exact R1]; apply E1|].
  split; [intros p a b A B; apply (Hb (n :: p)); auto|]. split; [intros p a A; apply (K2 (n :: p)); auto|]. split; [intros p a A; apply (K1 (n :: p)); auto|].
  intros S p a b A B. apply (Ek S (n :: p)); auto.
Qed.

Lemma decr_g : forall T2 T1, back_env T2 T1 -> forall rp, exists D,
  merge_list (policy_of cap decr_policy) all_of_it true rp (fb cov rp T2) (fb cov rp T1) = Ok D /\ gspec cov s rp D T2 T1.
Proof.
  assert (G : forall t2 T1, back_env (ch_of t2) T1 -> forall rp, exists D,
    merge_list (policy_of cap decr_policy) all_of_it true rp (fb cov rp (ch_of t2)) (fb cov rp T1) = Ok D /\ gspec cov s rp D (ch_of t2) T1).
  2: { intros T2 T1 E. exact (G (Node (Head KDir 0 0 0 (DT 0 tu_s) (DT 0 tu_s) [] []) T2) T1 E). }
  intro t. induction t as [h0 T2 IH] using node_rect'. intros T1 En rp. cbn [ch_of] in *. assert (En' := En). destruct En' as (R2 & R1 & Hb & K2 & K1 & Ek).
  assert (S : forall n x, In (n, x) (fb cov rp T2) -> exists h2 c2, aget n T2 = Some (Node h2 c2) /\ cov (n :: rp) = true /\ exists p,
    merge_entry (policy_of cap decr_policy) all_of_it true (merge_node (policy_of cap decr_policy) all_of_it true (n :: rp) x) rp n x (aget n (fb cov rp T1)) = Ok p /\
    match aget n T1 with
    | None => exists k, p = PMove (CDet k)
    | Some (Node h1 c1) => exists y1 d, p = PSet (CIno y1 d) /\ gino s (Some h2) y1 h1 /\ gspec cov s (n :: rp) d (tbelow h1 (Some (Node h2 c2))) c1
    end).
  { intros n x I. destruct (full_in _ _ _ _ _ R2 I) as (h2 & c2 & E2 & Ec & ->). exists h2, c2. split; [exact E2|]. split; [exact Ec|].
    rewrite full_get by exact R1. unfold merge_entry, all_of_it at 1. rewrite Ec. destruct (aget n T1) as [[h1 c1]|] eqn:E1; [|eexists; split; [reflexivity|eauto]].
    destruct (Hb [n] h2 h1 (look_one _ _ _ _ E2) (look_one _ _ _ _ E1)) as [Hd He].
    assert (Kn2 := K2 [n] h2 (look_one _ _ _ _ E2)). assert (Kn1 := K1 [n] h1 (look_one _ _ _ _ E1)).
    destruct (decr_action h1 h2 (fb cov (n :: rp) c1) (fb cov (n :: rp) c2) Kn1 Kn2) as (da & ea & Ea & Hda & Hea). rewrite Ea. cbn [bind].
    assert (KE : exists y1, kept_entry da ea (CIno (fh h1) (fb cov (n :: rp) c1)) (CIno (fh h2) (fb cov (n :: rp) c2)) = Ok (CIno y1 (fb cov (n :: rp) c1)) /\ gino s (Some h2) y1 h1).
    { set (h1m := match da with D_preserve_mark => drop_data (fh h1) | _ => fh h1 end).
      exists (match ea with A_preserve_mark => put_ea h1m (mark_ea (c_ea h1m)) | _ => h1m end). split.
      - cbn [kept_entry]. change (c_saved (fh h1)) with true. cbv iota. unfold h1m. destruct Hda as [->|[-> _]], Hea as [->|[-> _]]; reflexivity.
      - assert (CE : c_ea (fh h1) = match h_ea h1 with [] => EA_none | l => EA_full l end) by reflexivity.
        split; [unfold h1m; destruct Hda as [->|[-> _]], Hea as [->|[-> _]]; repeat split|]. split; [|split].
        + destruct Hda as [->|(-> & Q1 & Q2 & Q3 & Q4 & Q5 & Q6 & Q7)].
          * left. unfold h1m. destruct Hea as [->|[-> _]]; split; reflexivity.
          * right. split; [unfold h1m; destruct Hea as [->|[-> _]]; reflexivity|]. exists h2. split; [reflexivity|]. split; [exact Q1|]. split; [split; [exact Q2|split; [exact Q3|split; [exact Q4|exact Q5]]]|].
            destruct (kind_eqb (h_kind h2) KLink) eqn:Kl; [apply kind_eqb_spec in Kl; auto|]. apply Hd; auto. intro Q. rewrite Q in Kl. discriminate.
        + assert (CEm : c_ea h1m = match h_ea h1 with [] => EA_none | l => EA_full l end) by (unfold h1m; destruct Hda as [->|[-> _]]; reflexivity).
          assert (No : h_ea h1 = [] -> forall th, Some h2 = Some th -> s = true -> h_ea th = []).
          { intros Q th F Hs. injection F as <-. destruct (Ek Hs [n] h2 h1 (look_one _ _ _ _ E2) (look_one _ _ _ _ E1)) as [[Z|Z] _]; [exact Z|contradiction]. }
          unfold gea. destruct Hea as [->|[-> Q]].
          * rewrite CEm. destruct (h_ea h1) as [|kv l]; [split; [reflexivity|auto]|reflexivity].
          * cbn [put_ea c_ea]. rewrite CEm. destruct (h_ea h1) as [|kv l] eqn:El; cbn [mark_ea]; [split; [reflexivity|auto]|]. exists h2. split; [reflexivity|]. intros _.
            destruct Q as [[Q _]|Q]; [discriminate|]. auto.
        + intros th F Hs Q. injection F as <-. destruct (Ek Hs [n] h2 h1 (look_one _ _ _ _ E2) (look_one _ _ _ _ E1)) as [_ Z]. auto. }
    destruct KE as (y1 & KE & Gi). rewrite KE. cbn [bind].
    assert (Two : (dir_of (CIno (fh h1) (fb cov (n :: rp) c1)) && dir_of (CIno (fh h2) (fb cov (n :: rp) c2))) = (is_dir (h_kind h1) && is_dir (h_kind h2))%bool) by reflexivity.
    destruct (regular_get _ _ _ _ R1 E1) as (Z1 & _ & _ & _ & Rc1).
    assert (Tb : tbelow h1 (Some (Node h2 c2)) = if (is_dir (h_kind h1) && is_dir (h_kind h2))%bool then c2 else []) by reflexivity.
    destruct (is_dir (h_kind h1) && is_dir (h_kind h2))%bool eqn:Dd.
    - destruct (IH n (Node h2 c2) (aget_in _ _ _ E2) c1 (back_env_below _ _ _ _ _ _ _ En E2 E1) (n :: rp)) as (D & ED & GD). cbn [ch_of] in ED, GD.
      rewrite Two. rewrite merge_node_entries. cbn [entries below_of]. rewrite ED. cbn [bind with_below].
      destruct Hda as [->|[-> _]]; (eexists; split; [reflexivity|]; exists y1, D; split; [reflexivity|]; split; [exact Gi|]; rewrite Tb; exact GD).
    - rewrite Two. destruct Hda as [->|[-> _]]; (eexists; split; [reflexivity|]; exists y1, (fb cov (n :: rp) c1); split; [reflexivity|]; split; [exact Gi|]; rewrite Tb; apply full_gspec; exact Rc1). }
  destruct (merge_names (policy_of cap decr_policy) all_of_it true rp (fb cov rp T2) (fb cov rp T1) (full_nodup cov T2 rp R2)) as (M & EM & HM & HN & HD).
  { intros n x I. destruct (S n x I) as (h2 & c2 & _ & _ & p & E & _). eauto. }
  exists M. split; [exact EM|]. specialize (HD (full_nodup cov T1 rp R1)).
  assert (GM : forall n, match aget n T2, aget n T1 with
    | Some (Node h2 c2), Some (Node h1 c1) => if cov (n :: rp) then exists y1 d, aget n M = Some (CIno y1 d) /\ gino s (Some h2) y1 h1 /\ gspec cov s (n :: rp) d (tbelow h1 (Some (Node h2 c2))) c1 else aget n M = None
    | Some _, None => if cov (n :: rp) then exists k, aget n M = Some (CDet k) else aget n M = None
    | None, Some (Node h1 c1) => if cov (n :: rp) then aget n M = Some (CIno (fh h1) (fb cov (n :: rp) c1)) else aget n M = None
    | None, None => aget n M = None end).
  { intro n. destruct (aget n (fb cov rp T2)) as [x|] eqn:Ex.
    - destruct (S n x (aget_in _ _ _ Ex)) as (h2 & c2 & E2 & Ec & p & E & Q). rewrite E2, Ec. specialize (HM n x p Ex E). destruct (aget n T1) as [[h1 c1]|].
      + destruct Q as (y1 & d & -> & Q). exists y1, d. split; [exact HM|exact Q].
      + destruct Q as (k & ->). exists k. exact HM.
    - specialize (HN n Ex). rewrite full_get in Ex, HN by assumption. destruct (aget n T2) as [[h2 c2]|].
      + destruct (cov (n :: rp)); [discriminate|]. rewrite HN. destruct (aget n T1) as [[h1 c1]|]; reflexivity.
      + destruct (aget n T1) as [[h1 c1]|]; [|exact HN]. destruct (cov (n :: rp)); exact HN. }
  constructor; [exact HD| | | |].
  - intros n xh xch E. specialize (GM n). destruct (aget n T2) as [[h2 c2]|] eqn:E2, (aget n T1) as [[h1 c1]|] eqn:E1; destruct (cov (n :: rp)) eqn:Ec; try congruence.
    + destruct GM as (y1 & d & Q & Gi & Gs). rewrite E in Q. injection Q as <- <-. exists h1, c1. split; [reflexivity|]. split; [reflexivity|]. split; [exact Gi|exact Gs].
    + destruct GM as (k & Q). congruence.
    + rewrite E in GM. injection GM as -> ->. exists h1, c1. split; [reflexivity|]. split; [reflexivity|]. split; [apply full_gino|]. cbn [tbelow]. apply full_gspec. eapply regular_get in E1; [|exact R1]. apply E1.
  - intros n k E. specialize (GM n). destruct (aget n T2) as [[h2 c2]|] eqn:E2, (aget n T1) as [[h1 c1]|] eqn:E1; destruct (cov (n :: rp)) eqn:Ec; try congruence.
    + destruct GM as (y1 & d & Q & _). congruence.
    + split; [reflexivity|]. split; [reflexivity|discriminate].
  - intros n E. specialize (GM n). destruct (aget n T2) as [[h2 c2]|] eqn:E2, (aget n T1) as [[h1 c1]|] eqn:E1; destruct (cov (n :: rp)) eqn:Ec; try congruence.
    + destruct GM as (y1 & d & Q & _). congruence.
    + destruct GM as (k & Q). congruence.
  - intros n E Ec. specialize (GM n). rewrite Ec in GM. destruct (aget n T2) as [[h2 c2]|] eqn:E2, (aget n T1) as [[h1 c1]|] eqn:E1; try congruence; try (split; reflexivity).
    + destruct GM as (y1 & d & Q & _). congruence.
    + destruct GM as (k & Q). congruence.
Qed.
End Decr.
