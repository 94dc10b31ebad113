(** Proofs for C41, part 3: restoring all the entries of an archive. *)
From Coq Require Import NArith List Bool Lia.
From Verif Require Import Base DatetimeModel PropDatetime PropChange CritModel RestoreModel RestoreSpec RestoreProof RestoreProof2 LinkModel LinkSpec LinkProof LinkProof2.
Import ListNotations.
Open Scope N_scope.
Local Set Warnings "-notation-overridden".

Section All.
Variables (me_uid me_gid : N) (now : datetime).
Variable Ps : list (name * N).
Variable ent : name -> N -> lent.
Variable E : N -> option N.
Variable X : N -> chead.
Variable Hh : N -> head.
Variable star : N -> chead.
Variable R : lfs.
Notation sv i := (c_saved (X i)).
Notation eas i := (ea_is_saved (c_ea (X i)) = true).
Definition first (i : N) (q : name) : Prop := exists A B, Ps = A ++ (q, i) :: B /\ forall r, ~ In (r, i) A.
Hypothesis ND : NoDup (map fst Ps).
Hypothesis HX : forall p i, In (p, i) Ps -> holds (X i) (Hh i).
Hypothesis HE : forall p i, In (p, i) Ps -> (ent p i = LPlain (X i) /\ forall q, In (q, i) Ps -> q = p) \/ exists e, ent p i = LMir e /\ E i = Some e /\ star e = X i.
Hypothesis Einj : forall i j e, E i = Some e -> E j = Some e -> i = j.
Hypothesis K0 : lfs_ok R.
Hypothesis K1 : forall i q, first i q -> sv i = false -> exists k, nm R q = Some k /\ mkeep (tb R k) (Hh i) /\ (eas i \/ h_ea (tb R k) = h_ea (Hh i)).
Hypothesis K2 : forall i q p k, first i q -> sv i = false -> In (p, i) Ps -> nm R p = Some k -> nm R q = Some k.
Hypothesis K3 : forall i j q r, first i q -> first j r -> sv i = false -> sv j = false -> nm R q = nm R r -> i = j.
Hypothesis K4 : forall i p k, first i p -> sv i = true -> nm R p = Some k -> eas i \/ h_ea (tb R k) = h_ea (Hh i).
Hypothesis K4j : forall i p k, In (p, i) Ps -> ~ first i p -> sv i = true -> nm R p = Some k -> h_ea (tb R k) = [] \/ h_ea (tb R k) = h_ea (Hh i).
Hypothesis K4n : forall i p, first i p -> sv i = true -> nm R p = None -> eas i \/ h_ea (Hh i) = [].
Hypothesis K6 : forall i p k j r, In (p, i) Ps -> sv i = true -> nm R p = Some k -> first j r -> sv j = false -> nm R r <> Some k.

Lemma first_in : forall i q, first i q -> In (q, i) Ps. Proof. intros i q (A & B & EP & _). rewrite EP. apply in_or_app. right. left. reflexivity. Qed.
Lemma first_ex : forall i p, In (p, i) Ps -> exists q, first i q.
Proof.
  intros i p Hin. unfold first. clear - Hin. induction Ps as [|[r j] l IH]; [destruct Hin|]. destruct (N.eq_dec j i) as [->|Hn].
  - exists r, [], l. split; [reflexivity|]. intros ? [].
  - destruct Hin as [Hin|Hin]; [congruence|]. destruct (IH Hin) as (q & A & B & EP & Q). rewrite EP. exists q, ((r, j) :: A), B. split; [reflexivity|]. intros r' [Z|Z]; [congruence|exact (Q _ Z)].
Qed.
Lemma fst_inj : forall p i j, In (p, i) Ps -> In (p, j) Ps -> i = j.
Proof. intros p i j A B. apply in_aget in A; [|exact ND]. apply in_aget in B; [|exact ND]. congruence. Qed.
Lemma first_uniq : forall i q r, first i q -> first i r -> q = r.
Proof.
  intros i q r (A & B & E1 & F1) (A' & B' & E2 & F2). rewrite E1 in E2. clear E1. revert A' E2 F2. induction A as [|a A IH]; intros [|a' A'] E2 F2; cbn in E2.
  - congruence. - injection E2 as <- _. exfalso. apply (F2 q). left. reflexivity.
  - injection E2 as -> _. exfalso. apply (F1 r). left. reflexivity.
  - injection E2 as -> E2. eapply IH; [|exact E2|]; intros z Z; [apply (F1 z)|apply (F2 z)]; right; exact Z.
Qed.

Definition inv (P : list (name * N)) (s : lst) : Prop :=
  (forall p i, In (p, i) P -> exists k, nm (l_fs s) p = Some k /\ same_inode (tb (l_fs s) k) (Hh i) /\
     (sv i = false -> forall q, first i q -> nm R q = Some k) /\ (sv i = true -> nxt R <= k < nxt (l_fs s))) /\
  (forall p i q j, In (p, i) P -> In (q, j) P -> (nm (l_fs s) p = nm (l_fs s) q <-> i = j)) /\
  (forall p, ~ In p (map fst P) -> nm (l_fs s) p = nm R p) /\
  (forall k, k < nxt R -> (forall p i q, In (p, i) P -> sv i = false -> first i q -> nm R q <> Some k) -> tb (l_fs s) k = tb R k) /\
  (forall i e, E i = Some e -> match l_cw s e with
     | None => forall p, In (p, i) P -> ent p i <> LMir e
     | Some (q, b) => In (q, i) P /\ (eas i -> b = true) end) /\
  nxt R <= nxt (l_fs s) /\ l_err s = 0%nat.

(** what a step makes of the state gives the invariant *)
Lemma inv_step : forall P Q p i f cw f' cw' k h, Ps = P ++ (p, i) :: Q -> inv P (LSt f cw 0) ->
  desc f f' p k h -> same_inode h (Hh i) -> nxt f <= nxt f' ->
  (forall q, In (q, i) P -> nm f q = Some k) ->
  ((forall q, ~ In (q, i) P) -> (sv i = true -> k = nxt f /\ nxt f < nxt f') /\ (sv i = false -> nm R p = Some k)) ->
  (forall j e, E j = Some e -> match cw' e with
     | None => forall q, In (q, j) (P ++ [(p, i)]) -> ent q j <> LMir e
     | Some (q, b) => In (q, j) (P ++ [(p, i)]) /\ (eas j -> b = true) end) ->
  inv (P ++ [(p, i)]) (LSt f' cw' 0).
Proof.
  intros P Q p i f cw f' cw' k h EP (V1 & V2 & V3 & V4 & V5 & V6 & V7) [D1 D2] Sh Nx Old New Cw. cbn [l_fs l_cw l_err] in *.
  assert (InP : forall q j, In (q, j) P -> In (q, j) Ps) by (intros q j Z; rewrite EP; apply in_or_app; auto).
  assert (Inp : In (p, i) Ps) by (rewrite EP; apply in_or_app; right; left; reflexivity).
  assert (Np : forall j, ~ In (p, j) P).
  { intros j Z. rewrite EP, map_app in ND. cbn in ND. apply NoDup_remove_2 in ND. apply ND. apply in_or_app. left. apply (in_map fst) in Z. exact Z. }
  assert (Hnp : forall q j, In (q, j) P -> nm f' q = nm f q) by (intros q j Z; rewrite D1; apply updn_other; intros ->; exact (Np _ Z)).
  assert (Hp : nm f' p = Some k) by (rewrite D1; apply updn_same).
  assert (Dec : (exists q, In (q, i) P) \/ forall q, ~ In (q, i) P).
  { clear. induction P as [|[q j] P' IH]; [right; intros ? []|]. destruct (N.eq_dec j i) as [->|Hn]; [left; exists q; left; reflexivity|].
    destruct IH as [[r Z]|Z]; [left; exists r; right; exact Z|right]. intros r [Y|Y]; [congruence|exact (Z _ Y)]. }
  assert (Fp : (forall q, ~ In (q, i) P) -> first i p) by (intro Z; exists P, Q; auto).
  (* the inode is that of no other group *)
  assert (Kd : forall q j, In (q, j) P -> j <> i -> nm f q <> Some k).
  { intros q j Z Hj Y. destruct Dec as [[r Zr]|No].
    - apply Hj. apply (V2 q j r i Z Zr). rewrite Y. symmetry. apply Old. exact Zr.
    - destruct (New No) as [Ns Nu]. destruct (V1 q j Z) as (kj & A & _ & Uj & Sj). assert (kj = k) by congruence. subst kj. destruct (sv j) eqn:Svj.
      + destruct (sv i) eqn:Svi; [destruct Ns as [-> _]; auto; specialize (Sj eq_refl); lia|]. specialize (Nu eq_refl). apply K0 in Nu. specialize (Sj eq_refl). lia.
      + destruct (first_ex j q (InP _ _ Z)) as [r Fr]. specialize (Uj eq_refl r Fr). destruct (sv i) eqn:Svi.
        * destruct Ns as [-> _]; auto. apply K0 in Uj. lia.
        * apply Hj. refine (K3 _ _ _ _ Fr (Fp No) Svj Svi _). rewrite Uj. symmetry. auto. }
  assert (Kk : forall q j, In (q, j) P -> exists kj, nm f q = Some kj /\ same_inode (tb f' kj) (Hh j)).
  { intros q j Z. destruct (V1 q j Z) as (kj & A & B & _). exists kj. split; [exact A|]. rewrite D2. unfold upd. destruct (N.eqb_spec kj k) as [->|]; [|exact B].
    destruct (N.eq_dec j i) as [->|Hj]; [exact Sh|]. exfalso. exact (Kd q j Z Hj A). }
  split; [|split; [|split; [|split; [|split; [exact Cw|split; [cbn; lia|reflexivity]]]]]]; cbn [l_fs l_cw l_err].
  - intros q j Z. apply in_app_or in Z. destruct Z as [Z|[Z|[]]].
    + destruct (V1 q j Z) as (kj & A & _ & U & S). destruct (Kk q j Z) as (kj' & A' & B). assert (kj' = kj) by congruence. subst kj'.
      exists kj. rewrite (Hnp q j Z). split; [exact A|]. split; [exact B|]. split; [exact U|]. intro Y. specialize (S Y). lia.
    + injection Z as <- <-. exists k. split; [exact Hp|]. split; [rewrite D2, upd_same; exact Sh|]. destruct Dec as [[r Zr]|No].
      * destruct (V1 r i Zr) as (kr & A & _ & U & S). assert (kr = k) by (rewrite (Old r Zr) in A; congruence). subst kr. split; [exact U|]. intro Y. specialize (S Y). lia.
      * destruct (New No) as [Ns Nu]. split; [|intro Y; destruct (Ns Y); lia]. intros Y q Fq. rewrite (first_uniq i q p Fq (Fp No)). auto.
  - assert (G : forall q j, In (q, j) P -> (nm f' q = nm f' p <-> j = i)).
    { intros q j Z. rewrite Hp, (Hnp q j Z). split; [|intros ->; apply Old; exact Z]. intro Y. destruct (N.eq_dec j i) as [|Hj]; [assumption|]. exfalso. exact (Kd q j Z Hj Y). }
    intros q j r m Z Y. apply in_app_or in Z. apply in_app_or in Y. destruct Z as [Z|[Z|[]]], Y as [Y|[Y|[]]].
    + rewrite (Hnp q j Z), (Hnp r m Y). apply V2; assumption.
    + injection Y as <- <-. apply G. exact Z.
    + injection Z as <- <-. destruct (G r m Y) as [G1 G2]. split; [intro W; symmetry; auto|intros <-; symmetry; auto].
    + injection Z as <- <-. injection Y as <- <-. tauto.
  - intros q Z. rewrite map_app, in_app_iff in Z. cbn in Z. rewrite D1, updn_other by (intros ->; tauto). apply V3. tauto.
  - intros m Hm Z. rewrite D2. assert (Hk : m <> k).
    { intros ->. destruct Dec as [[r Zr]|No].
      - destruct (V1 r i Zr) as (kr & A & _ & U & S). assert (kr = k) by (rewrite (Old r Zr) in A; congruence). subst kr. destruct (sv i) eqn:Svi; [specialize (S eq_refl); lia|].
        destruct (first_ex i r (InP _ _ Zr)) as [q Fq]. apply (Z r i q (in_or_app _ _ _ (or_introl Zr)) Svi Fq). auto.
      - destruct (New No) as [Ns Nu]. destruct (sv i) eqn:Svi; [destruct Ns; auto; lia|]. apply (Z p i p); auto. apply in_or_app. right. left. reflexivity. }
    rewrite upd_other by exact Hk. apply V4; [exact Hm|]. intros q j r Y. apply (Z q j r). apply in_or_app. auto.
Qed.

Lemma entry_step : forall P Q p i s, Ps = P ++ (p, i) :: Q -> inv P s -> inv (P ++ [(p, i)]) (write_entry me_uid me_gid now star s (p, ent p i)).
Proof.
  intros P Q p i [f cw er] EP V. assert (V' := V). destruct V' as (V1 & V2 & V3 & V4 & V5 & V6 & V7). cbn [l_fs l_cw l_err] in *. subst er.
  assert (InP : forall q j, In (q, j) P -> In (q, j) Ps) by (intros q j Z; rewrite EP; apply in_or_app; auto).
  assert (Inp : In (p, i) Ps) by (rewrite EP; apply in_or_app; right; left; reflexivity).
  assert (Np' : ~ In p (map fst P)).
  { intro Z. rewrite EP, map_app in ND. cbn in ND. apply NoDup_remove_2 in ND. apply ND. apply in_or_app. left. exact Z. }
  assert (Np : forall q j, In (q, j) P -> q <> p) by (intros q j Z ->; apply Np'; apply (in_map fst) in Z; exact Z).
  assert (W : exists mir, write_entry me_uid me_gid now star (LSt f cw 0) (p, ent p i) = write_inode me_uid me_gid now p mir (X i) (LSt f cw 0) /\
    ((mir = None /\ (forall e, ent p i <> LMir e) /\ forall q, In (q, i) Ps -> q = p) \/ exists e, mir = Some e /\ ent p i = LMir e /\ E i = Some e)).
  { destruct (HE p i Inp) as [[A B]|(e & A & B & C)].
    - exists None. unfold write_entry. cbn [fst snd]. rewrite A. split; [reflexivity|]. left. split; [reflexivity|]. split; [discriminate|exact B].
    - exists (Some e). unfold write_entry. cbn [fst snd]. rewrite A, C. split; [reflexivity|]. right. exists e. auto. }
  destruct W as (mir & -> & Hm).
  assert (Dec : (exists q, In (q, i) P) \/ forall q, ~ In (q, i) P).
  { clear. induction P as [|[q j] P' IH]; [right; intros ? []|]. destruct (N.eq_dec j i) as [->|Hn]; [left; exists q; left; reflexivity|].
    destruct IH as [[r Z]|Z]; [left; exists r; right; exact Z|right]. intros r [Y|Y]; [congruence|exact (Z _ Y)]. }
  assert (Hpi := HX p i Inp). assert (NmR := V3 p Np').
  assert (TbR : forall k, nm R p = Some k -> (sv i = true \/ first i p) -> tb f k = tb R k).
  { intros k Hk C. apply V4; [apply K0 in Hk; exact Hk|]. intros q j r Z Sj Fr Y. destruct (sv i) eqn:Svi.
    - exact (K6 i p k j r Inp Svi Hk Fr Sj Y).
    - destruct C as [C|C]; [discriminate|]. assert (j = i) by (refine (K3 _ _ _ _ Fr C Sj Svi _); congruence). subst j.
      assert (Z' := InP _ _ Z). destruct C as (A & B & E1 & F1). assert (Eq : A = P /\ B = Q).
      { rewrite EP in E1. clear - E1 F1 Z Np'. exfalso. revert A E1 F1 Z Np'. induction P as [|[a b] P' IH]; intros A E1 F1 Z Np'; [destruct Z|]. destruct A as [|[a' b'] A]; cbn in E1.
        - injection E1 as -> -> _. apply Np'. left. reflexivity.
        - injection E1 as -> -> E1. destruct Z as [Z|Z]; [injection Z as -> ->; apply (F1 q); left; reflexivity|]. apply (IH A E1); [|exact Z|].
          + intros r' Z'. apply (F1 r'). right. exact Z'. + intro Z'. apply Np'. right. exact Z'. }
      destruct Eq as [-> ->]. exact (F1 q Z). }
  assert (CwN : forall cw', cw_first p mir (X i) cw cw' -> (forall q, ~ In (q, i) P) -> forall j e, E j = Some e -> match cw' e with
     | None => forall q, In (q, j) (P ++ [(p, i)]) -> ent q j <> LMir e
     | Some (q, b) => In (q, j) (P ++ [(p, i)]) /\ (eas j -> b = true) end).
  { intros cw' C No j e Ej. assert (Same : (mir = Some e -> False) -> cw' e = cw e).
    { intro Z. unfold cw_first in C. destruct mir as [e0|]; [|rewrite C; reflexivity]. apply C. intros ->. apply Z. reflexivity. }
    destruct (N.eq_dec j i) as [->|Hj].
    - destruct Hm as [(M & Nl & U)|(e0 & M & L & Ei)].
      + rewrite Same by congruence. specialize (V5 i e Ej). destruct (cw e) as [[q b]|]; [destruct V5 as [Z _]; exfalso; exact (No q Z)|].
        intros q Z. apply in_app_or in Z. destruct Z as [Z|[Z|[]]]; [exfalso; exact (No q Z)|]. injection Z as <-. apply Nl.
      + assert (e0 = e) by congruence. subst e0. unfold cw_first in C. rewrite M in C. destruct C as [(b & -> & Eb) _]. split; [|exact Eb]. apply in_or_app. right. left. reflexivity.
    - rewrite Same; [|intro M; destruct Hm as [(M' & _)|(e0 & M' & _ & Ei)]; [congruence|]; apply Hj; apply (Einj j i e Ej); congruence].
      specialize (V5 j e Ej). destruct (cw e) as [[q b]|].
      + destruct V5 as [Z Y]. split; [apply in_or_app; auto|exact Y].
      + intros q Z. apply in_app_or in Z. destruct Z as [Z|[Z|[]]]; [auto|]. injection Z as _ Z. congruence. }
  assert (CwNone : (forall q, ~ In (q, i) P) -> match mir with Some e => cw e = None | None => True end).
  { intro No. destruct Hm as [(-> & _)|(e & -> & _ & Ei)]; [exact I|]. specialize (V5 i e Ei). destruct (cw e) as [[q b]|]; [destruct V5 as [Z _]; exfalso; exact (No q Z)|reflexivity]. }
  destruct Dec as [[q0 Zq0]|No].
  - (* not the first *)
    destruct Hm as [(M & _ & U)|(e & M & L & Ei)]; [exfalso; apply (Np q0 i Zq0); apply U; auto|].
    assert (Lq : ent q0 i = LMir e).
    { destruct (HE q0 i (InP _ _ Zq0)) as [[_ U]|(e' & A & B & _)]; [exfalso; apply (Np q0 i Zq0); symmetry; apply U; exact Inp|]. congruence. }
    assert (C5 := V5 i e Ei). destruct (cw e) as [[q b]|] eqn:Ce; [|exfalso; exact (C5 q0 Zq0 Lq)]. destruct C5 as [Zq Eb].
    destruct (V1 q i Zq) as (k & Nq & Sk & Uk & Skk).
    assert (Nf : ~ first i p).
    { intros (A & B & E1 & F1). rewrite EP in E1. clear - E1 F1 Zq Np'. revert A E1 F1. induction P as [|[a b] P' IH]; intros A E1 F1; [destruct Zq|]. destruct A as [|[a' b'] A]; cbn in E1.
      - injection E1 as -> -> _. apply Np'. left. reflexivity.
      - injection E1 as -> -> E1. destruct Zq as [Z|Z]; [injection Z as -> ->; apply (F1 q); left; reflexivity|]. refine (IH _ Z A E1 _).
        + intro Z'. apply Np'. right. exact Z'. + intros r' Z'. apply (F1 r'). right. exact Z'. }
    assert (Cond : forall i0, nm f p = Some i0 -> if sv i then h_ea (tb f i0) = [] \/ h_ea (tb f i0) = h_ea (Hh i) else i0 = k).
    { intros i0 Y. rewrite NmR in Y. destruct (sv i) eqn:Svi.
      - rewrite (TbR i0 Y) by auto. exact (K4j i p i0 Inp Nf Svi Y).
      - destruct (first_ex i p Inp) as [r Fr]. assert (Z := K2 i r p i0 Fr Svi Inp Y). assert (Z' := Uk eq_refl r Fr). congruence. }
    destruct (join me_uid me_gid now p mir (X i) (Hh i) Hpi f cw 0%nat e q b k M Ce (Np q i Zq) Nq Sk Eb Cond) as (f' & h' & -> & D & Sh & Nx).
    apply (inv_step P Q p i f cw f' cw k h' EP V D Sh); [lia| | |].
    + intros r Zr. rewrite <- Nq. apply (V2 r i q i Zr Zq). reflexivity.
    + intro No. exfalso. exact (No q Zq).
    + intros j e' Ej. specialize (V5 j e' Ej). destruct (cw e') as [[r br]|] eqn:Ce'.
      * destruct V5 as [Z Y]. split; [apply in_or_app; auto|exact Y].
      * intros r Z. apply in_app_or in Z. destruct Z as [Z|[Z|[]]]; [auto|]. injection Z as <- <-. congruence.
  - assert (Fp : first i p) by (exists P, Q; auto). destruct (sv i) eqn:Svi.
    + assert (G : exists f' cw' h', write_inode me_uid me_gid now p mir (X i) (LSt f cw 0) = LSt f' cw' 0 /\ desc f f' p (nxt f) h' /\ same_inode h' (Hh i) /\ nxt f' = nxt f + 1 /\ cw_first p mir (X i) cw cw').
      { destruct (nm R p) as [k|] eqn:Er.
        - apply (first_over me_uid me_gid now p mir (X i) (Hh i) Hpi f cw 0%nat k Svi (CwNone No)); [congruence|]. rewrite (TbR k eq_refl) by auto. exact (K4 i p k Fp Svi Er).
        - apply (first_new me_uid me_gid now p mir (X i) (Hh i) Hpi f cw 0%nat Svi (CwNone No)); [congruence|]. exact (K4n i p Fp Svi Er). }
      destruct G as (f' & cw' & h' & -> & D & Sh & Nx & C).
      apply (inv_step P Q p i f cw f' cw' (nxt f) h' EP V D Sh); [lia| | |].
      * intros q Z. exfalso. exact (No q Z). * intros _. rewrite Svi. split; [intros _; split; [reflexivity|lia]|discriminate]. * apply CwN; assumption.
    + destruct (K1 i p Fp Svi) as (k & Nk & Mk & Ek). assert (T := TbR k Nk (or_intror Fp)).
      destruct (first_kept me_uid me_gid now p mir (X i) (Hh i) Hpi f cw 0%nat k Svi (CwNone No)) as (f' & cw' & h' & -> & D & Sh & Nx & C); [congruence|rewrite T; exact Mk|rewrite T; exact Ek|].
      apply (inv_step P Q p i f cw f' cw' k h' EP V D Sh); [lia| | |].
      * intros q Z. exfalso. exact (No q Z). * intros _. rewrite Svi. split; [discriminate|auto]. * apply CwN; assumption.
Qed.

Lemma entries_all : inv Ps (fold_left (write_entry me_uid me_gid now star) (map (fun x => (fst x, ent (fst x) (snd x))) Ps) (LSt R (fun _ => None) 0)).
Proof.
  assert (G : forall Q P s, Ps = P ++ Q -> inv P s -> inv (P ++ Q) (fold_left (write_entry me_uid me_gid now star) (map (fun x => (fst x, ent (fst x) (snd x))) Q) s)).
  { induction Q as [|[p i] Q IH]; intros P s EP V; [rewrite app_nil_r; exact V|]. cbn [map fold_left fst snd]. replace (P ++ (p, i) :: Q) with ((P ++ [(p, i)]) ++ Q) in * by (rewrite <- app_assoc; reflexivity).
    apply IH; [exact EP|]. apply (entry_step P Q); [rewrite EP, <- app_assoc; reflexivity|exact V]. }
  apply (G Ps []); [reflexivity|]. split; [intros ? ? []|]. split; [intros ? ? ? ? []|]. split; [reflexivity|]. split; [reflexivity|]. split; [intros i e Ei p []|]. split; [apply N.le_refl|reflexivity].
Qed.

(** the deletions *)
Variable D : list (name * fkind).
Hypothesis NDD : NoDup (map fst D).
Hypothesis K5 : forall n, In n (map fst D) -> nm R n <> None /\ ~ In n (map fst Ps).
Lemma dels : forall D' s, NoDup (map fst D') -> (forall n, In n (map fst D') -> nm (l_fs s) n <> None) ->
  exists g, fold_left (write_entry me_uid me_gid now star) (map (fun x => (fst x, LDet (snd x))) D') s = LSt g (l_cw s) (l_err s) /\
    tb g = tb (l_fs s) /\ nxt g = nxt (l_fs s) /\ forall n, (In n (map fst D') -> nm g n = None) /\ (~ In n (map fst D') -> nm g n = nm (l_fs s) n).
Proof.
  induction D' as [|[n k] D' IH]; intros [f cw er] Nd Ex.
  - exists f. cbn. split; [reflexivity|]. split; [reflexivity|]. split; [reflexivity|]. intro n. split; [intros []|reflexivity].
  - cbn [map fst] in Nd. inversion Nd as [|? ? Hn Nd']. subst. cbn [map fold_left fst snd write_entry l_fs l_cw l_err]. destruct (nm f n) as [i|] eqn:En; [|exfalso; apply (Ex n); [left; reflexivity|exact En]].
    destruct (IH (LSt (set_name n None f) cw er) Nd') as (g & -> & A & B & C).
    + intros m Hm. cbn. rewrite updn_other by (intros ->; contradiction). apply Ex. right. exact Hm.
    + exists g. split; [reflexivity|]. split; [exact A|]. split; [exact B|]. intro m. destruct (C m) as [C1 C2]. cbn [In]. cbn [l_fs set_name nm] in C2. split.
      * intros [<-|Hm]; [rewrite C2 by exact Hn; apply updn_same|auto].
      * intro Hm. rewrite C2 by tauto. apply updn_other. intros ->. tauto.
Qed.
Lemma arc_all : let s := fold_left (write_entry me_uid me_gid now star) (map (fun x => (fst x, ent (fst x) (snd x))) Ps ++ map (fun x => (fst x, LDet (snd x))) D) (LSt R (fun _ => None) 0) in
  l_err s = 0%nat /\ lfs_ok (l_fs s) /\
  (forall p i, In (p, i) Ps -> exists k, nm (l_fs s) p = Some k /\ same_inode (tb (l_fs s) k) (Hh i)) /\
  (forall p i q j, In (p, i) Ps -> In (q, j) Ps -> (nm (l_fs s) p = nm (l_fs s) q <-> i = j)) /\
  (forall p, In p (map fst D) -> nm (l_fs s) p = None) /\
  (forall p, ~ In p (map fst Ps) -> ~ In p (map fst D) -> nm (l_fs s) p = nm R p) /\
  (forall k, k < nxt R -> (forall p i q, In (p, i) Ps -> sv i = false -> first i q -> nm R q <> Some k) -> tb (l_fs s) k = tb R k).
Proof.
  cbv zeta. rewrite fold_left_app. destruct entries_all as (V1 & V2 & V3 & V4 & V5 & V6 & V7). set (s := fold_left _ (map _ Ps) _) in *.
  destruct (dels D s NDD) as (g & -> & Tg & Xg & Ng). { intros n Hn. destruct (K5 n Hn) as [A B]. rewrite V3 by exact B. exact A. }
  cbn [l_fs l_err]. assert (Old : forall p i, In (p, i) Ps -> nm g p = nm (l_fs s) p).
  { intros p i Z. apply Ng. intro Y. apply K5 in Y. apply (proj2 Y). apply (in_map fst) in Z. exact Z. }
  split; [exact V7|]. split.
  { intros p k Y. rewrite Xg. destruct (in_dec (list_eq_dec N.eq_dec) p (map fst D)) as [Hd|Hd]; [apply Ng in Hd; congruence|]. destruct (Ng p) as [_ G]. rewrite (G Hd) in Y.
    destruct (in_dec (list_eq_dec N.eq_dec) p (map fst Ps)) as [Hp|Hp].
    - apply in_map_iff in Hp. destruct Hp as ([p' i] & Q & Z). cbn in Q. subst p'. destruct (V1 p i Z) as (k' & A & B & U & S). assert (k' = k) by congruence. subst k'.
      destruct (sv i) eqn:Svi; [specialize (S eq_refl); lia|]. destruct (first_ex i p Z) as [q Fq]. specialize (U eq_refl q Fq). apply K0 in U. lia.
    - rewrite (V3 p Hp) in Y. apply K0 in Y. lia. }
  split; [intros p i Z; destruct (V1 p i Z) as (k & A & B & _); exists k; rewrite (Old p i Z), Tg; auto|].
  split; [intros p i q j Z Y; rewrite (Old p i Z), (Old q j Y); apply V2; assumption|].
  split; [intros p Z; apply Ng; exact Z|]. split; [intros p Z Y; destruct (Ng p) as [_ G]; rewrite (G Y); apply V3; exact Z|].
  rewrite Tg. exact V4.
Qed.
End All.
