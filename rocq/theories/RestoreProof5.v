(** Proofs for C40, part 5: what the filters of a restoration exclude is left as it was. *)
From Coq Require Import NArith List Bool Lia.
From Verif Require Import Base DatetimeModel PropDatetime PropChange CritModel RestoreModel RestoreSpec RestoreProof RestoreProof2 RestoreProof3 RestoreProof4.
Import ListNotations.
Open Scope N_scope.
Local Set Warnings "-notation-overridden".

(** along a path, what is not a directory has no entries *)
Fixpoint wf_along (x : list name) (f : node) : Prop :=
  match x with [] => True | n :: r => (h_kind (hd_of f) <> KDir -> ch_of f = []) /\ match aget n (ch_of f) with Some c => wf_along r c | None => True end end.
Definition kids (n : name) (d : node) : list (name * node) := match aget n (ch_of d) with Some e => ch_of e | None => [] end.
Definition kat (n : name) (d : node) : option fkind := option_map (fun e => h_kind (hd_of e)) (aget n (ch_of d)).
Definition loc (n : name) (d d' : node) : Prop := (forall m, m <> n -> aget m (ch_of d') = aget m (ch_of d)) /\ h_kind (hd_of d') = h_kind (hd_of d).
Definition sub (n : name) (d d' : node) : Prop := kids n d' = kids n d /\ kat n d' = kat n d.
Lemma loc_refl : forall n d, loc n d d. Proof. split; auto. Qed.
Lemma loc_trans : forall n a b c, loc n a b -> loc n b c -> loc n a c.
Proof. intros n a b c [H K] [H' K']. split; [|congruence]. intros m Hm. rewrite H', H; auto. Qed.
Lemma sub_refl : forall n d, sub n d d. Proof. split; auto. Qed.
Lemma sub_trans : forall n a b c, sub n a b -> sub n b c -> sub n a c.
Proof. intros n a b c [H K] [H' K']. split; congruence. Qed.
Lemma on_child_loc : forall n f d, loc n d (on_child n f d).
Proof.
  intros n f d. unfold on_child. destruct (aget n (ch_of d)) as [[h c]|]; [|apply loc_refl]. split; cbn [ch_of hd_of]; [|reflexivity].
  intros m Hm. apply aget_set_other. exact Hm.
Qed.
Lemma on_child_sub : forall n f d, (forall h, h_kind (f h) = h_kind h) -> sub n d (on_child n f d).
Proof.
  intros n f d F. unfold on_child. destruct (aget n (ch_of d)) as [[h c]|] eqn:E; [|apply sub_refl].
  unfold sub, kids, kat. cbn [ch_of]. rewrite aget_set_same, E. cbn. rewrite F. auto.
Qed.
Lemma create_loc : forall now n h d, loc n d (create now n h d).
Proof.
  intros now n h d. unfold create, touch. split; cbn [ch_of hd_of]; [|reflexivity]. intros m Hm. rewrite aget_app. destruct (aget m (ch_of d)); [reflexivity|].
  cbn. rewrite neqb_ne by exact Hm. reflexivity.
Qed.
Lemma remove_loc : forall now n d, loc n d (remove now n d).
Proof. intros now n d. unfold remove, touch. split; cbn [ch_of hd_of]; [|reflexivity]. intros m Hm. apply aget_del_other. exact Hm. Qed.
Lemma create_kids : forall now n h d, aget n (ch_of d) = None -> kids n (create now n h d) = [].
Proof. intros now n h d E. unfold kids, create, touch. cbn [ch_of]. rewrite aget_app, E. cbn. rewrite neqb_refl. reflexivity. Qed.

Section Filter.
Variables (me_uid me_gid : N) (now : datetime).
Variable pol : head -> cnode -> adata * aea.
Variable rcov : rpath -> bool -> bool.
Hypothesis Hpol : forall h x, fst (pol h x) <> D_remove.
Notation write1 := (write1 me_uid me_gid now pol).
Notation rstep := (rstep me_uid me_gid now pol rcov).
Notation rrun := (rrun me_uid me_gid now pol rcov).

Lemma over_data_loc : forall d n eh xh a, loc n d (fst (over_data me_uid me_gid now d n eh xh a)).
Proof.
  intros d n eh xh a. unfold over_data. destruct a; try (destruct (_ && _)); cbn [fst]; try apply loc_refl; try apply on_child_loc; try apply remove_loc.
  - eapply loc_trans; [|apply on_child_loc]. eapply loc_trans; [apply remove_loc|apply create_loc].
  - eapply loc_trans; [|apply on_child_loc]. eapply loc_trans; [apply remove_loc|apply create_loc].
Qed.
Lemma write1_loc : forall d n x d' flag out, write1 d n x = (d', flag, out) -> loc n d d'.
Proof.
  intros d n x d' flag out. unfold RestoreModel.write1. destruct (aget n (ch_of d)) as [[eh ec]|] eqn:Ed.
  - cbn [hd_of]. unfold write_over. destruct (pol eh x) as [da ea]. destruct x as [xh xch|k|].
    + assert (L0 : loc n d (fst (if c_saved xh then over_data me_uid me_gid now d n eh xh da else (d, Some DNoData)))).
      { destruct (c_saved xh); [apply over_data_loc|apply loc_refl]. }
      destruct (if c_saved xh then over_data me_uid me_gid now d n eh xh da else (d, Some DNoData)) as [d0 [done|]]; cbn [fst] in L0; [|intro E; injection E as <- <- <-; exact L0].
      set (d1 := if negb (is_remove da) && _ then _ else d0). assert (L1 : loc n d d1). { subst d1. destruct (_ && _); [|exact L0]. eapply loc_trans; [exact L0|apply on_child_loc]. }
      destruct (_ && _ && _); [intro E; injection E as <- <- <-; exact L1|].
      set (d2 := if _ || c_saved xh then _ else d1). assert (L2 : loc n d d2).
      { subst d2. destruct (_ || _); [|exact L1]. destruct done; try (eapply loc_trans; [exact L1|apply on_child_loc]). destruct (is_dir (h_kind eh)); [exact L1|]. eapply loc_trans; [exact L1|apply on_child_loc]. }
      set (d3 := if _ && _ && _ then _ else d2). assert (L3 : loc n d d3). { subst d3. destruct (_ && _ && _); [|exact L2]. eapply loc_trans; [exact L2|apply on_child_loc]. }
      intro E; injection E as <- <- <-. exact L3.
    + destruct da; intro E; injection E as <- <- <-; try apply loc_refl; apply remove_loc.
    + intro E; injection E as <- <- <-. apply loc_refl.
  - unfold write_new. destruct x as [xh xch|k|]; [|intro E; injection E as <- <- <-; apply loc_refl|intro E; injection E as <- <- <-; apply loc_refl].
    destruct (_ || _); intro E; injection E as <- <- <-; [apply create_loc|apply loc_refl].
Qed.

Lemma over_data_dir : forall d n eh ec xh a, aget n (ch_of d) = Some (Node eh ec) -> c_kind xh = KDir -> a <> D_remove ->
  let r := over_data me_uid me_gid now d n eh xh a in
  (sub n d (fst r) \/ (h_kind eh <> KDir /\ kids n (fst r) = [])) /\ (h_kind eh = KDir \/ snd r = None \/ snd r = Some DRestored).
Proof.
  intros d n eh ec xh a E K Na r. subst r. unfold over_data. rewrite K. cbn [is_dir andb].
  destruct a; try congruence; cbn [fst snd].
  all: try (split; [left; apply sub_refl|right; left; reflexivity]).
  all: destruct (kind_eqb KDir (h_kind eh)) eqn:Q; cbn [negb fst snd]; [apply kind_eqb_spec in Q|].
  all: try (split; [left; apply sub_refl|auto]; fail).
  all: try (split; [left; apply on_child_sub; reflexivity|auto]; fail).
  all: split; [|auto]; right; split; [intro Z; rewrite Z in Q; discriminate|];
       etransitivity; [apply on_child_sub; reflexivity|]; apply create_kids; unfold remove, touch; cbn [ch_of]; apply aget_del_same.
Qed.
Lemma write1_dir : forall d n xh xch d' flag out, c_kind xh = KDir -> c_saved xh = true -> write1 d n (CIno xh xch) = (d', flag, out) ->
  (sub n d d' \/ (kat n d <> Some KDir /\ kids n d' = [])) /\ (out = WErr \/ exists b, out = WOk (Some b)).
Proof.
  intros d n xh xch d' flag out K Sv. unfold RestoreModel.write1. destruct (aget n (ch_of d)) as [[eh ec]|] eqn:Ed.
  - cbn [hd_of]. unfold write_over. specialize (Hpol eh (CIno xh xch)). destruct (pol eh (CIno xh xch)) as [da ea]. cbn [fst] in Hpol. rewrite Sv.
    destruct (over_data_dir d n eh ec xh da Ed K Hpol) as [O1 O2].
    assert (Kat : kat n d = Some (h_kind eh)) by (unfold kat; rewrite Ed; reflexivity).
    destruct (over_data me_uid me_gid now d n eh xh da) as [d0 [done|]] eqn:OD; cbn [fst snd] in O1, O2.
    2: { intro E; injection E as <- <- <-. split; [|auto]. destruct O1 as [?|[? ?]]; [auto|]. right. split; [rewrite Kat; congruence|assumption]. }
    assert (R : is_remove da = false) by (destruct da; congruence || reflexivity). rewrite R. cbn [negb andb].
    rewrite !orb_true_r. cbn [andb].
    assert (Step : forall a b, (sub n d a \/ (h_kind eh <> KDir /\ kids n a = [])) -> sub n a b -> (sub n d b \/ (h_kind eh <> KDir /\ kids n b = []))).
    { intros a b [H|[H1 H2]] S; [left; eapply sub_trans; eauto|right; split; [exact H1|]; rewrite (proj1 S); exact H2]. }
    assert (Fin : forall a, (sub n d a \/ (h_kind eh <> KDir /\ kids n a = [])) -> sub n d a \/ (kat n d <> Some KDir /\ kids n a = [])).
    { intros a [H|[H1 H2]]; [auto|]. right. split; [rewrite Kat; congruence|exact H2]. }
    match goal with |- context [on_child n ?f d0] => set (act := f) end. assert (Ha : forall h, h_kind (act h) = h_kind h) by reflexivity. clearbody act.
    set (es := match c_ea xh with EA_full _ | EA_removed => true | _ => false end). 
    set (d1 := if es then on_child n act d0 else d0). assert (S1 := O1). assert (X1 : sub n d d1 \/ (h_kind eh <> KDir /\ kids n d1 = [])).
    { subst d1. destruct es; [|exact O1]. eapply Step; [exact O1|]. apply on_child_sub. exact Ha. } clearbody d1.
    destruct (_ && _) eqn:Miss; [intro E; injection E as <- <- <-; split; auto|].
    set (d2 := if match done with DRestored => true | _ => false end then if is_dir (h_kind eh) then d1 else on_child n (fun h => with_meta h xh) d1 else on_child n (fun h => with_mtime h (h_mtime eh)) d1).
    assert (X2 : sub n d d2 \/ (h_kind eh <> KDir /\ kids n d2 = [])).
    { subst d2. destruct done; try destruct (is_dir (h_kind eh)); try exact X1; (eapply Step; [exact X1|]; apply on_child_sub; reflexivity). } clearbody d2.
    set (b3 := _ && snd _). clearbody b3. set (d3 := if b3 then on_child n act d2 else d2). assert (X3 : sub n d d3 \/ (h_kind eh <> KDir /\ kids n d3 = [])).
    { subst d3. destruct b3; [|exact X2]. eapply Step; [exact X2|]. apply on_child_sub. exact Ha. } clearbody d3.
    intro E; injection E as <- <- <-. split; [auto|]. right. rewrite K. cbn [is_dir andb].
    destruct O2 as [Q|[Q|Q]]; [rewrite Q; cbn; eauto|discriminate|]. injection Q as ->. rewrite orb_true_r. eauto.
  - unfold write_new. rewrite Sv. cbn [orb]. rewrite K. cbn [is_dir]. intro E; injection E as <- <- <-. split; [|eauto].
    right. split; [unfold kat; rewrite Ed; discriminate|]. apply create_kids. exact Ed.
Qed.
Lemma write1_nondir : forall d n x d' flag out, match x with CIno xh _ => c_kind xh <> KDir | _ => True end -> write1 d n x = (d', flag, out) -> out = WErr \/ out = WOk None.
Proof.
  intros d n x d' flag out Hx. unfold RestoreModel.write1. destruct (aget n (ch_of d)) as [e|].
  - unfold write_over. destruct (pol (hd_of e) x) as [da ea]. destruct x as [xh xch|k|].
    + destruct (if c_saved xh then _ else _) as [d0 [done|]]; [|intro E; injection E as <- <- <-; auto]. cbv zeta.
      match goal with |- (if ?c then _ else _) = _ -> _ => destruct c end; [intro E; injection E as <- <- <-; auto|].
      destruct (is_dir (c_kind xh)) eqn:Q; [apply is_dir_spec in Q; contradiction|]. intro E; injection E as <- <- <-. auto.
    + destruct da; intro E; injection E as <- <- <-; auto.
    + intro E; injection E as <- <- <-; auto.
  - unfold write_new. destruct x as [xh xch|k|]; [|intro E; injection E as <- <- <-; auto|intro E; injection E as <- <- <-; auto].
    destruct (is_dir (c_kind xh)) eqn:Q; [apply is_dir_spec in Q; contradiction|]. destruct (_ || _); intro E; injection E as <- <- <-; auto.
Qed.

(** the effect of a change in a directory on what is at a path *)
Definition ok (x : list name) (f f' : node) : Prop := fget x f' = fget x f /\ wf_along x f'.
Lemma ok_put : forall p x f d d', fget p f = Some d -> wf_along x f -> (forall r, p <> x ++ r) ->
  (forall r, x = p ++ r -> wf_along r d -> ok r d d') -> ok x f (fput p d' f).
Proof.
  induction p as [|n p IH]; intros x f d d' G Wf Np H.
  - cbn [fget] in G. injection G as ->. apply H; auto.
  - destruct x as [|m x]; [exfalso; apply (Np (n :: p)); reflexivity|]. cbn [fget] in G. destruct (aget n (ch_of f)) as [c|] eqn:E; [|discriminate].
    cbn [fput]. rewrite E. cbn [wf_along] in Wf. destruct Wf as [W0 W1]. unfold ok. cbn [fget wf_along ch_of hd_of].
    assert (Kf : h_kind (hd_of f) = KDir). { destruct (h_kind (hd_of f)) eqn:Q; try reflexivity; rewrite W0 in E by discriminate; discriminate. }
    destruct (list_eq_dec N.eq_dec m n) as [->|Hn].
    + rewrite aget_set_same, E. rewrite E in W1. destruct (IH x c d d' G W1) as [A B].
      * intros r Hr. apply (Np r). cbn. congruence.
      * intros r -> . apply H. reflexivity.
      * split; [exact A|]. split; [congruence|exact B].
    + rewrite aget_set_other by exact Hn. split; [reflexivity|]. split; [congruence|exact W1].
Qed.
(** a directory with the same entries but for one, that has the same entries below *)
Lemma ok_loc : forall n d d' x, loc n d d' -> h_kind (hd_of d) = KDir -> x <> [] ->
  (forall r, x = n :: r -> r <> [] /\ (sub n d d' \/ (kat n d <> Some KDir /\ kids n d' = []))) -> wf_along x d -> ok x d d'.
Proof.
  intros n d d' x [L1 L2] K Nx H Wf. destruct x as [|m r]; [congruence|]. cbn [wf_along] in Wf. destruct Wf as [W0 W1]. unfold ok. cbn [fget wf_along].
  destruct (list_eq_dec N.eq_dec m n) as [->|Hn]; [|rewrite L1 by exact Hn; split; [reflexivity|]; split; [congruence|exact W1]].
  destruct (H r eq_refl) as [Nr S]. destruct r as [|k q]; [congruence|]. clear H Nr. unfold sub, kids, kat in S.
  assert (Q : match aget n (ch_of d') with Some e => ch_of e | None => [] end = match aget n (ch_of d) with Some e => ch_of e | None => [] end /\
             match aget n (ch_of d') with Some e => h_kind (hd_of e) <> KDir -> ch_of e = [] | None => True end).
  { destruct S as [[S1 S2]|[S1 S2]].
    - split; [exact S1|]. destruct (aget n (ch_of d')) as [e'|], (aget n (ch_of d)) as [e|]; cbn in S2; try discriminate; auto. injection S2 as S2. rewrite S1, S2. apply W1.
    - rewrite S2. split; [|destruct (aget n (ch_of d')); auto]. destruct (aget n (ch_of d)) as [e|]; [|reflexivity]. cbn in S1. symmetry. apply (proj1 W1). congruence. }
  clear S. destruct Q as [Q1 Q2].
  assert (Fg : forall o : option node, match o with Some c => fget (k :: q) c | None => None end =
                match aget k (match o with Some e => ch_of e | None => [] end) with Some c => fget q c | None => None end) by (intros [o|]; reflexivity).
  rewrite !Fg, Q1. split; [reflexivity|]. split; [congruence|].
  destruct (aget n (ch_of d')) as [e'|]; [|exact I]. cbn [wf_along]. split; [exact Q2|].
  destruct (aget n (ch_of d)) as [e|]; [|rewrite Q1; exact I]. rewrite Q1. apply W1.
Qed.

Variable x : list name.
Hypothesis Excl : forall b, rcov (rev x) b = false.
Hypothesis Nx : x <> [].

Fixpoint frames_ok (l : list rframe) : Prop :=
  match l with
  | [] => True
  | fr :: up => (forall r, x = rev (removelast (map rf_name (fr :: up))) ++ r -> spares r (rf_rest fr)) /\ dirs_saved (rf_rest fr) /\ frames_ok up
  end.
Definition finv (t : node) (s : rstate) : Prop :=
  cur s = map sf_name (stk s) /\ (forall r, rev (cur s) <> x ++ r) /\ ok x t (fs s).
Definition inv5 (t : node) (s : rstate) : Prop :=
  finv t s /\ rd s <> [] /\ cur s = removelast (map rf_name (rd s)) /\ frames_ok (rd s).
Lemma ok_trans : forall y a b c, ok y a b -> ok y b c -> ok y a c.
Proof. intros y a b c [A B] [C D]. split; [congruence|exact D]. Qed.
Lemma dir_meta : forall h h' ch, h_kind h' = h_kind h -> forall r, r <> [] -> wf_along r (Node h ch) -> ok r (Node h ch) (Node h' ch).
Proof. intros h h' ch K [|n r] N0 Wf; [congruence|]. split; [reflexivity|]. cbn in *. rewrite K. exact Wf. Qed.
Definition both_inv (P : rstate -> Prop) (Q : rstate -> Prop) (o : rout) : Prop := match o with Running s => P s | Finished s => Q s | Aborted s => Q s end.

Lemma eod_inv5 : forall t fr up s, rd s = up -> up <> [] -> finv t s -> cur s = map rf_name (fr :: removelast up) -> frames_ok up -> both_inv (inv5 t) (finv t) (eod s).
Proof.
  intros t fr up s Er Nu F Cu Fo. assert (F0 := F). destruct F as (C & Np & O). unfold eod.
  destruct (stk s) as [|f r] eqn:Es; [exact F0|]. rewrite C. cbn [map tl].
  assert (Np' : forall q, rev (map sf_name r) <> x ++ q).
  { intros q Hq. rewrite C in Np. cbn [map rev] in Np. apply (Np (q ++ [sf_name f])). rewrite Hq, app_assoc. reflexivity. }
  assert (Cr : map sf_name r = removelast (map rf_name up)).
  { rewrite C in Cu. cbn [map] in Cu. injection Cu as _ Cu. rewrite Cu. clear. induction up as [|a [|b l] IH]; [reflexivity|reflexivity|]. cbn [removelast map] in *. f_equal. exact IH. }
  destruct (sf_date f).
  - destruct (fget (rev (sf_name f :: map sf_name r)) (fs s)) as [[h ch]|] eqn:G; [|exact F0].
    split; [|split; [cbn [rd]; congruence|split; [cbn [rd cur]; rewrite Er; exact Cr|cbn [rd]; rewrite Er; exact Fo]]].
    split; [reflexivity|]. split; [exact Np'|]. cbn [fs]. eapply ok_trans; [exact O|]. rewrite C in Np. cbn [map] in Np. eapply ok_put; [exact G|apply O|exact Np|].
    intros q Hq Wq. apply dir_meta; [reflexivity| |exact Wq]. intros ->. rewrite app_nil_r in Hq. apply (Np []). rewrite app_nil_r. congruence.
  - split; [|split; [cbn [rd]; congruence|split; [cbn [rd cur]; rewrite Er; exact Cr|cbn [rd]; rewrite Er; exact Fo]]].
    split; [reflexivity|]. split; [exact Np'|exact O].
Qed.
Lemma removelast_cons : forall (A : Type) (a : A) l, l <> [] -> removelast (a :: l) = a :: removelast l.
Proof. intros A a [|b l] H; [congruence|reflexivity]. Qed.
Lemma removelast_map : forall (A B : Type) (f : A -> B) l, removelast (map f l) = map f (removelast l).
Proof. intros A B f. induction l as [|a [|b l] IH]; [reflexivity|reflexivity|]. cbn [map] in *. rewrite removelast_cons by discriminate. rewrite IH. reflexivity. Qed.

Lemma rstep_inv5 : forall t s, inv5 t s -> both_inv (inv5 t) (finv t) (rstep s).
Proof.
  intros t s I5. destruct I5 as (F & Nr & Cu & Fo). assert (F0 := F). destruct F as (C & Np & O). unfold RestoreModel.rstep. destruct (rd s) as [|fr up] eqn:Er; [congruence|].
  destruct (rf_rest fr) as [|[n e] rest] eqn:Ef.
  - destruct up as [|f2 up]; [exact F0|]. apply (eod_inv5 t fr (f2 :: up)); [reflexivity|discriminate|exact F0| |apply Fo].
    cbn [cur]. rewrite Cu. cbn [map]. rewrite removelast_cons by discriminate. f_equal. symmetry. change (rf_name f2 :: map rf_name up) with (map rf_name (f2 :: up)). symmetry. apply removelast_map.
  - cbn [frames_ok] in Fo. destruct Fo as (Fo1 & Fo2 & Fo3). rewrite Ef in Fo1, Fo2.
    assert (Fo2' : forall m h c, In (m, CIno h c) ((n, e) :: rest) -> c_kind h = KDir -> c_saved h = true /\ dirs_saved c) by (inversion Fo2; assumption).
    set (rd1 := RF (rf_name fr) rest :: up). set (rd2 := match e with CIno xh ch => if is_dir (c_kind xh) then RF n ch :: rd1 else rd1 | _ => rd1 end).
    assert (Hm : map rf_name rd1 = map rf_name (fr :: up)) by reflexivity. rewrite Hm. rewrite <- Cu.
    assert (Sp : forall r, x = rev (cur s) ++ r -> spares r ((n, e) :: rest)) by (intros r Hr; apply Fo1; rewrite <- Cu; exact Hr).
    assert (Fr1 : frames_ok rd1).
    { cbn [frames_ok rd1]. split; [|split; [|exact Fo3]].
      - intros r Hr. specialize (Fo1 r Hr). clear - Fo1. destruct r as [|a [|b r]]; [exact I|exact I|]. intros e0 H0. apply Fo1. right. exact H0.
      - constructor. intros m h c Hin. apply (Fo2' m h c). right. exact Hin. }
    assert (G1 : forall e', inv5 t (RS (fs s) (cur s) (stk s) rd1 e')).
    { intro e'. split; [split; [exact C|split; [exact Np|exact O]]|]. cbn [rd cur]. split; [discriminate|]. split; [rewrite Hm; exact Cu|exact Fr1]. }
    destruct (rcov (n :: cur s) _) eqn:Cv; [|apply G1].
    assert (Xn : x <> rev (cur s) ++ [n]). { intro Hx. rewrite Hx in Excl. rewrite rev_app_distr, rev_involutive in Excl. cbn in Excl. rewrite Excl in Cv. discriminate. }
    assert (Sv : forall xh ch, e = CIno xh ch -> c_kind xh = KDir -> c_saved xh = true /\ dirs_saved ch).
    { intros xh ch -> K. apply (Fo2' n xh ch); [left; reflexivity|exact K]. }
    assert (Rd2 : match e with CIno xh _ => c_kind xh <> KDir | _ => True end -> rd2 = rd1).
    { intro H. subst rd2. destruct e as [xh ch|k|]; try reflexivity. destruct (is_dir (c_kind xh)) eqn:Q; [apply is_dir_spec in Q; contradiction|reflexivity]. }
    destruct (dir_at (cur s) (fs s)) as [d|] eqn:Ed.
    + destruct (write1 d n e) as [[d' flag] out] eqn:Wr. destruct (dir_at_get _ _ _ Ed) as [Hf Kd]. assert (Lc := write1_loc _ _ _ _ _ _ Wr).
      assert (Of : ok x (fs s) (fput (rev (cur s)) d' (fs s))).
      { eapply ok_put; [exact Hf|apply O|exact Np|]. intros r Hr Wr'. apply (ok_loc n); auto.
        - intros ->. apply (Np []). rewrite app_nil_r in *. congruence.
        - intros q ->. assert (Nq : q <> []) by (intros ->; apply Xn; exact Hr). split; [exact Nq|]. specialize (Sp (n :: q) Hr). cbn [spares] in Sp. destruct q as [|k q]; [congruence|].
          destruct (Sp e (or_introl eq_refl)) as (h & c & -> & Kh & _). destruct (Sv h c eq_refl Kh) as [Sh _]. apply (write1_dir d n h c d' flag out); auto. }
      assert (O' := ok_trans _ _ _ _ O Of).
      assert (G2 : forall st e', map sf_name st = map sf_name (stk s) -> inv5 t (RS (fput (rev (cur s)) d' (fs s)) (cur s) st rd1 e')).
      { intros st e' Hst. split; [split; [cbn [cur stk]; congruence|split; [exact Np|exact O']]|]. cbn [rd cur]. split; [discriminate|]. split; [rewrite Hm; exact Cu|exact Fr1]. }
      destruct out as [push|]; [|apply G2; reflexivity].
      assert (Dn : (exists xh ch, e = CIno xh ch /\ c_kind xh = KDir) \/ match e with CIno xh _ => c_kind xh <> KDir | _ => True end).
      { destruct e as [xh ch|k|]; auto. destruct (c_kind xh) eqn:Q; try (right; congruence). left. eauto. }
      destruct Dn as [(xh & ch & -> & Kh)|Dn].
      * destruct (Sv xh ch eq_refl Kh) as [Sh Dc]. destruct (write1_dir d n xh ch d' flag (WOk push) Kh Sh Wr) as [_ [Q|(b & Q)]]; [discriminate|]. injection Q as ->.
        subst rd2. rewrite Kh. cbn [is_dir].
        split; [split; [cbn [cur stk map sf_name]; rewrite mark_names; congruence|split; [|exact O']]|].
        -- cbn [cur rev]. intros q Hq. destruct (exists_last (l := x ++ q)) as (l0 & a0 & Hl); [intro Z; apply app_eq_nil in Z; tauto|]. rewrite Hl in Hq. apply app_inj_tail in Hq. destruct Hq as [Hq1 Hq2]. subst l0 a0.
           destruct (list_eq_dec (list_eq_dec N.eq_dec) q []) as [->|Nq]; [rewrite app_nil_r in Hl; contradiction|]. destruct (exists_last Nq) as (q' & q0 & ->). rewrite app_assoc in Hl. apply app_inj_tail in Hl. apply (Np q'). symmetry. apply Hl.
        -- cbn [rd cur]. split; [discriminate|]. split; [change (map rf_name (RF n ch :: rd1)) with (n :: map rf_name (fr :: up)); rewrite removelast_cons by discriminate; rewrite <- Cu; reflexivity|].
           cbn [frames_ok]. split; [|split; [exact Dc|exact Fr1]]. intros r Hr. change (map rf_name (RF n ch :: rd1)) with (n :: map rf_name (fr :: up)) in Hr. rewrite removelast_cons in Hr by discriminate. cbn [rev] in Hr. rewrite <- Cu, <- app_assoc in Hr. cbn [app] in Hr. specialize (Sp (n :: r) Hr). cbn [spares] in Sp.
           destruct r as [|a r]; [exact I|]. destruct (Sp _ (or_introl eq_refl)) as (h' & c' & Eq & _ & Sq). injection Eq as <- <-. exact Sq.
      * destruct (write1_nondir d n e d' flag (WOk push) Dn Wr) as [Q|Q]; [discriminate|]. injection Q as ->. rewrite Rd2 by exact Dn. apply G2. apply mark_names.
    + destruct e as [xh ch|k|]; [|apply G1|rewrite Rd2 by exact I; apply G1]. destruct (is_dir (c_kind xh)) eqn:Q.
      * rewrite orb_true_r. apply G1.
      * destruct (c_saved xh || false); [apply G1|]. rewrite Rd2; [apply G1|]. intro Z. rewrite Z in Q. discriminate.
Qed.
Lemma restore_excluded : forall arc t, spares x arc -> dirs_saved arc -> wf_along x t ->
  both_inv (finv t) (finv t) (restore me_uid me_gid now pol rcov arc t).
Proof.
  intros arc t Sp Ds Wf. unfold restore. assert (I5 : inv5 t (RS t [] [] [RF [] arc] 0)).
  { split; [split; [reflexivity|split; [|split; [reflexivity|exact Wf]]]|]. - cbn. intros r H. symmetry in H. apply app_eq_nil in H. tauto.
    - cbn [rd cur]. split; [discriminate|]. split; [reflexivity|]. cbn. split; [|auto]. intros r ->. exact Sp. }
  revert I5. generalize (RS t [] [] [RF [] arc] 0). generalize (S (S (weights arc))). induction n as [|k IH]; intros s I5; cbn [RestoreModel.rrun]; [apply I5|].
  assert (H := rstep_inv5 t s I5). destruct (rstep s) as [s1|s1|s1]; [apply IH; exact H|apply H|apply H].
Qed.
End Filter.

Lemma regular_along : forall x h c, regular c -> h_kind h = KDir -> wf_along x (Node h c).
Proof.
  induction x as [|n r IH]; intros h c R K; [exact I|]. cbn [wf_along hd_of ch_of]. split; [congruence|]. destruct (aget n c) as [[h' c']|] eqn:E; [|exact I].
  inversion R as [l _ Hl El]. subst l. destruct (Hl _ _ _ (aget_in _ _ _ E)) as (A & _ & _ & _ & B).
  destruct (is_dir (h_kind h')) eqn:Q; [apply is_dir_spec in Q; apply IH; assumption|].
  assert (Z : c' = []) by (apply A; intro Z; rewrite Z in Q; discriminate). subst c'. destruct r as [|m r]; [exact I|]. cbn. auto.
Qed.
(** the entries of a full backup *)
Lemma full_in : forall cap hs cov l rp n e, In (n, e) (written_list (save_list cap hs cov rp (Some []) l)) ->
  exists h c, In (n, Node h c) l /\ e = CIno (save_head cap hs h None) (written_list (save_list cap hs cov (n :: rp) (Some []) c)).
Proof.
  induction l as [|[m [h c]] l IH]; intros rp n e H; [destruct H|]. cbn [save_list written_list] in H. destruct (cov (m :: rp)).
  - cbn [save_node written_list] in H. destruct H as [H|H].
    + injection H as <- <-. exists h, c. split; [left; reflexivity|]. cbn [ref_child aget ref_inode ref_below]. rewrite <- save_none. reflexivity.
    + destruct (IH rp n e H) as (h' & c' & A & B). exists h', c'. split; [right; exact A|exact B].
  - destruct (IH rp n e H) as (h' & c' & A & B). exists h', c'. split; [right; exact A|exact B].
Qed.
Lemma full_saved : forall cap hs cov l rp, dirs_saved (written_list (save_list cap hs cov rp (Some []) l)).
Proof.
  intros cap hs cov l. assert (H : forall t rp, dirs_saved (written_list (save_list cap hs cov rp (Some []) (ch_of t)))).
  { induction t as [h ch IH] using node_rect'. intro rp. cbn [ch_of]. constructor. intros n xh xc Hin Kd. destruct (full_in _ _ _ _ _ _ _ Hin) as (h' & c' & A & B). injection B as -> ->.
    split; [reflexivity|]. apply (IH n (Node h' c') A (n :: rp)). }
  exact (H (Node (Head KDir 0 0 0 (DT 0 tu_s) (DT 0 tu_s) [] []) l)).
Qed.
Lemma full_spares : forall cap hs cov x l rp, regular l -> (forall y r h, x = y ++ r -> y <> [] -> r <> [] -> look l y = Some h -> h_kind h = KDir) ->
  spares x (written_list (save_list cap hs cov rp (Some []) l)).
Proof.
  induction x as [|n r IH]; intros l rp R H; [exact I|]. cbn [spares]. destruct r as [|m r]; [exact I|]. intros e He.
  destruct (full_in _ _ _ _ _ _ _ He) as (h & c & A & B). exists (save_head cap hs h None), (written_list (save_list cap hs cov (n :: rp) (Some []) c)). split; [exact B|].
  inversion R as [l' Nd Hl El]. subst l'. assert (G := in_aget _ _ _ Nd A). split.
  - cbn [save_head c_kind]. apply (H [n] (m :: r) h); try discriminate; [reflexivity|]. eapply look_one; exact G.
  - apply IH; [apply (Hl _ _ _ A)|]. intros y q h' Hy N1 N2 Lk. apply (H (n :: y) q h'); try discriminate; auto; [cbn; congruence|]. erewrite look_sub; eauto.
Qed.
