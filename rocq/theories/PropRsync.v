(** * PropRsync: C56, binary delta: what goes through librsync

    For every machine that computes a function of its input in the sense of RsyncSpec, every
    file and every sequence of read sizes. *)
From Coq Require Import List.
From Verif Require Import Base RsyncModel RsyncSpec RsyncProof.
Local Open Scope nat_scope.

Definition positive (sizes : list nat) : Prop := Forall (fun n => 1 <= n) sizes.

(** Building a delta: what is read, whatever the read sizes, is the beginning of the delta of
    the whole file; when more is asked than there is, all of the file was read and checksummed. *)
Theorem C56_delta M F Inv data sizes fuel : computes M F Inv -> positive sizes -> length data + length (F data) < fuel ->
  exists ob, reads M (delta_read M fuel) (fresh M data) sizes = Ok (ob, firstn (list_sum sizes) (F data)) /\
    (length (F data) < list_sum sizes -> summed M ob = data).
Proof.
  intros C P Hf.
  destruct (reads_ok M (F data) (delta_read M fuel) (fun ob o => exists x e, G M Inv data ob x e o) (fun ob => summed M ob = data)) with (sizes := sizes) (ob := fresh M data) (o := @nil N)
    as (ob & E & _ & S).
  - intros ob o (x & e & HG). exact (G_prefix M F Inv C data ob x e o HG).
  - intros ob o n (x & e & HG) Hn. unfold delta_read.
    destruct (delta_loop_ok M F Inv C data fuel n false ob [] x e o HG ltac:(discriminate) ltac:(cbn; lia)) as (ob' & new & x' & e' & L & G' & L2 & FIN).
    { unfold mu. destruct HG as (_ & X & _). apply (f_equal (@length N)) in X. rewrite !app_length in X. lia. }
    exists ob', new. cbn [app] in *. split; [exact L|]. split; [eauto|]. auto.
  - exact P.
  - exists [], false. unfold G, fresh. cbn [job wb below summed app length]. split; [apply (c_start _ _ _ C)|]. split; [reflexivity|]. split; [discriminate|]. split; [reflexivity|lia].
  - exists ob. cbn [length skipn Nat.add] in *. auto.
Qed.

(** Patching: what is read is the beginning of the patched file, and nothing else. *)
Theorem C56_patch M F Inv delta sizes fuel : computes M F Inv -> ends_with M Inv delta -> positive sizes -> length delta + length (F delta) < fuel ->
  exists ob, reads M (patch_read M fuel) (fresh M delta) sizes = Ok (ob, firstn (list_sum sizes) (F delta)).
Proof.
  intros C EW P Hf.
  destruct (reads_ok M (F delta) (patch_read M fuel) (fun ob o => exists x e, G M Inv delta ob x e o /\ (completed M ob = true -> o = F delta)) (fun _ => True))
    with (sizes := sizes) (ob := fresh M delta) (o := @nil N) as (ob & E & _ & _).
  - intros ob o (x & e & HG & _). exact (G_prefix M F Inv C delta ob x e o HG).
  - intros ob o n (x & e & HG & HC) Hn. unfold patch_read. destruct (completed M ob) eqn:CM.
    { exists ob, []. rewrite app_nil_r. split; [reflexivity|]. split; [exists x, e; auto|]. split; [cbn; lia|]. auto. }
    destruct (patch_loop_ok M F Inv C delta EW fuel n false ob [] x e o HG ltac:(discriminate) CM ltac:(cbn; lia)) as (ob' & new & x' & e' & L & G' & L2 & FIN & CO).
    { unfold mu. destruct HG as (_ & X & _). apply (f_equal (@length N)) in X. rewrite !app_length in X. lia. }
    exists ob', new. cbn [app] in *. split; [exact L|]. split; [exists x', e'; auto|]. split; [exact L2|]. destruct FIN; auto.
  - exact P.
  - exists [], false. unfold G, fresh. cbn [job wb below summed app length completed].
    split; [|discriminate]. split; [apply (c_start _ _ _ C)|]. split; [reflexivity|]. split; [discriminate|]. split; [reflexivity|lia].
  - exists ob. cbn [length skipn Nat.add] in *. exact E.
Qed.

(** Signing: the reader gets the file itself, whatever the sizes it asks for, and the
    signature stored at the end is the one of what was read. *)
Definition largest (F : list N -> list N) (data : list N) : nat := list_max (map (fun k => length (F (firstn k data))) (seq 0 (S (length data)))).

Lemma largest_ok F data k : length (F (firstn k data)) <= largest F data.
Proof.
  unfold largest. assert (E : firstn k data = firstn (Nat.min k (length data)) data).
  { destruct (Nat.le_gt_cases k (length data)); [rewrite Nat.min_l by lia; reflexivity|]. rewrite Nat.min_r, firstn_all by lia. apply firstn_all2. lia. }
  rewrite E. set (l := map _ _).
  assert (H : Forall (fun m => m <= list_max l) l) by (apply list_max_le; lia).
  rewrite Forall_forall in H. apply H. apply in_map_iff. exists (Nat.min k (length data)). split; [reflexivity|]. apply in_seq. lia.
Qed.

Theorem C56_signature M F Inv data sizes fuel : computes M F Inv -> positive sizes -> 2 * (length data + largest F data) + 1 < fuel ->
  exists ob ob', reads M (sign_read M fuel) (fresh M data) sizes = Ok (ob, firstn (list_sum sizes) data) /\
    send_eof M fuel ob = Ok ob' /\ store M ob' = F (firstn (list_sum sizes) data).
Proof.
  intros C P Hf.
  destruct (reads_ok M data (sign_read M fuel)
     (fun ob x => exists e o, GS M Inv ob x e o /\ x ++ below M ob = data /\ (e = true -> below M ob = [])) (fun _ => True))
    with (sizes := sizes) (ob := fresh M data) (o := @nil N) as (ob & E & R & _).
  - intros ob x (e & o & _ & X & _). exists (below M ob). auto.
  - intros ob x n (e & o & HG & X & HE) Hn. unfold sign_read.
    set (lu := firstn n (below M ob)).
    assert (NE : lu <> [] -> e = false).
    { intro Q. destruct e; [|reflexivity]. unfold lu in Q. rewrite (HE eq_refl), firstn_nil in Q. congruence. }
    destruct (sign_loop_ok M F Inv C fuel {| job := job M ob; wb := wb M ob; below := skipn n (below M ob); store := store M ob; summed := summed M ob; completed := completed M ob |}
       x e o lu HG NE) as (ob' & o' & L & G' & B).
    { cbn [wb].
      assert (Q : exists k, x ++ lu = firstn k data).
      { exists (length x + n). rewrite <- X. rewrite firstn_app_2. reflexivity. }
      destruct Q as [k Q]. rewrite Q. pose proof (largest_ok F data k).
      assert (length lu <= length data) by (unfold lu; rewrite firstn_length, <- X, app_length; lia).
      assert (nz (wb M ob) <= 1) by (unfold nz; destruct (is_nil (wb M ob)); lia). lia. }
    rewrite L. cbn [bind]. exists ob', lu. split; [reflexivity|]. cbn [below] in B.
    assert (X' : (x ++ lu) ++ skipn n (below M ob) = data) by (unfold lu; rewrite <- app_assoc, firstn_skipn; exact X).
    split; [|split; [unfold lu; rewrite firstn_length; lia|]].
    + exists (e || is_nil lu), o'. rewrite B. split; [exact G'|]. split; [exact X'|].
      intro Q. destruct e; [rewrite (HE eq_refl), skipn_nil; reflexivity|]. cbn [orb] in Q. apply is_nil_true in Q. unfold lu in Q.
      destruct (below M ob); [apply skipn_nil|]. destruct n; [lia|discriminate Q].
    + unfold lu in *. destruct (Nat.le_gt_cases n (length (below M ob))); [left; rewrite firstn_length; lia|].
      right. split; [|exact I]. rewrite firstn_all2 by lia. exact X.
  - exact P.
  - exists false, []. unfold GS, fresh. cbn [job wb below store app length]. split; [split; [apply (c_start _ _ _ C)|split; [reflexivity|lia]]|]. split; [reflexivity|discriminate].
  - cbn [length skipn Nat.add] in *. destruct R as (e & o & (I1 & S1 & L1) & X & HE).
    unfold send_eof. destruct (eof_loop_ok M F Inv C fuel {| job := job M ob; wb := wb M ob; below := below M ob; store := store M ob ++ wb M ob; summed := summed M ob; completed := completed M ob |}
       (firstn (list_sum sizes) data) e o I1 S1) as (ob' & EL & ST).
    { pose proof (largest_ok F data (list_sum sizes)). lia. }
    exists ob, ob'. auto.
Qed.

(** Saving as a delta then restoring: with machines such that patching with the delta of [new]
    gives [new] (librsync's own contract), the file restored is [new], whatever sizes the
    delta was read with when saved and the patched file when restored. *)
Corollary C56_restored Md Fd Id Mp Fp Ip new sizes1 sizes2 fuel1 fuel2 :
  computes Md Fd Id -> computes Mp Fp Ip -> ends_with Mp Ip (Fd new) -> Fp (Fd new) = new ->
  positive sizes1 -> positive sizes2 -> length (Fd new) <= list_sum sizes1 -> length new <= list_sum sizes2 ->
  length new + length (Fd new) < fuel1 -> length new + length (Fd new) < fuel2 ->
  exists ob1 saved ob2, reads Md (delta_read Md fuel1) (fresh Md new) sizes1 = Ok (ob1, saved) /\
    reads Mp (patch_read Mp fuel2) (fresh Mp saved) sizes2 = Ok (ob2, new).
Proof.
  intros C1 C2 EW FE P1 P2 L1 L2 F1 F2.
  destruct (C56_delta Md Fd Id new sizes1 fuel1 C1 P1 F1) as (ob1 & E1 & _). rewrite firstn_all2 in E1 by lia.
  destruct (C56_patch Mp Fp Ip (Fd new) sizes2 fuel2 C2 EW P2) as (ob2 & E2); [rewrite FE; lia|].
  rewrite FE in E2. rewrite firstn_all2 in E2 by lia. eauto.
Qed.

(** ** Machines meeting the hypotheses *)
Lemma none_left n (l : list N) : 0 < n -> firstn n l = [] -> is_nil (skipn n l) = true.
Proof. intros Hn H. destruct l; [rewrite skipn_nil; reflexivity|]. destruct n; [lia|discriminate]. Qed.

(** Copies its input and adds a trailing byte at the end of it; keeps a queue of what there
    was no room for. *)
Definition toy (mark : N) : machine := {|
  state := list N * bool; start := ([], false);
  iter := fun '(q, told) a fin n =>
    let q' := q ++ a ++ (if fin && negb told then [mark] else []) in
    let rest := skipn n q' in
    ((rest, told || fin), length a, firstn n q', if (told || fin) && is_nil rest then RS_DONE else RS_BLOCKED) |}.
Definition toyF (mark : N) (x : list N) : list N := x ++ [mark].
Definition toyI (mark : N) (s : state (toy mark)) (x : list N) (e : bool) (o : list N) : Prop := o ++ fst s = x ++ (if e then [mark] else []) /\ snd s = e.

Lemma toy_computes mark : computes (toy mark) (toyF mark) (toyI mark).
Proof.
  constructor.
  - split; reflexivity.
  - intros [q t] x e o [H T]. cbn in H, T. split; intros ->.
    + exists q. symmetry. exact H.
    + intro y. rewrite app_nil_r in H. exists (q ++ y ++ [mark]). unfold toyF. rewrite <- H, <- !app_assoc. reflexivity.
  - intros [q t] x e o a n s' c out r [H T] NE E. cbn in H, T. subst t. cbn [toy iter] in E. injection E as <- <- <- <-.
    split; [lia|]. split; [rewrite firstn_length; lia|]. split; [destruct ((e || is_nil a) && _); discriminate|].
    unfold toyI. cbn [fst snd]. split; [|reflexivity].
    rewrite <- app_assoc, firstn_skipn, firstn_all, !app_assoc, H. destruct a as [|y a].
    + cbn [is_nil]. rewrite orb_true_r. cbn [andb]. destruct e; cbn [negb]; rewrite !app_nil_r; reflexivity.
    + rewrite (NE ltac:(discriminate)). cbn [is_nil orb andb]. rewrite !app_nil_r. reflexivity.
  - intros [q t] x e o a n s' c out r _ _ Na _ E. cbn [toy iter] in E. injection E as <- <- <- <-. left. destruct a; [congruence|cbn; lia].
  - intros [q t] x e o n s' c out r [H T] Hn E Ho. cbn [toy iter] in E. injection E as <- <- <- <-. rewrite (none_left _ _ Hn Ho), orb_true_r. reflexivity.
  - intros [q t] x e o a n s' c out r [H T] NE E Hr. cbn in H, T. subst t. cbn [toy iter] in E. injection E as <- <- <- <-.
    destruct (e || is_nil a) eqn:EA; cbn [andb] in Hr; [|discriminate].
    destruct (is_nil (skipn n _)) eqn:NI; [|discriminate]. apply is_nil_true in NI. split; [|discriminate]. intros _.
    set (q' := q ++ _) in *. assert (Q : firstn n q' = q') by (rewrite <- (firstn_skipn n q') at 2; rewrite NI, app_nil_r; reflexivity).
    rewrite Q. unfold q', toyF. rewrite firstn_all, !app_assoc, H. destruct a as [|y a].
    + cbn [is_nil]. destruct e; cbn [negb andb]; rewrite !app_nil_r; reflexivity.
    + rewrite (NE ltac:(discriminate)) in EA. discriminate.
Qed.

(** Gives its input up to a null byte, which ends it, as the END command of a delta does. *)
Fixpoint upto (l : list N) : list N := match l with [] => [] | y :: l' => if N.eqb y 0 then [] else y :: upto l' end.
Definition ended (l : list N) : bool := existsb (N.eqb 0) l.
Definition cut : machine := {|
  state := list N * bool; start := ([], false);
  iter := fun '(q, stop) a fin n =>
    let q' := q ++ (if stop then [] else upto a) in
    let stop' := stop || ended a in
    let rest := skipn n q' in
    ((rest, stop'), length a, firstn n q', if (stop' || fin) && is_nil rest then RS_DONE else RS_BLOCKED) |}.
Definition cutI (s : state cut) (x : list N) (e : bool) (o : list N) : Prop := o ++ fst s = upto x /\ snd s = ended x.

Lemma upto_app a b : upto (a ++ b) = upto a ++ (if ended a then [] else upto b).
Proof.
  induction a as [|y a IH]; [reflexivity|]. cbn [app upto ended existsb]. rewrite (N.eqb_sym 0 y). destruct (N.eqb y 0); [reflexivity|].
  cbn [orb app]. rewrite IH. reflexivity.
Qed.
Lemma ended_app a b : ended (a ++ b) = ended a || ended b.
Proof. apply existsb_app. Qed.

Lemma cut_computes : computes cut upto cutI.
Proof.
  constructor.
  - split; reflexivity.
  - intros [q t] x e o [H T]. cbn in H, T. split; intros ->.
    + exists q. symmetry. exact H.
    + intro y. rewrite upto_app, <- H, <- app_assoc. eexists. reflexivity.
  - intros [q t] x e o a n s' c out r [H T] NE E. cbn in H, T. subst t. cbn [cut iter] in E. injection E as <- <- <- <-.
    split; [lia|]. split; [rewrite firstn_length; lia|]. split; [destruct ((ended x || ended a || is_nil a) && _); discriminate|].
    unfold cutI. cbn [fst snd]. rewrite firstn_all, ended_app, upto_app, <- app_assoc, firstn_skipn, app_assoc, H. auto.
  - intros [q t] x e o a n s' c out r _ _ Na _ E. cbn [cut iter] in E. injection E as <- <- <- <-. left. destruct a; [congruence|cbn; lia].
  - intros [q t] x e o n s' c out r [H T] Hn E Ho. cbn [cut iter] in E. injection E as <- <- <- <-. rewrite (none_left _ _ Hn Ho), orb_true_r. reflexivity.
  - intros [q t] x e o a n s' c out r [H T] NE E Hr. cbn in H, T. subst t. cbn [cut iter] in E. injection E as <- <- <- <-.
    destruct (ended x || ended a || is_nil a) eqn:EA; cbn [andb] in Hr; [|discriminate].
    destruct (is_nil (skipn n _)) eqn:NI; [|discriminate]. apply is_nil_true in NI.
    set (q' := q ++ _) in *. assert (Q : firstn n q' = q') by (rewrite <- (firstn_skipn n q') at 2; rewrite NI, app_nil_r; reflexivity).
    rewrite Q. unfold q'. rewrite firstn_all, app_assoc, H. split.
    + intros _. apply upto_app.
    + intros EB y. apply orb_false_iff in EB. destruct EB as [_ EB]. rewrite EB, orb_false_r in EA. rewrite <- ended_app in EA.
      rewrite app_assoc, upto_app, EA, app_nil_r, upto_app. reflexivity.
Qed.

Lemma cut_ends body : ended body = false -> ends_with cut cutI (body ++ [0%N]).
Proof.
  intros Hb [q t] x e o a n s' c out [H T] NE [z PX] E. cbn in T. subst t. cbn [cut iter] in E. injection E as _ <- _ Hr.
  destruct (e || is_nil a) eqn:EA; [auto|]. right. apply orb_false_iff in EA. destruct EA as [_ EA]. rewrite EA, orb_false_r, <- ended_app in Hr.
  destruct (ended (x ++ a)) eqn:EX; [|discriminate]. rewrite firstn_all. destruct z as [|z0 z] using rev_ind; [rewrite app_nil_r in PX; auto|].
  rewrite app_assoc in PX. apply app_inj_tail in PX. destruct PX as [PX _]. rewrite PX, ended_app, EX in Hb. discriminate.
Qed.

(** A delta being the file and a null byte, the file restored is the one saved. *)
Example C56_restored_hyps new : ended new = false ->
  computes (toy 0) (toyF 0) (toyI 0) /\ computes cut upto cutI /\ ends_with cut cutI (toyF 0 new) /\ upto (toyF 0 new) = new.
Proof.
  intro H. split; [apply toy_computes|]. split; [apply cut_computes|]. split; [apply cut_ends, H|].
  unfold toyF. rewrite upto_app, H. cbn [upto N.eqb]. rewrite app_nil_r. clear -H.
  induction new as [|y l IH]; [reflexivity|]. cbn [upto ended existsb] in *. rewrite (N.eqb_sym 0 y) in H. destruct (N.eqb y 0); [discriminate|].
  cbn [orb] in H. f_equal. auto.
Qed.

Example C56_delta_example : match reads (toy 42) (delta_read (toy 42) 100) (fresh (toy 42) [1; 2; 3; 4; 5]%N) [2; 1; 2; 4; 7] with
  | Ok (ob, x) => x = [1; 2; 3; 4; 5; 42]%N /\ summed (toy 42) ob = [1; 2; 3; 4; 5]%N | Err _ => False end.
Proof. vm_compute. auto. Qed.
Example C56_delta_hyps : positive [2; 1; 2; 4; 7] /\ length [1; 2; 3; 4; 5]%N + length (toyF 42 [1; 2; 3; 4; 5]%N) < 100.
Proof. split; [repeat constructor|cbn; lia]. Qed.
Example C56_patch_example : match reads cut (patch_read cut 100) (fresh cut [7; 8; 9; 0]%N) [2; 3; 4] with
  | Ok (ob, x) => x = [7; 8; 9]%N /\ completed cut ob = true | Err _ => False end.
Proof. vm_compute. auto. Qed.
Example C56_patch_hyps : ends_with cut cutI ([7; 8; 9] ++ [0])%N.
Proof. apply cut_ends. reflexivity. Qed.
Example C56_signature_example : match reads (toy 42) (sign_read (toy 42) 100) (fresh (toy 42) [1; 2; 3; 4; 5]%N) [2; 1; 7; 4] with
  | Ok (ob, x) => x = [1; 2; 3; 4; 5]%N /\ match send_eof (toy 42) 100 ob with Ok ob' => store (toy 42) ob' = [1; 2; 3; 4; 5; 42]%N | Err _ => False end
  | Err _ => False end.
Proof. vm_compute. auto. Qed.

Print Assumptions C56_delta.
Print Assumptions C56_patch.
Print Assumptions C56_signature.
Print Assumptions C56_restored.
