(** * CompStreamProof: lemmas about the streamed compression *)
From Coq Require Import List.
From Verif Require Import Base CompStreamModel CompStreamSpec.
Local Open Scope nat_scope.

Lemma B_pos : 0 < BUFFER_SIZE. Proof. unfold BUFFER_SIZE. lia. Qed.
Lemma skipn_skipn {A} x y (l : list A) : skipn x (skipn y l) = skipn (x + y) l.
Proof.
  revert l. induction y as [|y IH]; intro l; [rewrite Nat.add_0_r; reflexivity|]. rewrite Nat.add_succ_r. destruct l; [now rewrite !skipn_nil|]. cbn [skipn]. apply IH.
Qed.
Lemma is_nil_true l : is_nil l = true <-> l = [].
Proof. destruct l; split; (reflexivity || discriminate). Qed.
Lemma prefix_len o l : prefix o l -> length o <= length l.
Proof. intros [t ->]. rewrite app_length. lia. Qed.
Lemma prefix_refl l : prefix l l. Proof. exists []. rewrite app_nil_r. reflexivity. Qed.
Lemma prefix_app l t : prefix l (l ++ t). Proof. exists t. reflexivity. Qed.
Lemma prefix_full o l : prefix o l -> length l <= length o -> o = l.
Proof. intros [t ->] H. rewrite app_length in H. destruct t; [now rewrite app_nil_r|cbn in H; lia]. Qed.
Lemma prefix_firstn o l : prefix o l -> o = firstn (length o) l.
Proof. intros [t ->]. rewrite firstn_app, Nat.sub_diag, firstn_all. cbn. rewrite app_nil_r. reflexivity. Qed.
Lemma prefix_comparable a b l : prefix a l -> prefix b l -> prefix a b \/ prefix b a.
Proof.
  intros [t Ha] [u Hb]. rewrite Ha in Hb. apply app_eq_app in Hb. destruct Hb as (w & [[E _]|[E _]]); [right|left]; exists w; exact E.
Qed.

Section proof.
Variable E : engine.
Variable encodes : list N -> list N -> Prop.

(** ** Writing *)
Section writing.
Variables (I Fin : cstate E -> list N -> list N -> Prop) (left : cstate E -> nat).
Hypothesis C : compresses E encodes I Fin left.

Lemma write_loop_ok : forall n lm o x ob done av, length av <= n -> left (comp E o) <= lm -> I (comp E o) x ob -> out E o = done ++ ob ->
  exists f0 o' ob', (forall f, f0 <= f -> write_loop E f o av = Ok o') /\ out E o' = done ++ ob' /\ I (comp E o') (x ++ av) ob' /\
    total_in E o' = total_in E o + length av /\ wsuspended E o' = wsuspended E o.
Proof.
  induction n as [|n IHn].
  - intros lm o x ob done av Hl _ HI Ho. destruct av; [|cbn in Hl; lia]. exists 0, o, ob. split; [intros [|f] _; reflexivity|]. rewrite app_nil_r. cbn. auto.
  - induction lm as [lm IHl] using lt_wf_ind. intros o x ob done av Hl Hm HI Ho. destruct av as [|a0 av0]; [exists 0, o, ob; split; [intros [|f] _; reflexivity|]; rewrite app_nil_r; cbn; auto|].
    set (av := a0 :: av0) in *. destruct (compress E (comp E o) av false BUFFER_SIZE) as [[[s c] b] r] eqn:K.
    assert (NA : av <> []) by discriminate. destruct (c_give _ _ _ _ _ C _ _ _ _ _ _ _ _ _ HI NA B_pos K) as (R & Hc & Hb & HI' & PR).
    set (o1 := {| comp := s; total_in := total_in E o + c; wsuspended := wsuspended E o; out := out E o ++ b |}).
    assert (NEXT : exists f0 o' ob', (forall f, f0 <= f -> write_loop E f o1 (skipn c av) = Ok o') /\ out E o' = done ++ ob' /\ I (comp E o') ((x ++ firstn c av) ++ skipn c av) ob' /\
      total_in E o' = total_in E o1 + length (skipn c av) /\ wsuspended E o' = wsuspended E o1).
    { assert (O1 : out E o1 = done ++ (ob ++ b)) by (cbn; rewrite Ho, app_assoc; reflexivity).
      destruct (Nat.eq_0_gt_0_cases c) as [->|Hc0].
      - destruct PR as [PR|PR]; [lia|]. apply (IHl (left s)) with (ob := ob ++ b); [lia|rewrite skipn_length; lia|reflexivity|exact HI'|exact O1].
      - apply (IHn (left s)) with (ob := ob ++ b); [rewrite skipn_length; lia|reflexivity|exact HI'|exact O1]. }
    destruct NEXT as (f0 & o' & ob' & W & O' & I' & T' & S'). exists (S f0), o', ob'. split.
    { intros f Hf. destruct f as [|f]; [lia|]. change (write_loop E (S f) o av) with
        (match compress E (comp E o) av false BUFFER_SIZE with
         | (s, c, b, WR_OK) | (s, c, b, WR_STREAM_END) => write_loop E f {| comp := s; total_in := total_in E o + c; wsuspended := wsuspended E o; out := out E o ++ b |} (skipn c av)
         | _ => Err Ebug end). rewrite K. destruct R as [-> | ->]; apply W; lia. }
    split; [exact O'|]. rewrite <- app_assoc, firstn_skipn in I'. split; [exact I'|]. split; [|exact S']. rewrite T', skipn_length. change (total_in E o1) with (total_in E o + c). lia.
Qed.

Lemma finish_loop_ok : forall lm o x ob done, left (comp E o) <= lm -> I (comp E o) x ob \/ Fin (comp E o) x ob -> out E o = done ++ ob ->
  exists f0 o' m, (forall f, f0 <= f -> finish_loop E f o = Ok o') /\ out E o' = done ++ m /\ encodes x m /\ wsuspended E o' = wsuspended E o.
Proof.
  induction lm as [lm IH] using lt_wf_ind. intros o x ob done Hm HI Ho. destruct (compress E (comp E o) [] true BUFFER_SIZE) as [[[s c] b] r] eqn:K.
  destruct (c_finish _ _ _ _ _ C _ _ _ _ _ _ _ _ HI B_pos K) as (Hb & [(-> & F & L)|(-> & EN)]).
  - destruct (IH (left s) ltac:(lia) {| comp := s; total_in := total_in E o; wsuspended := wsuspended E o; out := out E o ++ b |} x (ob ++ b) done) as (f0 & o' & m & W & O & EN & S'); auto; [cbn; rewrite Ho, app_assoc; reflexivity|].
    exists (S f0), o', m. split; [|auto]. intros f Hf. destruct f as [|f]; [lia|]. cbn [finish_loop]. rewrite K. apply W. lia.
  - eexists 1, _, (ob ++ b). split; [intros f Hf; destruct f as [|f]; [lia|]; cbn [finish_loop]; rewrite K; reflexivity|]. cbn [out wsuspended]. rewrite Ho, app_assoc. auto.
Qed.

(** the state between two operations *)
Definition WI (o : wobj E) (susp : bool) (pending : list N) (done : list N) : Prop :=
  wsuspended E o = susp /\ total_in E o = length pending /\ (susp = true -> pending = []) /\ exists ob, out E o = done ++ ob /\ I (comp E o) pending ob /\ (pending = [] -> ob = []).

Lemma sync_ok o susp pending done : WI o susp pending done ->
  exists f0 o' ms, (forall f, f0 <= f -> sync_write E f o = Ok o') /\ Forall2 (stored encodes) (close pending) ms /\ WI o' susp [] (done ++ concat ms).
Proof.
  intros (S1 & T1 & P1 & ob & O1 & I1 & Z1). unfold sync_write. destruct (Nat.eqb_spec (total_in E o) 0) as [Z|NZ].
  - exists 0, o, []. assert (pending = []) as -> by (destruct pending; [reflexivity|cbn in T1; lia]). split; [reflexivity|]. split; [constructor|]. cbn. rewrite app_nil_r.
    repeat split; eauto. 
  - destruct (finish_loop_ok (left (comp E o)) o pending ob done (le_n _) (or_introl I1) O1) as (f0 & o' & m & W & O & EN & S').
    exists f0, {| comp := cstart E; total_in := 0; wsuspended := wsuspended E o'; out := out E o' |}, [m]. split; [intros f Hf; rewrite W by exact Hf; reflexivity|].
    split; [destruct pending; [cbn in T1; lia|]; cbn [close]; constructor; [exact EN|constructor]|]. unfold WI. cbn [comp total_in wsuspended out]. rewrite S', S1. repeat split; auto.
    exists []. rewrite app_nil_r. cbn. rewrite app_nil_r, O. repeat split; auto. apply (c_start _ _ _ _ _ C).
Qed.

Lemma wstep_ok o susp pending done p : WI o susp pending done ->
  exists f0 o' ms susp' pending', (forall f, f0 <= f -> wstep E f o p = Ok o') /\ WI o' susp' pending' (done ++ concat ms) /\
    exists ps, Forall2 (stored encodes) ps ms /\ forall r, pieces susp pending (p :: r) = ps ++ pieces susp' pending' r.
Proof.
  intro H. pose proof H as (S1 & T1 & P1 & ob & O1 & I1 & Z1). destruct p as [a| | |]; cbn [wstep pieces].
  - unfold write. destruct a as [|a0 a1].
    { destruct susp.
      - exists 0, o, [[]], true, pending. split; [reflexivity|]. split; [cbn; rewrite app_nil_r; exact H|]. exists [Raw []]. split; [repeat constructor|reflexivity].
      - exists 0, o, [], false, pending. split; [reflexivity|]. split; [cbn; rewrite app_nil_r; exact H|]. exists []. split; [constructor|]. rewrite app_nil_r. reflexivity. }
    set (a := a0 :: a1) in *. rewrite S1. destruct susp.
    + eexists 0, _, [a], true, pending. split; [reflexivity|]. split; [|exists [Raw a]; split; [repeat constructor|reflexivity]].
      unfold WI. cbn [comp total_in wsuspended out]. repeat split; auto. exists []. specialize (P1 eq_refl). subst pending. rewrite (Z1 eq_refl) in *. cbn. rewrite O1, !app_nil_r. auto.
    + destruct (write_loop_ok (length a) (left (comp E o)) o pending ob done a (le_n _) (le_n _) I1 O1) as (f0 & o' & ob' & W & O' & I' & T' & S').
      exists f0, o', [], false, (pending ++ a). split; [exact W|]. split; [|exists []; split; [constructor|reflexivity]].
      unfold WI. rewrite S', S1, T', T1, app_length. cbn [concat]. rewrite app_nil_r. repeat split; auto; [discriminate|]. exists ob'. repeat split; auto. intro Z. apply app_eq_nil in Z. destruct Z; discriminate.
  - destruct (sync_ok o susp pending done H) as (f0 & o' & ms & W & F & W'). exists f0, o', ms, susp, []. split; [exact W|]. split; [exact W'|]. exists (close pending). auto.
  - unfold suspend. rewrite S1. destruct susp.
    + specialize (P1 eq_refl). subst pending. exists 0, o, [], true, []. split; [reflexivity|]. split; [cbn; rewrite app_nil_r; exact H|]. exists []. split; [constructor|reflexivity].
    + destruct (sync_ok o false pending done H) as (f0 & o' & ms & W & F & (S2 & T2 & P2 & ob2 & O2 & I2 & Z2)).
      eexists f0, _, ms, true, []. split; [intros f Hf; rewrite W by exact Hf; reflexivity|]. split; [|exists (close pending); auto].
      unfold WI. cbn [comp total_in wsuspended out]. repeat split; auto. exists ob2. auto.
  - eexists 0, _, [], false, pending. split; [reflexivity|]. split; [|exists []; split; [constructor|reflexivity]].
    unfold WI, resume. cbn [comp total_in wsuspended out concat]. rewrite app_nil_r. repeat split; auto; [discriminate|]. exists ob. auto.
Qed.

Lemma wrun_ok : forall l o susp pending done, WI o susp pending done ->
  exists f0 o' ms, (forall f, f0 <= f -> wrun E f o (l ++ [Sync]) = Ok o') /\ Forall2 (stored encodes) (pieces susp pending l) ms /\
    out E o' = done ++ concat ms /\ total_in E o' = 0 /\ exists susp', WI o' susp' [] (done ++ concat ms).
Proof.
  induction l as [|p l IH]; intros o susp pending done H.
  - cbn [app wrun wstep pieces]. destruct (sync_ok o susp pending done H) as (f0 & o' & ms & W & F & H'). exists f0, o', ms. split; [intros f Hf; rewrite W by exact Hf; reflexivity|].
    split; [exact F|]. pose proof H' as (_ & T & _ & ob & O & _ & Z). rewrite O, (Z eq_refl), app_nil_r. eauto 6.
  - destruct (wstep_ok o susp pending done p H) as (f1 & o1 & ms1 & s1 & p1 & W1 & H1 & ps & F1 & EP).
    destruct (IH o1 s1 p1 (done ++ concat ms1) H1) as (f2 & o2 & ms2 & W2 & F2 & O2 & T2 & s2 & H2).
    exists (Nat.max f1 f2), o2, (ms1 ++ ms2). split; [|split; [|split; [|split; [exact T2|exists s2]]]].
    + intros f Hf. cbn [app wrun]. rewrite W1 by lia. cbn [bind]. apply W2. lia.
    + rewrite EP. apply Forall2_app; auto.
    + rewrite O2, concat_app, app_assoc. reflexivity.
    + rewrite concat_app, app_assoc. exact H2.
Qed.
Lemma WI_fresh : WI (wfresh E) false [] [].
Proof. repeat split; auto. exists []. repeat split; auto. apply (c_start _ _ _ _ _ C). Qed.
End writing.

(** ** Reading *)
Section reading.
Variable D : list N -> list N -> dstate E -> list N -> list N -> bool -> Prop.
Hypothesis C : decompresses E encodes D.
Variables x m S0 : list N.
(** what is in the file from the place skipped to: m and more, or the beginning of m *)
Hypothesis HS : prefix m S0 \/ prefix S0 m.

Definition rest (o : robj E) : list N := skipn (pos E o) (file E o).
Definition RI (o : robj E) (d : list N) : Prop :=
  rsuspended E o = false /\ exists i e, D x m (decomp E o) i d e /\ i ++ avail E o ++ rest o = S0.

Lemma fits_ok i a t : i ++ a ++ t = S0 -> fits i a m.
Proof.
  intro H. assert (P : prefix (i ++ a) S0) by (exists t; rewrite <- app_assoc; symmetry; exact H). unfold fits. destruct HS as [Q|Q].
  - eapply prefix_comparable; eauto.
  - left. destruct P as [u ->]. destruct Q as [v ->]. rewrite <- app_assoc. apply prefix_app.
Qed.
Definition measure (o : robj E) (room : nat) : nat := length (avail E o) + length (rest o) + room.

Lemma feed_ok o room mem d : RI o d -> let '(o1, mem1) := feed E o room mem in
  RI o1 d /\ decomp E o1 = decomp E o /\ length (avail E o1) + length (rest o1) = length (avail E o) + length (rest o) /\
  (avail E o1 = [] -> rest o1 = [] /\ mem1 = room) /\ (avail E o1 <> [] -> mem = 0 -> mem1 = 0) /\ (avail E o = [] -> avail E o1 <> [] -> mem1 = 0).
Proof.
  intros (Su & i & e & HD & HE). unfold feed. destruct (avail E o) as [|a0 av] eqn:A.
  - set (got := firstn BUFFER_SIZE (skipn (pos E o) (file E o))).
    assert (SP : skipn (pos E o) (file E o) = got ++ skipn (pos E o + length got) (file E o)).
    { rewrite <- (firstn_skipn BUFFER_SIZE (skipn (pos E o) (file E o))) at 1. fold got. f_equal. unfold got. rewrite skipn_skipn, firstn_length.
      rewrite skipn_length. destruct (Nat.le_ge_cases BUFFER_SIZE (length (file E o) - pos E o)) as [L|G]; [f_equal; lia|]. rewrite !skipn_all2; auto; lia. }
    unfold rest in *. cbn [avail file pos decomp]. cbn [app length] in *. split; [|split; [reflexivity|split; [|split; [|split]]]].
    + split; [exact Su|]. exists i, e. split; [exact HD|]. cbn [avail rest file pos]. unfold rest. cbn [file pos]. rewrite <- SP. exact HE.
    + rewrite (f_equal (@length _) SP), app_length. lia.
    + intro Z. rewrite Z. cbn [is_nil length]. rewrite Nat.add_0_r. split; [|reflexivity].
      destruct (skipn (pos E o) (file E o)) as [|c t] eqn:Q; [reflexivity|]. unfold got in Z. pose proof B_pos. destruct BUFFER_SIZE; [lia|discriminate].
    + intros NZ _. destruct got; [congruence|reflexivity].
    + intros _ NZ. destruct got; [congruence|reflexivity].
  - split; [|split; [reflexivity|]]. { split; [exact Su|]. exists i, e. rewrite A. auto. }
    rewrite A. split; [reflexivity|]. split; [discriminate|]. split; [auto|discriminate].
Qed.

(** what a turn of the loop, hence a read, gives *)
Lemma read_loop_ok : forall k o room mem nomore acc d, measure o room < k -> RI o d -> (avail E o <> [] -> mem = 0) -> (nomore = true -> avail E o = [] /\ rest o = []) ->
  (room = 0 -> avail E o = [] /\ rest o = []) ->
  exists o' b, (forall f, k <= f -> read_loop E f o room mem nomore acc = Ok (o', acc ++ b)) /\ length b <= room /\ RI o' (d ++ b) /\
    (prefix m S0 -> b = firstn room (skipn (length d) x)).
Proof.
  induction k as [|k IH]; [lia|]. intros o room mem nomore acc d HM HR Hmem Hno H0.
  pose proof (feed_ok o room mem d HR) as FE. destruct (feed E o room mem) as [o1 mem1] eqn:FD.
  destruct FE as ((Su & i & e & HD & HE) & DE & LE & AZ & MZ & MZ2).
  assert (M1 : avail E o1 <> [] -> mem1 = 0).
  { intro NZ. destruct (avail E o) as [|a0 av] eqn:A; [apply MZ2; auto|]. apply MZ; [exact NZ|]. apply Hmem. discriminate. }
  assert (N1 : nomore || is_nil (avail E o1) = is_nil (avail E o1)).
  { destruct nomore; [|reflexivity]. destruct (Hno eq_refl) as [A B]. symmetry. apply is_nil_true. rewrite A, B in LE. cbn in LE. destruct (avail E o1); [reflexivity|cbn in LE; lia]. }
  assert (Z1 : room = 0 -> avail E o1 = [] /\ rest o1 = []).
  { intro Z. destruct (H0 Z) as [A B]. rewrite A, B in LE. cbn in LE. destruct (avail E o1), (rest o1); cbn in LE; (split; reflexivity) || lia. }
  destruct (decompress E (decomp E o1) (avail E o1) room) as [[[s c] b] r] eqn:K.
  set (o2 := {| decomp := s; avail := skipn c (avail E o1); file := file E o1; pos := pos E o1; rsuspended := rsuspended E o1 |}).
  assert (STEP : forall f, read_loop E (S f) o room mem nomore acc =
    let* ended := match r with WR_OK => Ok false | WR_STREAM_END => Ok true | WR_DATA_ERROR => Err Erange | WR_BUF_ERROR => if is_nil (avail E o2) then Ok true else Err Ebug | WR_OTHER => Err Ebug end in
    if negb (room - length b =? mem1) && negb ended && negb ((mem1 =? room - length b) && is_nil (avail E o1)) then read_loop E f o2 (room - length b) mem1 (is_nil (avail E o1)) (acc ++ b) else Ok (o2, acc ++ b)).
  { intro f. cbn [read_loop]. rewrite FD, N1, K. reflexivity. }
  assert (RES : forall x0 m0, encodes x0 m0 -> True) by auto. clear RES.
  (* the step taken by the engine *)
  assert (ST : exists e', D x m s (i ++ firstn c (avail E o1)) (d ++ b) e' /\ c <= length (avail E o1) /\ length b <= room /\
     (e' = true <-> r = WR_STREAM_END) /\ (r = WR_OK \/ r = WR_STREAM_END \/ (r = WR_BUF_ERROR /\ b = [] /\ (avail E o1 = [] \/ room = 0))) /\
     (avail E o1 <> [] -> 0 < room -> 0 < c \/ b <> [] \/ r = WR_STREAM_END) /\ (i = m -> avail E o1 = [] -> 0 < room -> b <> [] \/ r = WR_STREAM_END)).
  { destruct e.
    - destruct (d_end _ _ _ C _ _ _ _ _ _ _ _ _ _ _ HD K) as (-> & -> & -> & HD'). exists true. cbn [firstn length]. rewrite !app_nil_r. split; [exact HD'|]. repeat split; auto; lia.
    - pose proof (fits_ok _ _ _ HE) as FT. destruct (d_step _ _ _ C _ _ _ _ _ _ _ _ _ _ _ HD FT K) as (Hc & Hb & HD' & RR & PR & LA).
      eexists. split; [exact HD'|]. split; [exact Hc|]. split; [exact Hb|]. split; [destruct r; split; congruence|]. auto. }
  destruct ST as (e' & HD' & Hc & Hb & EE & RR & PR & LA).
  assert (HE2 : (i ++ firstn c (avail E o1)) ++ avail E o2 ++ rest o2 = S0).
  { cbn [avail o2]. change (rest o2) with (rest o1). rewrite <- app_assoc, (app_assoc (firstn c _)), firstn_skipn. exact HE. }
  assert (RI2 : RI o2 (d ++ b)) by (split; [exact Su|eauto]).
  assert (LB : length b + length (skipn (length d) x) >= 0) by lia.
  destruct (d_prefix _ _ _ C _ _ _ _ _ _ HD') as (PI & PD & PE).
  assert (BX : exists t, x = d ++ b ++ t) by (destruct PD as [t ->]; exists t; apply app_assoc_reverse).
  assert (BF : length b = room \/ r = WR_STREAM_END -> b = firstn room (skipn (length d) x)).
  { destruct BX as [t BX]. rewrite BX, skipn_app, skipn_all, Nat.sub_diag. cbn [app skipn]. intros [Q|Q].
    - rewrite <- Q, firstn_app, Nat.sub_diag, firstn_all. cbn. rewrite app_nil_r. reflexivity.
    - destruct (PE (proj2 EE Q)) as [_ X]. assert (Y : d ++ b ++ [] = d ++ b ++ t) by (rewrite app_nil_r, <- BX; exact X). apply app_inv_head, app_inv_head in Y. subst t.
      rewrite app_nil_r, firstn_all2 by exact Hb. reflexivity. }
  (* leaving the loop *)
  assert (DONE : (forall f, S k <= f -> read_loop E f o room mem nomore acc = Ok (o2, acc ++ b)) -> (prefix m S0 -> length b = room \/ r = WR_STREAM_END) ->
     exists o' b', (forall f, S k <= f -> read_loop E f o room mem nomore acc = Ok (o', acc ++ b')) /\ length b' <= room /\ RI o' (d ++ b') /\ (prefix m S0 -> b' = firstn room (skipn (length d) x))).
  { intros Q1 Q2. exists o2, b. split; [exact Q1|]. split; [exact Hb|]. split; [exact RI2|]. intro PM. apply BF, Q2, PM. }
  (* at the end of the file the engine was given all of it *)
  assert (ALL : prefix m S0 -> avail E o1 = [] -> i = m).
  { intros PM A. destruct (AZ A) as [B _]. rewrite A, B in HE. cbn [app] in HE. rewrite app_nil_r in HE. destruct (d_prefix _ _ _ C _ _ _ _ _ _ HD) as (PI0 & _).
    apply prefix_full; [exact PI0|]. rewrite HE. apply prefix_len, PM. }
  assert (FS : forall R : res (robj E * list N), (forall f, k <= f -> read_loop E (S f) o room mem nomore acc = R) -> forall f, S k <= f -> read_loop E f o room mem nomore acc = R).
  { intros R Q f Hf. destruct f as [|f]; [lia|]. apply Q. lia. }
  destruct RR as [-> | [-> | (-> & -> & BA)]].
  - (* WR_OK *)
    cbn [bind] in STEP. destruct (Nat.eqb_spec (room - length b) mem1) as [EQ|NE].
    + apply DONE; [apply FS; intros f _; rewrite STEP; reflexivity|]. intro PM. left. destruct (avail E o1) as [|a0 av] eqn:A.
      * destruct (AZ eq_refl) as [_ ->]. destruct (Nat.eq_0_gt_0_cases room) as [->|Hr]; [lia|].
        destruct (LA (ALL PM eq_refl) eq_refl Hr) as [Q|Q]; [|discriminate]. destruct b; [congruence|]. cbn [length] in *. lia.
      * specialize (M1 ltac:(discriminate)). lia.
    + assert (MEQ : (mem1 =? room - length b) = false) by (apply Nat.eqb_neq; lia). rewrite MEQ in STEP. cbn [negb andb] in STEP.
      assert (RP : 0 < room). { destruct room; [|lia]. exfalso. apply NE. destruct (Z1 eq_refl) as [A _]. destruct (AZ A) as [_ ->]. reflexivity. }
      assert (PG : 0 < c \/ b <> []).
      { destruct (avail E o1) as [|a0 av] eqn:A; [|destruct (PR ltac:(discriminate) RP) as [Q|[Q|Q]]; [auto|auto|discriminate]].
        right. intros ->. apply NE. destruct (AZ eq_refl) as [_ ->]. cbn. lia. }
      destruct (IH o2 (room - length b) mem1 (is_nil (avail E o1)) (acc ++ b) (d ++ b)) as (o' & b' & W & LB' & RI' & FF).
      { unfold measure in *. change (rest o2) with (rest o1). cbn [avail o2]. rewrite skipn_length. destruct PG as [PG|PG]; [lia|]. destruct b; [congruence|]. cbn [length] in *. lia. }
      { exact RI2. }
      { intro Q. apply M1. intro Z. cbn [avail o2] in Q. rewrite Z in Q. destruct c; apply Q; reflexivity. }
      { intro Q. apply is_nil_true in Q. destruct (AZ Q) as [B _]. split; [cbn [avail o2]; rewrite Q; apply skipn_nil|exact B]. }
      { intro Z. destruct (avail E o1) as [|a0 av] eqn:A; [|specialize (M1 ltac:(discriminate)); lia]. destruct (AZ eq_refl) as [B _]. split; [cbn [avail o2]; rewrite ?A; apply skipn_nil|exact B]. }
      exists o', (b ++ b'). split; [|split; [rewrite app_length; lia|split; [rewrite app_assoc; exact RI'|]]].
      * apply FS. intros f Hf. rewrite STEP, app_assoc. apply W. exact Hf.
      * intro PM. rewrite (FF PM), app_length, Nat.add_comm, <- skipn_skipn. destruct BX as [t BX].
        assert (Y : skipn (length d) x = b ++ t) by (rewrite BX, skipn_app, skipn_all, Nat.sub_diag; reflexivity).
        rewrite Y, skipn_app, skipn_all, Nat.sub_diag. cbn [skipn app]. rewrite firstn_app, (firstn_all2 b) by exact Hb. reflexivity.
  - (* WR_STREAM_END *)
    apply DONE; [|auto]. apply FS. intros f _. rewrite STEP. cbn [bind negb]. rewrite andb_false_r. reflexivity.
  - (* WR_BUF_ERROR *)
    assert (A1 : avail E o1 = []) by (destruct BA as [A|A]; [exact A|apply Z1, A]).
    apply DONE; [|intro PM].
    + apply FS. intros f _. rewrite STEP. cbn [avail o2]. rewrite A1, skipn_nil. cbn [is_nil bind negb]. rewrite andb_false_r. reflexivity.
    + left. destruct (Nat.eq_0_gt_0_cases room) as [->|Hr]; [reflexivity|]. destruct (LA (ALL PM A1) A1 Hr) as [Q|Q]; [congruence|discriminate].
Qed.
End reading.
End proof.
