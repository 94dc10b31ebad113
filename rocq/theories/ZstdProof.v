(** * ZstdProof: lemmas about compressor_zstd *)
From Coq Require Import List.
From Verif Require Import Base ZstdModel ZstdSpec.
Local Open Scope nat_scope.

Lemma zskipn_skipn {A} x y (l : list A) : skipn x (skipn y l) = skipn (x + y) l.
Proof.
  revert l. induction y as [|y IH]; intro l; [rewrite Nat.add_0_r; reflexivity|]. rewrite Nat.add_succ_r. destruct l; [now rewrite !skipn_nil|]. cbn [skipn]. apply IH.
Qed.
Lemma zprefix_len o l : prefix o l -> length o <= length l.
Proof. intros [t ->]. rewrite app_length. lia. Qed.
Lemma zprefix_app l t : prefix l (l ++ t). Proof. exists t. reflexivity. Qed.
Lemma zprefix_full o l : prefix o l -> length l <= length o -> o = l.
Proof. intros [t ->] H. rewrite app_length in H. destruct t; [now rewrite app_nil_r|cbn in H; lia]. Qed.
Lemma zprefix_comparable a b l : prefix a l -> prefix b l -> prefix a b \/ prefix b a.
Proof.
  intros [t Ha] [u Hb]. rewrite Ha in Hb. apply app_eq_app in Hb. destruct Hb as (w & [[E _]|[E _]]); [right|left]; exists w; exact E.
Qed.

Section proof.
Variable E : zengine.
Variable encodes : list N -> list N -> Prop.

(** ** Writing *)
Section writing.
Variables (I Fin : zc E -> list N -> list N -> Prop) (left : zc E -> nat).
Hypothesis C : zcompresses E encodes I Fin left.

Lemma zwrite_loop_ok : forall n lm o x ob done av bs, length av <= n -> left (zcomp E o) <= lm -> 0 < bs -> I (zcomp E o) x ob -> zout E o = done ++ ob ->
  exists f0 o' ob', (forall f, f0 <= f -> zwrite_loop E f o bs av = Ok o') /\ zout E o' = done ++ ob' /\ I (zcomp E o') (x ++ av) ob' /\
    wflueof E o' = wflueof E o /\ zwsusp E o' = zwsusp E o.
Proof.
  induction n as [|n IHn].
  - intros lm o x ob done av bs Hl _ _ HI Ho. destruct av; [|cbn in Hl; lia]. exists 0, o, ob. split; [intros [|f] _; reflexivity|]. rewrite app_nil_r. auto.
  - induction lm as [lm IHl] using lt_wf_ind. intros o x ob done av bs Hl Hm Hbs HI Ho. destruct av as [|a0 av0]; [exists 0, o, ob; split; [intros [|f] _; reflexivity|]; rewrite app_nil_r; auto|].
    set (av := a0 :: av0) in *. destruct (compressStream E (zcomp E o) (firstn bs av) (CStreamOutSize E)) as [[[s c] b] hint] eqn:K.
    assert (NA : firstn bs av <> []) by (destruct bs; [lia|discriminate]). destruct (z_give _ _ _ _ _ C _ _ _ _ _ _ _ _ HI NA K) as (Hc & HI' & Hh & PR).
    assert (FF : firstn c (firstn bs av) = firstn c av) by (rewrite firstn_firstn; f_equal; rewrite firstn_length in Hc; lia). rewrite FF in HI'. rewrite firstn_length in Hc.
    set (o1 := {| zcomp := s; wflueof := wflueof E o; zwsusp := zwsusp E o; zout := zout E o ++ b |}).
    assert (O1 : zout E o1 = done ++ (ob ++ b)) by (cbn; rewrite Ho, app_assoc; reflexivity).
    assert (NEXT : exists f0 o' ob', (forall f, f0 <= f -> zwrite_loop E f o1 hint (skipn c av) = Ok o') /\ zout E o' = done ++ ob' /\ I (zcomp E o') ((x ++ firstn c av) ++ skipn c av) ob' /\
      wflueof E o' = wflueof E o1 /\ zwsusp E o' = zwsusp E o1).
    { destruct (Nat.eq_0_gt_0_cases c) as [->|Hc0].
      - destruct PR as [PR|PR]; [lia|]. apply (IHl (left s)) with (ob := ob ++ b); [lia|rewrite skipn_length; lia|reflexivity|exact Hh|exact HI'|exact O1].
      - apply (IHn (left s)) with (ob := ob ++ b); [rewrite skipn_length; lia|reflexivity|exact Hh|exact HI'|exact O1]. }
    destruct NEXT as (f0 & o' & ob' & W & O' & I' & T' & S'). exists (S f0), o', ob'. split.
    { intros f Hf. destruct f as [|f]; [lia|]. change (zwrite_loop E (S f) o bs av) with
        (let '(s, c, b, hint) := compressStream E (zcomp E o) (firstn bs av) (CStreamOutSize E) in
         zwrite_loop E f {| zcomp := s; wflueof := wflueof E o; zwsusp := zwsusp E o; zout := zout E o ++ b |} hint (skipn c av)). rewrite K. apply W. lia. }
    split; [exact O'|]. rewrite <- app_assoc, firstn_skipn in I'. split; [exact I'|]. split; [exact T'|exact S'].
Qed.

Lemma zflush_loop_ok : forall lm s x o done, left s <= lm -> Fin s x o ->
  exists f0 s' m, (forall f, f0 <= f -> zflush_loop E f s (done ++ o) = Ok (s', done ++ m)) /\ encodes x m /\ I s' [] [].
Proof.
  induction lm as [lm IH] using lt_wf_ind. intros s x o done Hm HF. destruct (flushStream E s (CStreamOutSize E)) as [[s1 b] r] eqn:K.
  destruct (z_flush _ _ _ _ _ C _ _ _ _ _ _ HF K) as (Z & P). destruct (Nat.ltb_spec 0 r) as [L|G].
  - destruct (P L) as (F1 & L1). destruct (IH (left s1) ltac:(lia) s1 x (o ++ b) done (le_n _) F1) as (f0 & s' & m & W & R). exists (S f0), s', m. split; [|exact R].
    intros f Hf. destruct f as [|f]; [lia|]. cbn [zflush_loop]. rewrite K. apply Nat.ltb_lt in L. rewrite L, <- app_assoc. apply W. lia.
  - exists 1, s1, (o ++ b). split; [|apply Z; lia]. intros f Hf. destruct f as [|f]; [lia|]. cbn [zflush_loop]. rewrite K. apply Nat.ltb_ge in G. rewrite G, app_assoc. reflexivity.
Qed.

(** the state between two operations *)
Definition ZI (o : zw E) (susp : bool) (pending : option (list N)) (done : list N) : Prop :=
  zwsusp E o = susp /\
  match pending with
  | None => wflueof E o = true /\ zout E o = done /\ I (zcomp E o) [] []
  | Some x => wflueof E o = false /\ susp = false /\ exists ob, zout E o = done ++ ob /\ I (zcomp E o) x ob
  end.

Lemma zsync_ok o susp pending done : ZI o susp pending done ->
  exists f0 o' ms, (forall f, f0 <= f -> zsync E f o = Ok o') /\ Forall2 (stored encodes) (close pending) ms /\ ZI o' susp None (done ++ concat ms).
Proof.
  intros (S1 & H). unfold zsync. destruct pending as [x|].
  - destruct H as (F1 & Su & ob & O1 & I1). rewrite F1. destruct (endStream E (zcomp E o) (CStreamOutSize E)) as [[s b] r] eqn:K.
    destruct (z_end _ _ _ _ _ C _ _ _ _ _ _ I1 K) as (Z & P). destruct (Nat.ltb_spec 0 r) as [L|G].
    + destruct (zflush_loop_ok (left s) s x (ob ++ b) done (le_n _) (P L)) as (f0 & s' & m & W & EN & I2).
      eexists f0, _, [m]. split; [intros f Hf; rewrite O1, <- app_assoc, W by exact Hf; reflexivity|].
      split; [repeat constructor; exact EN|]. split; [exact S1|]. cbn [concat zcomp wflueof zout]. rewrite app_nil_r. auto.
    + destruct (Z ltac:(lia)) as (EN & I2). eexists 0, _, [ob ++ b]. split; [intros f _; reflexivity|]. split; [repeat constructor; exact EN|].
      split; [exact S1|]. cbn [concat zcomp wflueof zout]. rewrite app_nil_r, O1, app_assoc. auto.
  - destruct H as (F1 & O1 & I1). rewrite F1. exists 0, o, []. split; [reflexivity|]. split; [constructor|]. cbn [concat]. rewrite app_nil_r. repeat split; auto.
Qed.

Lemma zwstep_ok o susp pending done p : ZI o susp pending done ->
  exists f0 o' ms susp' pending', (forall f, f0 <= f -> zwstep E f o p = Ok o') /\ ZI o' susp' pending' (done ++ concat ms) /\
    exists ps, Forall2 (stored encodes) ps ms /\ forall r, pieces susp pending (p :: r) = ps ++ pieces susp' pending' r.
Proof.
  intro H. pose proof H as (S1 & H1). destruct p as [a| | |]; cbn [zwstep pieces].
  - unfold zwrite. rewrite S1. destruct susp.
    + assert (pending = None) as -> by (destruct pending; [destruct H1 as (_ & Q & _); discriminate|reflexivity]). destruct H1 as (F1 & O1 & I1).
      eexists 0, _, [a], true, None. split; [reflexivity|]. split; [|exists [Raw a]; split; [repeat constructor|reflexivity]].
      split; [reflexivity|]. cbn [concat zcomp wflueof zout]. rewrite app_nil_r, O1. auto.
    + assert (PX : exists x ob, zout E o = done ++ ob /\ I (zcomp E o) x ob /\ more pending a = Some (x ++ a)).
      { destruct pending as [x|]; [destruct H1 as (_ & _ & ob & O1 & I1); exists x, ob; auto|]. destruct H1 as (_ & O1 & I1). exists [], []. rewrite app_nil_r. auto. }
      destruct PX as (x & ob & O1 & I1 & MO).
      destruct (zwrite_loop_ok (length a) (left (zcomp E o)) {| zcomp := zcomp E o; wflueof := false; zwsusp := false; zout := zout E o |} x ob done a (CStreamInSize E)
        (le_n _) (le_n _) (z_sizes _ _ _ _ _ C) I1 O1) as (f0 & o' & ob' & W & O' & I' & T' & S').
      exists f0, o', [], false, (Some (x ++ a)). split; [exact W|]. split; [|exists []; split; [constructor|rewrite MO; reflexivity]].
      split; [exact S'|]. cbn [concat]. rewrite app_nil_r. split; [exact T'|]. split; [reflexivity|]. eauto.
  - destruct (zsync_ok o susp pending done H) as (f0 & o' & ms & W & F & W'). exists f0, o', ms, susp, None. split; [exact W|]. split; [exact W'|]. exists (close pending). auto.
  - unfold zsuspend. rewrite S1. destruct susp.
    + assert (pending = None) as -> by (destruct pending; [destruct H1 as (_ & Q & _); discriminate|reflexivity]).
      exists 0, o, [], true, None. split; [reflexivity|]. split; [cbn; rewrite app_nil_r; exact H|]. exists []. split; [constructor|reflexivity].
    + destruct (zsync_ok o false pending done H) as (f0 & o' & ms & W & F & (S2 & F2)).
      eexists f0, _, ms, true, None. split; [intros f Hf; rewrite W by exact Hf; reflexivity|]. split; [|exists (close pending); auto].
      split; [reflexivity|]. exact F2.
  - eexists 0, _, [], false, pending. split; [reflexivity|]. split; [|exists []; split; [constructor|reflexivity]].
    split; [reflexivity|]. cbn [concat]. rewrite app_nil_r. destruct pending as [x|]; [|exact H1]. destruct H1 as (A & _ & B). split; [exact A|]. split; [reflexivity|exact B].
Qed.

Lemma zwrun_ok : forall l o susp pending done, ZI o susp pending done ->
  exists f0 o' ms, (forall f, f0 <= f -> zwrun E f o (l ++ [ZSync]) = Ok o') /\ Forall2 (stored encodes) (pieces susp pending l) ms /\
    zout E o' = done ++ concat ms /\ exists susp', ZI o' susp' None (done ++ concat ms).
Proof.
  induction l as [|p l IH]; intros o susp pending done H.
  - cbn [app zwrun zwstep pieces]. destruct (zsync_ok o susp pending done H) as (f0 & o' & ms & W & F & H'). exists f0, o', ms. split; [intros f Hf; rewrite W by exact Hf; reflexivity|].
    split; [exact F|]. pose proof H' as (_ & _ & O & _). eauto.
  - destruct (zwstep_ok o susp pending done p H) as (f1 & o1 & ms1 & s1 & p1 & W1 & H1 & ps & F1 & EP).
    destruct (IH o1 s1 p1 (done ++ concat ms1) H1) as (f2 & o2 & ms2 & W2 & F2 & O2 & s2 & H2).
    exists (Nat.max f1 f2), o2, (ms1 ++ ms2). split; [|split; [|split; [|exists s2]]].
    + intros f Hf. cbn [app zwrun]. rewrite W1 by lia. cbn [bind]. apply W2. lia.
    + rewrite EP. apply Forall2_app; auto.
    + rewrite O2, concat_app, app_assoc. reflexivity.
    + rewrite concat_app, app_assoc. exact H2.
Qed.
Lemma ZI_fresh : ZI (zwfresh E) false None [].
Proof. repeat split; auto. apply (z_start _ _ _ _ _ C). Qed.
End writing.

(** ** Reading *)
Section reading.
Variable D : list N -> list N -> zd E -> list N -> list N -> bool -> Prop.
Hypothesis C : zdecompresses E encodes D.
Variables x m S0 : list N.
Hypothesis HS : prefix m S0 \/ prefix S0 m.

Definition zrest (o : zr E) : list N := skipn (zpos E o) (zfile E o).
Definition ZR (o : zr E) (d : list N) : Prop :=
  zrsusp E o = false /\ (nocomp E o = true -> zrest o = []) /\ exists i, D x m (zdec E o) i d (rflueof E o) /\ i ++ inb E o ++ zrest o = S0.
Definition zmeasure (o : zr E) (room : nat) : nat := length (inb E o) + length (zrest o) + room.

Lemma zfits_ok i a t : i ++ a ++ t = S0 -> fits i a m.
Proof.
  intro H. assert (P : prefix (i ++ a) S0) by (exists t; rewrite <- app_assoc; symmetry; exact H). unfold fits. destruct HS as [Q|Q].
  - eapply zprefix_comparable; eauto.
  - left. destruct P as [u ->]. destruct Q as [v ->]. rewrite <- app_assoc. apply zprefix_app.
Qed.
Lemma zfeed_ok o d : ZR o d -> ZR (zfeed E o) d /\ zdec E (zfeed E o) = zdec E o /\ rflueof E (zfeed E o) = rflueof E o /\
  length (inb E (zfeed E o)) + length (zrest (zfeed E o)) = length (inb E o) + length (zrest o) /\ (nocomp E (zfeed E o) = false -> inb E (zfeed E o) <> []).
Proof.
  intros (Su & NC & i & HD & HE). unfold zfeed. destruct (Nat.ltb_spec 0 (DStreamInSize E - length (inb E o))) as [L|G]; cbn [andb].
  2:{ split; [split; [exact Su|split; eauto]|]. repeat split; auto. intros _ Z. rewrite Z in G. cbn in G. pose proof (proj1 (zd_sizes _ _ _ C)). lia. }
  destruct (nocomp E o) eqn:NE; cbn [negb].
  { split; [split; [exact Su|split; eauto]|]. repeat split; auto. congruence. }
  set (delta := DStreamInSize E - length (inb E o)) in *. set (got := firstn delta (skipn (zpos E o) (zfile E o))).
  assert (SP : skipn (zpos E o) (zfile E o) = got ++ skipn (zpos E o + length got) (zfile E o)).
  { rewrite <- (firstn_skipn delta (skipn (zpos E o) (zfile E o))) at 1. fold got. f_equal. unfold got. rewrite zskipn_skipn, firstn_length, skipn_length.
    destruct (Nat.le_ge_cases delta (length (zfile E o) - zpos E o)) as [Q|Q]; [f_equal; lia|]. rewrite !skipn_all2; auto; lia. }
  unfold ZR, zrest in *. cbn [inb zfile zpos zdec rflueof nocomp zrsusp]. split; [split; [exact Su|split]|].
  - intro Q. apply Nat.ltb_lt in Q. apply skipn_all2. unfold got in *. rewrite firstn_length, skipn_length in *. lia.
  - exists i. split; [exact HD|]. rewrite <- app_assoc, <- SP. exact HE.
  - split; [reflexivity|]. split; [reflexivity|]. split; [rewrite app_length, (f_equal (@length _) SP), app_length; lia|].
    intros Q Z. apply Nat.ltb_ge in Q. apply app_eq_nil in Z. destruct Z as [_ Z]. rewrite Z in Q. cbn in Q. lia.
Qed.

(** a read gives all that was asked, or stops at the end of the frame, or fails, m not being all there *)
Lemma zread_loop_ok : forall k o room acc d, zmeasure o room < k -> ZR o d ->
  (exists o' b, (forall f, k <= f -> zread_loop E f o room acc = Ok (o', acc ++ b)) /\ length b <= room /\ ZR o' (d ++ b) /\ (length b = room \/ rflueof E o' = true)) \/
  ((forall f, k <= f -> zread_loop E f o room acc = Err Erange) /\ ~ prefix m S0).
Proof.
  induction k as [|k IH]; [lia|]. intros o room acc d HM HR.
  destruct (rflueof E o) eqn:FE; [left; exists o, []; rewrite !app_nil_r; split; [intros [|f] _; cbn [zread_loop]; rewrite FE; reflexivity|]; split; [cbn; lia|]; split; auto|].
  destruct (Nat.eqb_spec room 0) as [->|NZ]; [left; exists o, []; rewrite !app_nil_r; split; [intros [|f] _; cbn [zread_loop]; rewrite FE; reflexivity|]; split; [cbn; lia|]; split; auto|].
  destruct (zfeed_ok o d HR) as (HR1 & DE & RE & LE & NC1). set (o1 := zfeed E o) in *. pose proof HR1 as (Su & N1 & i & HD & HE).
  set (n := if room <? DStreamOutSize E then room else DStreamOutSize E).
  assert (Hn : 0 < n /\ n <= room) by (unfold n; pose proof (proj2 (zd_sizes _ _ _ C)); destruct (Nat.ltb_spec room (DStreamOutSize E)); lia).
  rewrite RE, FE in HD. destruct (zd_step _ _ _ C x m (zdec E o1) i d (inb E o1) n HD (zfits_ok _ _ _ HE) (proj1 Hn)) as (s & c & b & ret & K & Hc & Hb & HD' & PR & EN).
  set (o2 := {| zdec := s; inb := skipn c (inb E o1); rflueof := ret =? 0; nocomp := nocomp E o1; zfile := zfile E o1; zpos := zpos E o1; zrsusp := zrsusp E o1 |}).
  assert (STEP : forall f, zread_loop E (S f) o room acc =
    if nocomp E o2 && (length b =? 0) && (0 <? room - length b) && negb (rflueof E o2) then Err Erange else zread_loop E f o2 (room - length b) (acc ++ b)).
  { intro f. cbn [zread_loop]. rewrite FE. apply Nat.eqb_neq in NZ. rewrite NZ. cbn [orb]. fold o1 n. rewrite K. reflexivity. }
  assert (HR2 : ZR o2 (d ++ b)).
  { split; [exact Su|]. split; [exact N1|]. exists (i ++ firstn c (inb E o1)). split; [exact HD'|]. cbn [inb o2]. change (zrest o2) with (zrest o1).
    rewrite <- app_assoc, (app_assoc (firstn c _)), firstn_skipn. exact HE. }
  destruct (nocomp E o2 && (length b =? 0) && (0 <? room - length b) && negb (rflueof E o2)) eqn:TST.
  - right. split; [intros f Hf; destruct f as [|f]; [lia|]; apply STEP|]. apply andb_true_iff in TST. destruct TST as [TST T4]. apply andb_true_iff in TST. destruct TST as [TST _].
    apply andb_true_iff in TST. destruct TST as [T1 T2]. apply Nat.eqb_eq in T2. intro PM.
    assert (ret = 0) as -> by (apply EN; [lia|]; rewrite (N1 T1), app_nil_r in HE; rewrite HE; exact PM). cbn in T4. discriminate.
  - assert (PG : ret = 0 \/ 0 < c \/ 0 < length b).
    { destruct (Nat.eq_0_gt_0_cases (length b)) as [LB|LB]; [|auto]. destruct (PR ltac:(lia)) as [Q|Q]; [auto|]. destruct (Nat.eq_0_gt_0_cases c) as [C0|C0]; [|auto].
      assert (N2 : nocomp E o2 = nocomp E o1) by reflexivity. destruct (nocomp E o1) eqn:Q2; [|specialize (NC1 eq_refl); destruct (inb E o1); [congruence|cbn in Q; lia]].
      rewrite N2, LB in TST. replace (0 <? room - 0) with true in TST by (symmetry; apply Nat.ltb_lt; lia). cbn in TST. destruct (Nat.eqb_spec ret 0); [auto|discriminate]. }
    assert (FIN : forall o' b', length b' <= room - length b -> ZR o' ((d ++ b) ++ b') -> (length b' = room - length b \/ rflueof E o' = true) ->
       length (b ++ b') <= room /\ ZR o' (d ++ b ++ b') /\ (length (b ++ b') = room \/ rflueof E o' = true)).
    { intros o' b' L1 R1 [Q|Q]; rewrite app_length; rewrite <- app_assoc in R1; (split; [lia|split; [exact R1|]]); [left; lia|right; exact Q]. }
    destruct (Nat.eq_0_gt_0_cases ret) as [Z|RP].
    + left. destruct (FIN o2 [] ltac:(cbn; lia)) as (A & B & G); [rewrite app_nil_r; exact HR2|right; cbn [rflueof o2]; rewrite Z; reflexivity|].
      exists o2, (b ++ []). split; [|split; [exact A|split; [exact B|exact G]]]. intros f Hf. destruct f as [|f]; [lia|]. rewrite STEP, app_nil_r.
      destruct f; cbn [zread_loop rflueof o2]; rewrite Z; reflexivity.
    + destruct (IH o2 (room - length b) (acc ++ b) (d ++ b)) as [(o' & b' & W & L1 & R1 & Q)|(W & NP)].
      { unfold zmeasure in *. change (zrest o2) with (zrest o1). cbn [inb o2]. rewrite skipn_length. destruct PG as [PG|[PG|PG]]; lia. }
      { exact HR2. }
      * left. destruct (FIN o' b' L1 R1 Q) as (A & B & G). exists o', (b ++ b'). split; [|split; [exact A|split; [exact B|exact G]]].
        intros f Hf. destruct f as [|f]; [lia|]. rewrite STEP, app_assoc. apply W. lia.
      * right. split; [|exact NP]. intros f Hf. destruct f as [|f]; [lia|]. rewrite STEP. apply W. lia.
Qed.
(** in terms of the data *)
Lemma ZR_take o d b n o' : ZR o d -> length b <= n -> ZR o' (d ++ b) -> (length b = n \/ rflueof E o' = true) -> b = firstn n (skipn (length d) x) /\ skipn (length (d ++ b)) x = skipn n (skipn (length d) x).
Proof.
  intros _ L (_ & _ & i & HD & _) Q. destruct (zd_prefix _ _ _ C _ _ _ _ _ _ HD) as (_ & [t X] & PE).
  assert (Y : skipn (length d) x = b ++ t) by (rewrite X, <- app_assoc, skipn_app, skipn_all, Nat.sub_diag; reflexivity).
  assert (W : length b = n \/ t = []).
  { destruct Q as [Q|Q]; [auto|]. right. destruct (PE Q) as [_ F]. apply (f_equal (@length _)) in X. rewrite F, app_length in X. destruct t; [reflexivity|cbn in X; lia]. }
  rewrite Y. replace (skipn (length (d ++ b)) x) with t by (rewrite X, skipn_app, skipn_all, Nat.sub_diag; reflexivity).
  destruct W as [<- | ->]; [rewrite firstn_app, skipn_app, Nat.sub_diag, firstn_all, skipn_all; cbn; rewrite app_nil_r; auto|].
  rewrite app_nil_r, firstn_all2, skipn_all2 by exact L. auto.
Qed.
(** without all of m the end is not told *)
Lemma ZR_short o d : ~ prefix m S0 -> ZR o d -> rflueof E o = false.
Proof.
  intros NP (_ & _ & i & HD & HE). destruct (rflueof E o); [|reflexivity]. destruct (zd_prefix _ _ _ C _ _ _ _ _ _ HD) as (_ & _ & PE). destruct (PE eq_refl) as [-> _].
  exfalso. apply NP. rewrite <- HE. apply zprefix_app.
Qed.
End reading.
End proof.
