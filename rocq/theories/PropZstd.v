(** * PropZstd: C59, streamed compression with zstd is transparent, and a truncated stream is detected

    For every libzstd respecting the contract of ZstdSpec, every sequence of writes, flushes,
    suspensions and resumptions of the compression and every sequence of reads. *)
From Coq Require Import List.
From Verif Require Import Base ZstdModel ZstdSpec ZstdProof.
Local Open Scope nat_scope.

Section props.
Variable E : zengine.
Variable encodes : list N -> list N -> Prop.
Variables (I Fin : zc E -> list N -> list N -> Prop) (left : zc E -> nat).
Variable D : list N -> list N -> zd E -> list N -> list N -> bool -> Prop.

(** What is written is, in order, for each time between two flushes a frame of all that was written,
    and what was written while suspended. *)
Theorem C59_write : zcompresses E encodes I Fin left -> forall l, exists f0 o ms,
  (forall f, f0 <= f -> zwrun E f (zwfresh E) (l ++ [ZSync]) = Ok o) /\
  zout E o = concat ms /\ Forall2 (stored encodes) (pieces false None l) ms /\ zposition E o = length (concat ms).
Proof.
  intros C l. destruct (zwrun_ok E encodes I Fin left C l (zwfresh E) false None [] (ZI_fresh E encodes I Fin left C)) as (f0 & o & ms & W & F & O & _).
  exists f0, o, ms. split; [exact W|]. split; [exact O|]. split; [exact F|]. unfold zposition. rewrite O. reflexivity.
Qed.

Lemma zreads_ok (C : zdecompresses E encodes D) x m S0 (HS : prefix m S0 \/ prefix S0 m) : forall ns o d, ZR E D x m S0 o d ->
  exists f0, (exists o', (forall f, f0 <= f -> zrrun E f o (map ZRead ns) = Ok (o', chunks ns (skipn (length d) x))) /\
                (~ prefix m S0 -> fold_right Nat.add 0 ns <= length (skipn (length d) x))) \/
             ((forall f, f0 <= f -> zrrun E f o (map ZRead ns) = Err Erange) /\ ~ prefix m S0).
Proof.
  induction ns as [|n ns IH]; intros o d H; cbn [map zrrun chunks fold_right].
  - exists 0. left. exists o. split; [reflexivity|]. intros _. lia.
  - pose proof H as (Su & _).
    destruct (zread_loop_ok E encodes D C x m S0 HS (S (zmeasure E o n)) o n [] d (le_n _) H) as [(o1 & b & W & L & R & Q)|(W & NP)].
    + destruct (ZR_take E encodes D C x m S0 o d b n o1 H L R Q) as (Hb & Hs).
      destruct (IH o1 (d ++ b) R) as (f2 & [(o' & W2 & S2)|(W2 & NP)]).
      * exists (Nat.max (S (zmeasure E o n)) f2). left. exists o'. split.
        { intros f Hf. cbn [zrstep]. unfold zread. rewrite Su, W by lia. cbn [bind app]. rewrite W2 by lia. cbn [bind]. rewrite Hs, <- Hb. reflexivity. }
        intro NP. specialize (S2 NP). rewrite Hs in S2. rewrite skipn_length in S2.
        assert (LB : length b = n). { destruct Q as [Q|Q]; [exact Q|]. rewrite (ZR_short E encodes D C x m S0 o1 (d ++ b) NP R) in Q. discriminate. }
        rewrite Hb, firstn_length in LB. lia.
      * exists (Nat.max (S (zmeasure E o n)) f2). right. split; [|exact NP].
        intros f Hf. cbn [zrstep]. unfold zread. rewrite Su, W by lia. cbn [bind app]. rewrite W2 by lia. reflexivity.
    + exists (S (zmeasure E o n)). right. split; [|exact NP]. intros f Hf. cbn [zrstep]. unfold zread. rewrite Su, W by lia. reflexivity.
Qed.
Lemma ZR_skip (C : zdecompresses E encodes D) x m pre t o : encodes x m -> zfile E o = pre ++ t -> zrsusp E o = false -> ZR E D x m t (zskip E o (length pre)) [].
Proof.
  intros HE HF HR. split; [exact HR|]. split; [discriminate|]. exists []. cbn [zskip zdec inb rflueof zclean]. split; [apply (zd_start _ _ _ C), HE|].
  unfold zrest, zskip, zclean. cbn [zpos zfile app]. rewrite HF, app_length, Nat.min_l, skipn_app, skipn_all, Nat.sub_diag by lia. reflexivity.
Qed.

(** From the place a frame of x was stored at, whatever is around and whatever was read before,
    reads give x cut as asked, then nothing. *)
Theorem C59_read : zdecompresses E encodes D -> forall x m pre post o ns, encodes x m -> zfile E o = pre ++ m ++ post -> zrsusp E o = false ->
  exists f0 o', forall f, f0 <= f -> zrrun E f o (ZSkip (length pre) :: map ZRead ns) = Ok (o', [] :: chunks ns x).
Proof.
  intros C x m pre post o ns HE HF HR. assert (HS : prefix m (m ++ post)) by apply zprefix_app.
  destruct (zreads_ok C x m (m ++ post) (or_introl HS) ns _ _ (ZR_skip C x m pre (m ++ post) o HE HF HR)) as (f0 & [(o' & W & _)|(_ & NP)]); [|contradiction].
  exists f0, o'. intros f Hf. cbn [zrrun zrstep bind]. rewrite W by exact Hf. reflexivity.
Qed.
(** When the file ends before the end of the frame: either every read gives all that was asked of the
    true data, or a read fails. None is silently short. *)
Theorem C59_truncated : zdecompresses E encodes D -> forall x m pre k o ns, encodes x m -> k < length m -> zfile E o = pre ++ firstn k m -> zrsusp E o = false ->
  exists f0, (exists o', (forall f, f0 <= f -> zrrun E f o (ZSkip (length pre) :: map ZRead ns) = Ok (o', [] :: chunks ns x)) /\ fold_right Nat.add 0 ns <= length x) \/
    (forall f, f0 <= f -> zrrun E f o (ZSkip (length pre) :: map ZRead ns) = Err Erange).
Proof.
  intros C x m pre k o ns HE Hk HF HR. assert (HS : prefix (firstn k m) m) by (exists (skipn k m); symmetry; apply firstn_skipn).
  assert (NP : ~ prefix m (firstn k m)) by (intro P; apply zprefix_len in P; rewrite firstn_length in P; lia).
  destruct (zreads_ok C x m (firstn k m) (or_intror HS) ns _ _ (ZR_skip C x m pre (firstn k m) o HE HF HR)) as (f0 & [(o' & W & L)|(W & _)]); exists f0; [left|right].
  - exists o'. split; [|exact (L NP)]. intros f Hf. cbn [zrrun zrstep bind]. rewrite W by exact Hf. reflexivity.
  - intros f Hf. cbn [zrrun zrstep bind]. rewrite W by exact Hf. reflexivity.
Qed.
(** In particular asking for more than x fails. *)
Theorem C59_truncated_fails : zdecompresses E encodes D -> forall x m pre k o ns, encodes x m -> k < length m -> zfile E o = pre ++ firstn k m -> zrsusp E o = false ->
  length x < fold_right Nat.add 0 ns -> exists f0, forall f, f0 <= f -> zrrun E f o (ZSkip (length pre) :: map ZRead ns) = Err Erange.
Proof.
  intros C x m pre k o ns HE Hk HF HR HL. destruct (C59_truncated C x m pre k o ns HE Hk HF HR) as (f0 & [(o' & _ & L)|W]); [lia|eauto].
Qed.

Lemma zpieces_writes xs : forall p r, pieces false (Some p) (map ZWrite xs ++ r) = pieces false (Some (p ++ concat xs)) r.
Proof. induction xs as [|a xs IH]; intros p r; cbn [map app pieces concat]; [rewrite app_nil_r; reflexivity|]. unfold more. rewrite IH, app_assoc. reflexivity. Qed.
Lemma zpieces_raw xs : forall r, pieces true None (map ZWrite xs ++ r) = map Raw xs ++ pieces true None r.
Proof. induction xs as [|a xs IH]; intro r; cbn [map app pieces]; [reflexivity|]. rewrite IH. reflexivity. Qed.
Lemma zflush_susp f o o' : zsync E f o = Ok o' -> zwsusp E o' = zwsusp E o.
Proof.
  unfold zsync. destruct (wflueof E o); [intro H; injection H as <-; reflexivity|]. destruct (endStream E (zcomp E o) (CStreamOutSize E)) as [[s b] r].
  destruct (if 0 <? r then zflush_loop E f s (zout E o ++ b) else Ok (s, zout E o ++ b)) as [[s' d]|]; [|discriminate]. cbn [bind]. intro H. injection H as <-. reflexivity.
Qed.
Lemma zwrun_susp f : forall l o o' p s, (p = ZResume /\ s = false \/ p = ZSuspend /\ s = true) -> zwrun E f o (l ++ [p; ZSync]) = Ok o' -> zwsusp E o' = s.
Proof.
  induction l as [|q l IH]; intros o o' p s Hp W; cbn [app zwrun] in W.
  - destruct (zwstep E f o p) as [o1|] eqn:P1; [|discriminate]. cbn [bind zwstep] in W. destruct (zsync E f o1) as [o2|] eqn:P2; [|discriminate]. cbn [bind] in W. injection W as <-.
    apply zflush_susp in P2. rewrite P2. destruct Hp as [[-> ->]|[-> ->]]; cbn [zwstep] in P1; [injection P1 as <-; reflexivity|].
    unfold zsuspend in P1. destruct (zwsusp E o) eqn:Z; [injection P1 as <-; exact Z|]. destruct (zsync E f o); [|discriminate]. injection P1 as <-. reflexivity.
  - destruct (zwstep E f o q); [|discriminate]. cbn [bind] in W. eapply IH; eauto.
Qed.

(** Data written in any number of pieces after a flush, be it empty, at the place get_position() gives, is
    what is read from there, whatever was written before and after, through whatever sizes of reads. *)
Theorem C59_round_trip : zcompresses E encodes I Fin left -> zdecompresses E encodes D -> forall l1 xs l2 ns, xs <> [] ->
  exists f0 o1 o2, (forall f, f0 <= f -> zwrun E f (zwfresh E) (l1 ++ [ZResume; ZSync]) = Ok o1 /\ zwrun E f o1 (map ZWrite xs ++ [ZSync] ++ l2 ++ [ZSync]) = Ok o2) /\
    forall o, zfile E o = zout E o2 -> zrsusp E o = false ->
    exists f1 o', forall f, f1 <= f -> zrrun E f o (ZSkip (zposition E o1) :: map ZRead ns) = Ok (o', [] :: chunks ns (concat xs)).
Proof.
  intros C C' l1 xs l2 ns NX.
  destruct (zwrun_ok E encodes I Fin left C (l1 ++ [ZResume]) (zwfresh E) false None [] (ZI_fresh E encodes I Fin left C)) as (f1 & o1 & ms1 & W1 & F1 & O1 & s1 & H1).
  rewrite <- app_assoc in W1. cbn [app] in W1.
  assert (s1 = false) as -> by (rewrite <- (proj1 H1); exact (zwrun_susp f1 l1 _ _ ZResume false (or_introl (conj eq_refl eq_refl)) (W1 f1 (le_n _)))).
  destruct (zwrun_ok E encodes I Fin left C (map ZWrite xs ++ [ZSync] ++ l2) o1 false None _ H1) as (f2 & o2 & ms2 & W2 & F2 & O2 & _).
  exists (Nat.max f1 f2), o1, o2. split.
  - intros f Hf. split; [apply W1; lia|]. rewrite <- (W2 f) by lia. rewrite <- !app_assoc. reflexivity.
  - intros o HF HR. destruct xs as [|a xs]; [congruence|]. cbn [map app pieces] in F2. unfold more in F2. rewrite zpieces_writes in F2. cbn [app pieces close] in F2.
    inversion F2 as [|? m ? ms' EN F2']; subst. cbn [concat] in O2. cbn [stored] in EN. unfold zposition. rewrite O1.
    apply (C59_read C' (a ++ concat xs) m (concat ms1) (concat ms') o ns EN); [rewrite HF, O2; reflexivity|exact HR].
Qed.

(** What is written while the compression is suspended is read as is. *)
Theorem C59_suspended : zcompresses E encodes I Fin left -> forall l1 xs l2 ns,
  exists f0 o1 o2, (forall f, f0 <= f -> zwrun E f (zwfresh E) (l1 ++ [ZSuspend; ZSync]) = Ok o1 /\ zwrun E f o1 (map ZWrite xs ++ l2 ++ [ZSync]) = Ok o2) /\
    forall o, zfile E o = zout E o2 -> fold_right Nat.add 0 ns <= length (concat xs) ->
    exists o', forall f, zrrun E f o (ZRSuspend :: ZSkip (zposition E o1) :: map ZRead ns) = Ok (o', [] :: [] :: chunks ns (concat xs)).
Proof.
  intros C l1 xs l2 ns.
  destruct (zwrun_ok E encodes I Fin left C (l1 ++ [ZSuspend]) (zwfresh E) false None [] (ZI_fresh E encodes I Fin left C)) as (f1 & o1 & ms1 & W1 & F1 & O1 & s1 & H1).
  rewrite <- app_assoc in W1. cbn [app] in W1.
  assert (s1 = true) as -> by (rewrite <- (proj1 H1); exact (zwrun_susp f1 l1 _ _ ZSuspend true (or_intror (conj eq_refl eq_refl)) (W1 f1 (le_n _)))).
  destruct (zwrun_ok E encodes I Fin left C (map ZWrite xs ++ l2) o1 true None _ H1) as (f2 & o2 & ms2 & W2 & F2 & O2 & _).
  exists (Nat.max f1 f2), o1, o2. split.
  - intros f Hf. rewrite <- app_assoc in W2. split; [apply W1|apply W2]; lia.
  - intros o HF HL. rewrite zpieces_raw in F2. apply Forall2_app_inv_l in F2. destruct F2 as (ma & mb & FA & _ & ->).
    assert (EA : concat ma = concat xs). { clear -FA. revert ma FA. induction xs as [|a xs IH]; intros ma FA; inversion FA as [|? ? ? ? Q FA']; subst; [reflexivity|]. cbn [stored] in Q. subst. cbn [concat]. rewrite (IH _ FA'). reflexivity. }
    rewrite concat_app, EA, app_nil_l in O2. cbn [zrrun zrstep bind]. set (o0 := zskip E _ _).
    assert (G : forall ns o d y t, zrsusp E o = true -> zfile E o = d ++ y ++ t -> zpos E o = length d -> fold_right Nat.add 0 ns <= length y ->
      exists o', forall f, zrrun E f o (map ZRead ns) = Ok (o', chunks ns y)).
    { clear. induction ns as [|n ns IH]; intros o d y t Su FI PO LE; cbn [map zrrun zrstep chunks fold_right] in *; [eauto|]. unfold zread. rewrite Su.
      set (got := firstn n (skipn (zpos E o) (zfile E o))).
      assert (GO : got = firstn n y).
      { unfold got. rewrite PO, FI, skipn_app, skipn_all, Nat.sub_diag. cbn [skipn app]. rewrite firstn_app. replace (n - length y) with 0 by lia. cbn [firstn]. apply app_nil_r. }
      edestruct (IH {| zdec := zdec E o; inb := inb E o; rflueof := rflueof E o; nocomp := nocomp E o; zfile := zfile E o; zpos := zpos E o + length got; zrsusp := true |} (d ++ firstn n y) (skipn n y) t) as (o' & R).
      - reflexivity.
      - cbn [zfile]. rewrite FI, <- app_assoc, (app_assoc (firstn _ _)), firstn_skipn. reflexivity.
      - cbn [zpos]. rewrite GO, PO, app_length. reflexivity.
      - rewrite skipn_length. lia.
      - exists o'. intro f. cbn [bind]. rewrite R. cbn [bind]. rewrite <- GO. reflexivity. }
    assert (Z0 : zrsusp E (zrsuspend E o) = true /\ zfile E (zrsuspend E o) = zfile E o) by (unfold zrsuspend; destruct (zrsusp E o) eqn:Q; auto).
    destruct Z0 as (Z1 & Z2). destruct (G ns o0 (concat ms1) (concat xs) (concat mb)) as (o' & R); [exact Z1| | |exact HL|].
    + unfold o0, zskip, zclean. cbn [zfile]. rewrite Z2, HF, O2. reflexivity.
    + unfold o0, zskip, zclean, zposition. cbn [zpos zfile]. rewrite Z2, HF, O2, O1, !app_length. cbn [length]. lia.
    + exists o'. intro f. rewrite R. reflexivity.
Qed.
End props.

(** ** A library meeting the contract: each byte b becomes 1 b, the end is 0; rooms of 2 to 4 bytes *)
Definition zenc (x : list N) : list N := flat_map (fun b => [1%N; b]) x.
Definition ztoy_encodes (x m : list N) : Prop := m = zenc x ++ [0%N].
Fixpoint ztoy_dec (byte : bool) (a : list N) (n : nat) : bool * nat * list N * nat :=
  match a with
  | [] => (byte, 0, [], 1)
  | t :: r =>
    if byte then match n with O => (true, 0, [], 1) | S n' => let '(s, c, b, ret) := ztoy_dec false r n' in (s, S c, t :: b, ret) end
    else if N.eqb t 0 then (false, 1, [], 0) else let '(s, c, b, ret) := ztoy_dec true r n in (s, S c, b, ret)
  end.
Definition ztoy : zengine := {|
  zc := list N; zc0 := [];
  compressStream := fun p a n => (skipn n (p ++ zenc a), length a, firstn n (p ++ zenc a), 2);
  endStream := fun p n => (skipn n (p ++ [0%N]), firstn n (p ++ [0%N]), length (skipn n (p ++ [0%N])));
  flushStream := fun p n => (skipn n p, firstn n p, length (skipn n p));
  zd := bool; zd0 := false;
  decompressStream := fun s a n => Some (ztoy_dec s a n);
  CStreamInSize := 3; CStreamOutSize := 4; DStreamInSize := 3; DStreamOutSize := 2 |}.
Definition ztoy_I (p : zc ztoy) (x o : list N) : Prop := o ++ p = zenc x.
Definition ztoy_Fin (p : zc ztoy) (x o : list N) : Prop := o ++ p = zenc x ++ [0%N].
Lemma zenc_app a b : zenc (a ++ b) = zenc a ++ zenc b.
Proof. apply flat_map_app. Qed.
Lemma flush_case (p o w : list N) n : o ++ p = w -> (o ++ firstn n p) ++ skipn n p = w.
Proof. rewrite <- app_assoc, firstn_skipn. auto. Qed.
Lemma flush_end (p o w : list N) n : o ++ p = w -> length (skipn n p) = 0 -> o ++ firstn n p = w /\ skipn n p = [].
Proof. intros H Z. apply length_zero_iff_nil in Z. pose proof (flush_case p o w n H) as Q. rewrite Z, app_nil_r in Q. auto. Qed.
Example ztoy_compresses : zcompresses ztoy ztoy_encodes ztoy_I ztoy_Fin (@length N).
Proof.
  constructor.
  - reflexivity.
  - cbn. lia.
  - intros s x o a s' c b hint HI Na K. change ((skipn 4 (s ++ zenc a), length a, firstn 4 (s ++ zenc a), 2) = (s', c, b, hint)) in K. apply pair_equal_spec in K. destruct K as (K & <-). apply pair_equal_spec in K. destruct K as (K & <-). apply pair_equal_spec in K. destruct K as (<- & <-).
    split; [lia|]. split; [|split; [lia|left; destruct a; [congruence|cbn; lia]]].
    unfold ztoy_I in *. rewrite firstn_all, zenc_app, <- HI, <- !app_assoc. f_equal. apply (firstn_skipn 4).
  - intros s x o s' b r HI K. change ((skipn 4 (s ++ [0%N]), firstn 4 (s ++ [0%N]), length (skipn 4 (s ++ [0%N]))) = (s', b, r)) in K. apply pair_equal_spec in K. destruct K as (K & <-). apply pair_equal_spec in K. destruct K as (<- & <-). unfold ztoy_I, ztoy_Fin, ztoy_encodes in *.
    assert (H : o ++ (s ++ [0%N]) = zenc x ++ [0%N]) by (rewrite app_assoc, HI; reflexivity). split; [intro Z|intros _; apply flush_case, H].
    destruct (flush_end _ _ _ _ H Z) as (A & B). split; [exact A|]. change (skipn 4 (s ++ [0%N]) = []). exact B.
  - intros s x o s' b r HF K. change ((skipn 4 s, firstn 4 s, length (skipn 4 s)) = (s', b, r)) in K. apply pair_equal_spec in K. destruct K as (K & <-). apply pair_equal_spec in K. destruct K as (<- & <-). unfold ztoy_I, ztoy_Fin, ztoy_encodes in *. split.
    + intro Z. destruct (flush_end _ _ _ _ HF Z) as (A & B). split; [exact A|exact B].
    + intro L. split; [apply flush_case, HF|]. change (length (skipn 4 s) < length s). change (0 < length (skipn 4 s)) in L. rewrite skipn_length in *. lia.
Qed.
Definition ztoy_D (x m : list N) (s : zd ztoy) (i d : list N) (e : bool) : Prop :=
  m = zenc x ++ [0%N] /\ exists y, x = d ++ y /\ if e then y = [] /\ i = m else if (s : bool) then y <> [] /\ i = zenc d ++ [1%N] else i = zenc d.
Lemma zfits_next i a0 a c t : fits i (a0 :: a) (i ++ c :: t) -> a0 = c.
Proof. intros [[u H]|[u H]]; rewrite <- app_assoc in H; apply app_inv_head in H; cbn in H; injection H; auto. Qed.
Lemma zfits_step i a0 a m : fits i (a0 :: a) m -> fits (i ++ [a0]) a m.
Proof. unfold fits. rewrite <- app_assoc. auto. Qed.
Lemma ztoy_prefix x m s i d e : ztoy_D x m s i d e -> prefix i m /\ prefix d x /\ (e = true -> i = m /\ d = x).
Proof.
  intros (-> & y & -> & H). split; [|split; [exists y; reflexivity|]].
  - rewrite zenc_app. destruct e; [|destruct s].
    + destruct H as (-> & ->). rewrite zenc_app. exists []. rewrite !app_nil_r. reflexivity.
    + destruct H as (Ny & ->). destruct y as [|b y]; [congruence|]. exists (b :: zenc y ++ [0%N]). rewrite <- !app_assoc. reflexivity.
    + rewrite H. exists (zenc y ++ [0%N]). rewrite <- !app_assoc. reflexivity.
  - intros ->. destruct H as (-> & ->). rewrite app_nil_r. auto.
Qed.
Lemma ztoy_not_all x m s d : ~ ztoy_D x m s m d false.
Proof.
  intros (Hm & y & -> & H). rewrite zenc_app in Hm. destruct s.
  - destruct H as (Ny & H). destruct y as [|b y]; [congruence|]. rewrite H in Hm. apply (f_equal (@length _)) in Hm. rewrite !app_length in Hm. cbn in Hm. lia.
  - rewrite H in Hm. apply (f_equal (@length _)) in Hm. rewrite !app_length in Hm. cbn in Hm. lia.
Qed.
Lemma ztoy_step x m : forall a s i d n s' c b ret, ztoy_D x m s i d false -> fits i a m -> ztoy_dec s a n = (s', c, b, ret) ->
  c <= length a /\ length b <= n /\ ztoy_D x m s' (i ++ firstn c a) (d ++ b) (ret =? 0) /\ (length b < n -> ret = 0 \/ c = length a).
Proof.
  induction a as [|t r IH]; intros s i d n s' c b ret HD HF K.
  - cbn in K. injection K as <- <- <- <-. cbn [firstn length]. rewrite !app_nil_r. split; [lia|]. split; [lia|]. split; [exact HD|auto].
  - cbn [ztoy_dec] in K. destruct HD as (Hm & y & Hx & H). destruct s.
    + destruct H as (Ny & Hi). destruct y as [|b0 y]; [congruence|]. destruct n as [|n].
      * injection K as <- <- <- <-. cbn [firstn length]. rewrite !app_nil_r. split; [lia|]. split; [lia|]. split; [|lia]. split; [exact Hm|]. exists (b0 :: y). split; [exact Hx|]. cbn [Nat.eqb]. split; [discriminate|exact Hi].
      * assert (t = b0) as ->. { rewrite Hm, Hx, Hi, zenc_app in HF. replace ((zenc d ++ zenc (b0 :: y)) ++ [0%N]) with ((zenc d ++ [1%N]) ++ b0 :: zenc y ++ [0%N]) in HF by (cbn; rewrite <- !app_assoc; reflexivity). apply zfits_next in HF. exact HF. }
        destruct (ztoy_dec false r n) as [[[s1 c1] b1] r1] eqn:K1. injection K as <- <- <- <-.
        destruct (IH false (i ++ [b0]) (d ++ [b0]) n s1 c1 b1 r1) as (A1 & A2 & A3 & A4); [|apply zfits_step, HF|exact K1|].
        { split; [exact Hm|]. exists y. rewrite <- app_assoc. split; [exact Hx|]. rewrite Hi, zenc_app, <- app_assoc. reflexivity. }
        cbn [length firstn]. rewrite <- !app_assoc in A3. split; [lia|]. split; [lia|]. split; [exact A3|]. intro L. destruct (A4 ltac:(lia)); auto.
    + rewrite Hm, Hx, H, zenc_app, <- app_assoc in HF. destruct y as [|b0 y].
      * cbn [zenc flat_map app] in HF. pose proof HF as HN. apply zfits_next in HN. subst t. cbn in K. injection K as <- <- <- <-. cbn [firstn length]. split; [lia|]. split; [lia|]. split; [|auto].
        split; [exact Hm|]. exists []. rewrite app_nil_r. split; [exact Hx|]. cbn [Nat.eqb]. split; [reflexivity|]. rewrite Hm, Hx, H, app_nil_r. reflexivity.
      * cbn [zenc flat_map app] in HF. pose proof HF as HN. apply zfits_next in HN. subst t. cbn [N.eqb] in K.
        destruct (ztoy_dec true r n) as [[[s1 c1] b1] r1] eqn:K1. injection K as <- <- <- <-.
        destruct (IH true (i ++ [1%N]) d n s1 c1 b1 r1) as (A1 & A2 & A3 & A4); [| |exact K1|].
        { split; [exact Hm|]. exists (b0 :: y). split; [exact Hx|]. split; [discriminate|]. rewrite H. reflexivity. }
        { apply zfits_step. rewrite Hm, Hx, H, zenc_app, <- app_assoc. exact HF. }
        cbn [length firstn]. rewrite <- app_assoc in A3. split; [lia|]. split; [lia|]. split; [exact A3|]. intro L. destruct (A4 L); auto.
Qed.
Example ztoy_decompresses : zdecompresses ztoy ztoy_encodes ztoy_D.
Proof.
  constructor.
  - intros x m ->. split; [reflexivity|]. exists x. split; reflexivity.
  - cbn. lia.
  - intros x m s i d e. apply ztoy_prefix.
  - intros x m s i d a n HD HF Hn. destruct (ztoy_dec s a n) as [[[s' c] b] ret] eqn:K.
    destruct (ztoy_step x m a s i d n s' c b ret HD HF K) as (A1 & A2 & A3 & A4). exists s', c, b, ret.
    split; [cbn [decompressStream ztoy]; rewrite K; reflexivity|]. split; [exact A1|]. split; [exact A2|]. split; [exact A3|]. split; [exact A4|].
    intros L P. destruct (A4 L) as [Q| ->]; [exact Q|]. destruct (Nat.eqb_spec ret 0) as [Z|NZ]; [exact Z|]. exfalso. rewrite firstn_all in A3.
    assert (Q : i ++ a = m) by (apply zprefix_full; [apply (ztoy_prefix _ _ _ _ _ _ A3)|apply zprefix_len, P]). rewrite Q in A3. exact (ztoy_not_all _ _ _ _ A3).
Qed.
(** two frames, one of no data, and raw data between *)
Example ztoy_run : exists o, zwrun ztoy 50 (zwfresh ztoy) [ZWrite [5; 4; 3]; ZWrite [6; 7]; ZSuspend; ZWrite [9; 9]; ZResume; ZWrite []; ZSync; ZWrite [8]; ZSync]%N = Ok o /\
  zout ztoy o = [1; 5; 1; 4; 1; 3; 1; 6; 1; 7; 0; 9; 9; 0; 1; 8; 0]%N /\
  exists o', zrrun ztoy 50 (zropen ztoy (zout ztoy o)) [ZSkip 14; ZRead 3; ZSkip 0; ZRead 2; ZRead 0; ZRead 4; ZRead 1; ZRSuspend; ZSkip 11; ZRead 2; ZRResume; ZSkip 13; ZRead 2]%N =
    Ok (o', [[]; [8]; []; [5; 4]; []; [3; 6; 7]; []; []; []; [9; 9]; []; []; []]%N).
Proof. eexists. split; [vm_compute; reflexivity|]. split; [reflexivity|]. eexists. vm_compute. reflexivity. Qed.
(** the same stream without its last byte *)
Example ztoy_short : zrrun ztoy 50 (zropen ztoy [1; 5; 1; 4]%N) [ZSkip 0; ZRead 1; ZRead 2] = Err Erange /\
  exists o', zrrun ztoy 50 (zropen ztoy [1; 5; 1; 4]%N) [ZSkip 0; ZRead 1; ZRead 1] = Ok (o', [[]; [5]; [4]]%N).
Proof. split; [vm_compute; reflexivity|]. eexists. vm_compute. reflexivity. Qed.

(** As with the other algorithms, suspending discards what was read ahead without moving the file below
    back: raw data stored after a frame is not read unless skip is called. *)
Theorem C59_suspend_loses_buffer_refuted : exists o', zrrun ztoy 50 (zropen ztoy [1; 5; 1; 6; 0; 9; 8; 7]%N) [ZRead 1; ZRead 1; ZRead 1; ZRSuspend; ZRead 3] = Ok (o', [[5]; [6]; []; []; [8; 7]]%N).
Proof. eexists. vm_compute. reflexivity. Qed.
(** While data is waiting, get_position() does not fail (compressor.cpp's does): it gives a place inside the frame, at which no frame starts. *)
Theorem C59_position_inside_refuted : exists o, zwrun ztoy 50 (zwfresh ztoy) [ZWrite [5; 4; 3]]%N = Ok o /\ wflueof ztoy o = false /\ zposition ztoy o = 4.
Proof. eexists. split; [vm_compute; reflexivity|]. split; reflexivity. Qed.

Print Assumptions C59_write. Print Assumptions C59_read. Print Assumptions C59_truncated. Print Assumptions C59_truncated_fails. Print Assumptions C59_round_trip. Print Assumptions C59_suspended.
Print Assumptions C59_suspend_loses_buffer_refuted. Print Assumptions C59_position_inside_refuted.
