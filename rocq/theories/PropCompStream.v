(** * PropCompStream: C58, streamed compression is transparent

    For every library respecting the contract of CompStreamSpec, every sequence of writes, flushes,
    suspensions and resumptions of the compression and every sequence of reads. *)
From Coq Require Import List.
From Verif Require Import Base CompStreamModel CompStreamSpec CompStreamProof.
Local Open Scope nat_scope.

Section props.
Variable E : engine.
Variable encodes : list N -> list N -> Prop.
Variables (I Fin : cstate E -> list N -> list N -> Prop) (left : cstate E -> nat).
Variable D : list N -> list N -> dstate E -> list N -> list N -> bool -> Prop.

(** What is written is, in order, for each time between two flushes a compressed form of all that was
    written, and what was written while suspended; the position is then the size of the file. *)
Theorem C58_write : compresses E encodes I Fin left -> forall l, exists f0 o ms,
  (forall f, f0 <= f -> wrun E f (wfresh E) (l ++ [Sync]) = Ok o) /\
  out E o = concat ms /\ Forall2 (stored encodes) (pieces false [] l) ms /\ wposition E o = Ok (length (out E o)).
Proof.
  intros C l. destruct (wrun_ok E encodes I Fin left C l (wfresh E) false [] [] (WI_fresh E encodes I Fin left C)) as (f0 & o & ms & W & F & O & T & _).
  exists f0, o, ms. split; [exact W|]. split; [exact O|]. split; [exact F|]. unfold wposition. rewrite T. reflexivity.
Qed.

Lemma rrun_app f : forall l1 l2 o o1 x1 o2 x2, rrun E f o l1 = Ok (o1, x1) -> rrun E f o1 l2 = Ok (o2, x2) -> rrun E f o (l1 ++ l2) = Ok (o2, x1 ++ x2).
Proof.
  induction l1 as [|p l1 IH]; intros l2 o o1 x1 o2 x2 H1 H2; cbn [rrun app] in *.
  - injection H1 as <- <-. exact H2.
  - destruct (rstep E f o p) as [[o' x]|] eqn:S; [|discriminate]. cbn [bind] in *. destruct (rrun E f o' l1) as [[o'' y]|] eqn:R; [|discriminate]. cbn [bind] in *.
    injection H1 as <- <-. rewrite (IH _ _ _ _ _ _ R H2). reflexivity.
Qed.
Lemma read_ok (C : decompresses E encodes D) x m S0 (HS : prefix m S0 \/ prefix S0 m) o d n : RI E D x m S0 o d ->
  exists f0 o' b, (forall f, f0 <= f -> read E f o n = Ok (o', b)) /\ length b <= n /\ RI E D x m S0 o' (d ++ b) /\ (prefix m S0 -> b = firstn n (skipn (length d) x)).
Proof.
  intro H. unfold read. pose proof H as (Su & _). rewrite Su. destruct n as [|n].
  - exists 0, o, []. rewrite app_nil_r. repeat split; auto; apply H.
  - change (S n =? 0) with false. cbn [andb].
    destruct (read_loop_ok E encodes D C x m S0 HS (S (measure E o (S n))) o (S n) 0 false [] d) as (o' & b & W & R); auto; try discriminate.
    exists (S (measure E o (S n))), o', b. split; [exact W|exact R].
Qed.
Lemma reads_ok (C : decompresses E encodes D) x m S0 (HS : prefix m S0 \/ prefix S0 m) : forall ns o d, RI E D x m S0 o d ->
  exists f0 o' bs, (forall f, f0 <= f -> rrun E f o (map Read ns) = Ok (o', bs)) /\ Forall2 (fun n b => length b <= n) ns bs /\ RI E D x m S0 o' (d ++ concat bs) /\
    (prefix m S0 -> bs = chunks ns (skipn (length d) x)).
Proof.
  induction ns as [|n ns IH]; intros o d H; cbn [map rrun].
  - exists 0, o, []. cbn. rewrite app_nil_r. repeat split; auto; apply H.
  - destruct (read_ok C x m S0 HS o d n H) as (f1 & o1 & b & W1 & L1 & R1 & P1). destruct (IH o1 (d ++ b) R1) as (f2 & o2 & bs & W2 & L2 & R2 & P2).
    exists (Nat.max f1 f2), o2, (b :: bs). split; [|split; [|split]].
    + intros f Hf. cbn [rstep]. rewrite W1 by lia. cbn [bind]. rewrite W2 by lia. reflexivity.
    + constructor; auto.
    + cbn [concat]. rewrite app_assoc. exact R2.
    + intro PM. cbn [chunks]. rewrite <- (P1 PM), (P2 PM). f_equal. f_equal. rewrite app_length, Nat.add_comm, <- skipn_skipn.
      destruct R1 as (_ & i & e & HD & _). destruct (d_prefix _ _ _ C _ _ _ _ _ _ HD) as (_ & (t & X) & _).
      assert (Y : skipn (length d) x = b ++ t) by (rewrite X, <- app_assoc, skipn_app, skipn_all, Nat.sub_diag; reflexivity).
      rewrite Y, skipn_app, skipn_all, Nat.sub_diag. cbn [skipn app]. specialize (P1 PM). rewrite Y in P1.
      assert (LEN : n = length b \/ t = []).
      { apply (f_equal (@length _)) in P1. rewrite firstn_length, app_length in P1. destruct t; [auto|]. cbn [length] in P1. lia. }
      destruct LEN as [->| ->]; [rewrite skipn_app, skipn_all, Nat.sub_diag; reflexivity|]. rewrite app_nil_r, skipn_all2; [reflexivity|exact L1].
Qed.
Lemma RI_skip (C : decompresses E encodes D) x m pre t o : encodes x m -> file E o = pre ++ t -> rsuspended E o = false -> RI E D x m t (skip E o (length pre)) [].
Proof.
  intros HE HF HR. split; [exact HR|]. exists [], false. cbn [skip decomp avail flush_read]. split; [apply (d_start _ _ _ C), HE|].
  unfold rest, skip, flush_read. cbn [pos file avail app]. rewrite HF, app_length, Nat.min_l, skipn_app, skipn_all, Nat.sub_diag by lia. reflexivity.
Qed.

(** From the place a compressed form of x was stored at, whatever is around and whatever was read
    before, reads give x cut as asked, then nothing. *)
Theorem C58_read : decompresses E encodes D -> forall x m pre post o ns, encodes x m -> file E o = pre ++ m ++ post -> rsuspended E o = false ->
  exists f0 o', forall f, f0 <= f -> rrun E f o (Skip (length pre) :: map Read ns) = Ok (o', [] :: chunks ns x).
Proof.
  intros C x m pre post o ns HE HF HR. assert (HS : prefix m (m ++ post)) by apply prefix_app.
  destruct (reads_ok C x m (m ++ post) (or_introl HS) ns _ _ (RI_skip C x m pre (m ++ post) o HE HF HR)) as (f0 & o' & bs & W & _ & _ & P).
  exists f0, o'. intros f Hf. cbn [rrun rstep bind]. rewrite W by exact Hf. cbn [bind]. rewrite (P HS). reflexivity.
Qed.
(** When the file ends too early: no error, no endless loop; what is read is the beginning of x. *)
Theorem C58_truncated : decompresses E encodes D -> forall x m pre k o ns, encodes x m -> file E o = pre ++ firstn k m -> rsuspended E o = false ->
  exists f0 o' bs, (forall f, f0 <= f -> rrun E f o (Skip (length pre) :: map Read ns) = Ok (o', [] :: bs)) /\
    prefix (concat bs) x /\ Forall2 (fun n b => length b <= n) ns bs.
Proof.
  intros C x m pre k o ns HE HF HR. assert (HS : prefix (firstn k m) m) by (exists (skipn k m); symmetry; apply firstn_skipn).
  destruct (reads_ok C x m (firstn k m) (or_intror HS) ns _ _ (RI_skip C x m pre (firstn k m) o HE HF HR)) as (f0 & o' & bs & W & L & (_ & i & e & HD & _) & _).
  exists f0, o', bs. split; [intros f Hf; cbn [rrun rstep bind]; rewrite W by exact Hf; reflexivity|]. split; [|exact L].
  destruct (d_prefix _ _ _ C _ _ _ _ _ _ HD) as (_ & P & _). exact P.
Qed.

Lemma wrun_app f : forall l1 l2 o o1, wrun E f o l1 = Ok o1 -> wrun E f o (l1 ++ l2) = wrun E f o1 l2.
Proof.
  induction l1 as [|p l1 IH]; intros l2 o o1 H; cbn [wrun app] in *; [injection H as <-; reflexivity|].
  destruct (wstep E f o p); [|discriminate]. cbn [bind] in *. apply IH, H.
Qed.
Lemma pieces_writes xs : forall pending r, pieces false pending (map Write xs ++ r) = pieces false (pending ++ concat xs) r.
Proof. induction xs as [|a xs IH]; intros pending r; cbn [map app pieces concat]; [rewrite app_nil_r; reflexivity|]. rewrite IH, app_assoc. reflexivity. Qed.
Lemma pieces_raw xs : forall r, pieces true [] (map Write xs ++ r) = map Raw xs ++ pieces true [] r.
Proof. induction xs as [|a xs IH]; intro r; cbn [map app pieces]; [reflexivity|]. rewrite IH. reflexivity. Qed.

(** Data written in any number of pieces after a flush, at the place get_position() gives, is what is
    read from there, whatever was written before and after, through whatever sizes of reads. *)
Theorem C58_round_trip : compresses E encodes I Fin left -> decompresses E encodes D -> forall l1 xs l2 ns, concat xs <> [] ->
  exists f0 o1 p o2, (forall f, f0 <= f -> wrun E f (wfresh E) (l1 ++ [Resume; Sync]) = Ok o1 /\ wrun E f o1 (map Write xs ++ [Sync] ++ l2 ++ [Sync]) = Ok o2) /\
    wposition E o1 = Ok p /\
    forall o, file E o = out E o2 -> rsuspended E o = false ->
    exists f1 o', forall f, f1 <= f -> rrun E f o (Skip p :: map Read ns) = Ok (o', [] :: chunks ns (concat xs)).
Proof.
  intros C C' l1 xs l2 ns NX.
  destruct (wrun_ok E encodes I Fin left C (l1 ++ [Resume]) (wfresh E) false [] [] (WI_fresh E encodes I Fin left C)) as (f1 & o1 & ms1 & W1 & F1 & O1 & T1 & s1 & H1).
  assert (NS : s1 = false).
  { specialize (W1 f1 (le_n _)). rewrite <- app_assoc in W1. cbn [app] in W1. destruct H1 as (S1 & _). rewrite <- S1. clear -W1.
    revert W1. generalize (wfresh E) as o. induction l1 as [|p l1 IH]; intros o W1; cbn [app wrun] in W1.
    - cbn [wstep bind] in W1. unfold sync_write in W1. destruct (total_in E (resume E o) =? 0); cbn [bind] in W1; [injection W1 as <-; reflexivity|].
      assert (K : forall f o o', finish_loop E f o = Ok o' -> wsuspended E o' = wsuspended E o).
      { clear. induction f as [|f IH]; intros o o' H; cbn [finish_loop] in H; [discriminate|]. destruct (compress E (comp E o) [] true BUFFER_SIZE) as [[[s c] b] r].
        destruct r; try discriminate; [apply IH in H; exact H|injection H as <-; reflexivity]. }
      destruct (finish_loop E f1 (resume E o)) as [o'|] eqn:FL; [|discriminate]. cbn [bind] in W1. injection W1 as <-. cbn [wsuspended]. apply K in FL. exact FL.
    - destruct (wstep E f1 o p); [|discriminate]. cbn [bind] in W1. eapply IH, W1. }
  subst s1. destruct (wrun_ok E encodes I Fin left C (map Write xs ++ [Sync] ++ l2) o1 false [] _ H1) as (f2 & o2 & ms2 & W2 & F2 & O2 & T2 & _).
  exists (Nat.max f1 f2), o1, (length (concat ms1)), o2. split; [|split].
  - intros f Hf. rewrite <- !app_assoc in W1, W2. split; [apply W1; lia|]. rewrite <- (W2 f) by lia. rewrite <- ?app_assoc. reflexivity.
  - unfold wposition. rewrite T1, O1. reflexivity.
  - intros o HF HR. rewrite pieces_writes in F2. cbn [app pieces] in F2. destruct (concat xs) as [|c t] eqn:X; [congruence|]. cbn [close app] in F2.
    inversion F2 as [|? m ? ms' EN F2']; subst. cbn [app concat] in O2. cbn [stored] in EN.
    destruct (C58_read C' (c :: t) m (concat ms1) (concat ms') o ns EN) as (f3 & o' & R); [rewrite HF, O2; reflexivity|exact HR|]. eauto.
Qed.

(** What is written while the compression is suspended is read as is. *)
Theorem C58_suspended : compresses E encodes I Fin left -> forall l1 xs l2 ns,
  exists f0 o1 p o2, (forall f, f0 <= f -> wrun E f (wfresh E) (l1 ++ [Suspend; Sync]) = Ok o1 /\ wrun E f o1 (map Write xs ++ l2 ++ [Sync]) = Ok o2) /\
    wposition E o1 = Ok p /\
    forall o, file E o = out E o2 -> rsuspended E o = false -> fold_right Nat.add 0 ns <= length (concat xs) ->
    exists o', forall f, rrun E f o (RSuspend :: Skip p :: map Read ns) = Ok (o', [] :: [] :: chunks ns (concat xs)).
Proof.
  intros C l1 xs l2 ns.
  destruct (wrun_ok E encodes I Fin left C (l1 ++ [Suspend]) (wfresh E) false [] [] (WI_fresh E encodes I Fin left C)) as (f1 & o1 & ms1 & W1 & F1 & O1 & T1 & s1 & H1).
  assert (NS : s1 = true).
  { specialize (W1 f1 (le_n _)). rewrite <- app_assoc in W1. cbn [app] in W1. destruct H1 as (S1 & _). rewrite <- S1. clear -W1.
    assert (K0 : forall f o o', finish_loop E f o = Ok o' -> wsuspended E o' = wsuspended E o).
    { clear. induction f as [|f IH]; intros o o' H; cbn [finish_loop] in H; [discriminate|]. destruct (compress E (comp E o) [] true BUFFER_SIZE) as [[[s c] b] r].
      destruct r; try discriminate; [apply IH in H; exact H|injection H as <-; reflexivity]. }
    assert (K : forall f o o', sync_write E f o = Ok o' -> wsuspended E o' = wsuspended E o).
    { clear -K0. intros f o o' H. unfold sync_write in H. destruct (total_in E o =? 0); [injection H as <-; reflexivity|]. destruct (finish_loop E f o) as [o2|] eqn:FL; [|discriminate].
      cbn [bind] in H. injection H as <-. apply K0 in FL. exact FL. }
    revert W1. generalize (wfresh E) as o. induction l1 as [|p l1 IH]; intros o W1; cbn [app wrun] in W1.
    - destruct (wstep E f1 o Suspend) as [o'|] eqn:SU; [|discriminate]. cbn [bind wstep] in *. destruct (sync_write E f1 o') as [o''|] eqn:SY; [|discriminate]. injection W1 as <-. apply K in SY. rewrite SY.
      unfold suspend in SU. destruct (wsuspended E o) eqn:SO; [injection SU as <-; exact SO|]. destruct (sync_write E f1 o); [|discriminate]. injection SU as <-. reflexivity.
    - destruct (wstep E f1 o p); [|discriminate]. cbn [bind] in W1. eapply IH, W1. }
  subst s1. destruct (wrun_ok E encodes I Fin left C (map Write xs ++ l2) o1 true [] _ H1) as (f2 & o2 & ms2 & W2 & F2 & O2 & T2 & _).
  exists (Nat.max f1 f2), o1, (length (concat ms1)), o2. split; [|split].
  - intros f Hf. rewrite <- !app_assoc in W1, W2. split; [apply W1; lia|]. apply W2. lia.
  - unfold wposition. rewrite T1, O1. reflexivity.
  - intros o HF HR HL. rewrite pieces_raw in F2. apply Forall2_app_inv_l in F2. destruct F2 as (ma & mb & FA & _ & ->).
    assert (EA : concat ma = concat xs). { clear -FA. revert ma FA. induction xs as [|a xs IH]; intros ma FA; inversion FA as [|? ? ? ? Q FA']; subst; [reflexivity|]. cbn [stored] in Q. subst. cbn [concat]. rewrite (IH _ FA'). reflexivity. }
    rewrite concat_app, EA, app_nil_l in O2. cbn [rrun rstep bind]. unfold rsuspend. rewrite HR.
    set (o0 := skip E _ _). assert (G : forall ns o d y t, rsuspended E o = true -> file E o = d ++ y ++ t -> pos E o = length d -> fold_right Nat.add 0 ns <= length y ->
      exists o', forall f, rrun E f o (map Read ns) = Ok (o', chunks ns y)).
    { clear. induction ns as [|n ns IH]; intros o d y t Su FI PO LE; cbn [map rrun rstep chunks fold_right] in *; [eauto|]. unfold read. rewrite Su. destruct n as [|n].
      - destruct (IH o d y t Su FI PO LE) as (o' & R). exists o'. intro f. change (0 =? 0) with true. cbv iota. cbn [bind]. rewrite R. reflexivity.
      - change (S n =? 0) with false. cbv iota. cbn [bind]. set (got := firstn (S n) (skipn (pos E o) (file E o))).
        assert (GO : got = firstn (S n) y). { unfold got. rewrite PO, FI, skipn_app, skipn_all, Nat.sub_diag. cbn [skipn app]. rewrite firstn_app. replace (S n - length y) with 0 by lia. cbn [firstn]. apply app_nil_r. }
        destruct (IH {| decomp := decomp E o; avail := avail E o; file := file E o; pos := pos E o + length got; rsuspended := true |} (d ++ firstn (S n) y) (skipn (S n) y) t) as (o' & R).
        + reflexivity.
        + cbn [file]. rewrite FI, <- app_assoc, (app_assoc (firstn _ _)), firstn_skipn. reflexivity.
        + cbn [pos]. rewrite GO, PO, app_length. reflexivity.
        + rewrite skipn_length. lia.
        + exists o'. intro f. rewrite R. cbn [bind]. rewrite <- GO. reflexivity. }
    destruct (G ns o0 (concat ms1) (concat xs) (concat mb)) as (o' & R); [reflexivity| | |exact HL|].
    + unfold o0, skip, flush_read. cbn [file]. rewrite HF, O2. reflexivity.
    + unfold o0, skip, flush_read. cbn [pos file]. rewrite HF, O2, app_length. lia.
    + exists o'. intro f. rewrite R. reflexivity.
Qed.
End props.

(** ** A library meeting the contract: each byte b becomes 1 b, the end is 0 *)
Definition enc (x : list N) : list N := flat_map (fun b => [1%N; b]) x.
Definition toy_encodes (x m : list N) : Prop := m = enc x ++ [0%N].
Inductive tstate := Tag | Byte | Ended.
Definition toy : engine := {|
  cstate := list N * bool; cstart := ([], false);
  compress := fun s a fin n =>
    let '(p, f) := s in
    if fin then
      if f then match p with [] => (s, 0, [], WR_STREAM_END) | _ => ((skipn n p, true), 0, firstn n p, WR_OK) end
      else ((p ++ [0%N], true), 0, [], WR_OK)
    else match p with
         | [] => match a with b :: _ => (([1%N; b], false), 1, [], WR_OK) | [] => (s, 0, [], WR_OK) end
         | _ => ((skipn n p, false), 0, firstn n p, WR_OK)
         end;
  dstate := tstate; dstart := Tag;
  decompress := fun s a n =>
    match s, a with
    | Ended, _ => (Ended, 0, [], WR_STREAM_END)
    | _, [] => (s, 0, [], WR_BUF_ERROR)
    | Tag, t :: _ => if N.eqb t 0 then (Ended, 1, [], WR_STREAM_END) else (Byte, 1, [], WR_OK)
    | Byte, b :: _ => match n with O => (Byte, 0, [], WR_BUF_ERROR) | _ => (Tag, 1, [b], WR_OK) end
    end |}.
Definition toy_I (s : cstate toy) (x o : list N) : Prop := snd s = false /\ o ++ fst s = enc x.
Definition toy_Fin (s : cstate toy) (x o : list N) : Prop := snd s = true /\ o ++ fst s = enc x ++ [0%N].
Definition toy_left (s : cstate toy) : nat := if snd s then length (fst s) else length (fst s) + 2.
Lemma enc_app a b : enc (a ++ b) = enc a ++ enc b.
Proof. apply flat_map_app. Qed.
Example toy_compresses : compresses toy toy_encodes toy_I toy_Fin toy_left.
Proof.
  constructor.
  - split; reflexivity.
  - intros [p f] x o a n s' c b r [Hf Ho] Na Hn H. cbn [fst snd compress toy] in *. subst f. destruct p as [|p0 p].
    + destruct a as [|b0 a]; [congruence|]. injection H as <- <- <- <-. rewrite app_nil_r in *. split; [auto|]. split; [cbn; lia|]. split; [cbn; lia|]. split; [|auto].
      split; [reflexivity|]. cbn [fst firstn]. rewrite enc_app, Ho. reflexivity.
    + injection H as <- <- <- <-. split; [auto|]. split; [lia|]. split; [rewrite firstn_length; lia|]. split; [|right; unfold toy_left; cbn [fst snd]; rewrite skipn_length; cbn [length]; lia].
      split; [reflexivity|]. cbn [fst]. rewrite <- app_assoc, firstn_skipn, app_nil_r. exact Ho.
  - intros [p f] x o n s' c b r HI Hn H. cbn [compress toy] in H. destruct f.
    + assert (Ho : o ++ p = enc x ++ [0%N]) by (destruct HI as [[HI _]|[_ HI]]; [discriminate|exact HI]). destruct p as [|p0 p].
      * injection H as <- <- <- <-. split; [cbn; lia|]. right. split; [reflexivity|]. exact Ho.
      * injection H as <- <- <- <-. split; [rewrite firstn_length; lia|]. left. split; [reflexivity|]. split; [split; [reflexivity|cbn [fst]; rewrite <- app_assoc, firstn_skipn; exact Ho]|].
        unfold toy_left. cbn [fst snd]. rewrite skipn_length. cbn [length]. lia.
    + assert (Ho : o ++ p = enc x) by (destruct HI as [[_ HI]|[HI _]]; [exact HI|discriminate]). injection H as <- <- <- <-. split; [cbn; lia|]. left. split; [reflexivity|].
      split; [split; [reflexivity|cbn [fst]; rewrite app_nil_r, app_assoc, Ho; reflexivity]|]. unfold toy_left. cbn [fst snd]. rewrite app_length. cbn. lia.
Qed.
Definition toy_D (x m : list N) (s : dstate toy) (i d : list N) (e : bool) : Prop :=
  m = enc x ++ [0%N] /\ exists y, x = d ++ y /\
  match s with Tag => e = false /\ i = enc d | Byte => e = false /\ y <> [] /\ i = enc d ++ [1%N] | Ended => e = true /\ y = [] /\ i = m end.
Lemma fits_next i a0 a c t : fits i (a0 :: a) (i ++ c :: t) -> a0 = c.
Proof. intros [[u H]|[u H]]; rewrite <- app_assoc in H; apply app_inv_head in H; cbn in H; injection H; auto. Qed.
Example toy_decompresses : decompresses toy toy_encodes toy_D.
Proof.
  constructor.
  - intros x m ->. split; [reflexivity|]. exists x. split; [reflexivity|]. split; reflexivity.
  - intros x m s i d e (-> & y & -> & H). split; [|split; [exists y; reflexivity|]].
    + rewrite enc_app. destruct s; [destruct H as (_ & ->); exists (enc y ++ [0%N])|destruct H as (_ & Ny & ->)|destruct H as (_ & -> & ->); exists []].
      * rewrite <- !app_assoc. reflexivity.
      * destruct y as [|b y]; [congruence|]. exists (b :: enc y ++ [0%N]). rewrite <- !app_assoc. reflexivity.
      * rewrite enc_app, !app_nil_r. reflexivity.
    + intros ->. destruct s; [destruct H; discriminate|destruct H; discriminate|]. destruct H as (_ & -> & ->). rewrite app_nil_r. auto.
  - intros x m s i d a n s' c b r (-> & y & -> & H) HF K. cbn [decompress toy] in K. destruct s; [| |destruct H; discriminate].
    + destruct H as (_ & ->). destruct a as [|a0 a].
      * injection K as <- <- <- <-. split; [lia|]. split; [cbn; lia|]. split; [split; [reflexivity|]; exists y; cbn [firstn]; rewrite !app_nil_r; auto|].
        split; [right; right; repeat split; left; reflexivity|]. split; [congruence|]. intros Q. exfalso. rewrite enc_app in Q. apply (f_equal (@length _)) in Q. rewrite !app_length in Q. cbn in Q. lia.
      * rewrite enc_app, <- app_assoc in HF. destruct y as [|b0 y].
        -- cbn [enc flat_map app] in HF. apply fits_next in HF. subst a0. cbn in K. injection K as <- <- <- <-. split; [cbn; lia|]. split; [cbn; lia|].
           split; [split; [reflexivity|]; exists []; rewrite !app_nil_r; auto|]. split; [auto|]. split; [auto|]. discriminate.
        -- cbn [enc flat_map app] in HF. apply fits_next in HF. subst a0. cbn in K. injection K as <- <- <- <-. split; [cbn; lia|]. split; [cbn; lia|].
           split; [split; [reflexivity|]; exists (b0 :: y); rewrite app_nil_r; repeat split; auto; discriminate|]. split; [auto|]. split; [auto|]. discriminate.
    + destruct H as (_ & Ny & ->). destruct y as [|b0 y]; [congruence|]. destruct a as [|a0 a].
      * injection K as <- <- <- <-. split; [lia|]. split; [cbn; lia|]. split; [split; [reflexivity|]; exists (b0 :: y); cbn [firstn]; rewrite !app_nil_r; auto|].
        split; [right; right; repeat split; left; reflexivity|]. split; [congruence|]. intros Q. exfalso. rewrite enc_app in Q. apply (f_equal (@length _)) in Q. rewrite !app_length in Q. cbn in Q. lia.
      * destruct n as [|n].
        -- injection K as <- <- <- <-. split; [cbn; lia|]. split; [cbn; lia|]. split; [split; [reflexivity|]; exists (b0 :: y); cbn [firstn]; rewrite !app_nil_r; auto|].
           split; [right; right; repeat split; right; reflexivity|]. split; [lia|]. intros _ Q. discriminate.
        -- rewrite enc_app in HF. replace ((enc d ++ enc (b0 :: y)) ++ [0%N]) with ((enc d ++ [1%N]) ++ b0 :: enc y ++ [0%N]) in HF by (cbn; rewrite <- !app_assoc; reflexivity).
           apply fits_next in HF. subst a0. injection K as <- <- <- <-. split; [cbn; lia|]. split; [cbn; lia|].
           split; [split; [reflexivity|]; exists y; cbn [firstn]; rewrite enc_app, <- !app_assoc; auto|]. split; [auto|]. split; [auto|]. discriminate.
  - intros x m s i d a n s' c b r (Hm & y & Hx & H) K. destruct s; [destruct H; discriminate|destruct H; discriminate|]. cbn [decompress toy] in K. injection K as <- <- <- <-.
    repeat split; auto. exists y. auto.
Qed.
(** two streams and raw data between *)
Example toy_run : exists o, wrun toy 50 (wfresh toy) [Write [5]; Write [6; 7]; Suspend; Write [9; 9]; Resume; Write [8]; Sync]%N = Ok o /\
  out toy o = [1; 5; 1; 6; 1; 7; 0; 9; 9; 1; 8; 0]%N /\ wposition toy o = Ok 12 /\
  exists o', rrun toy 50 (ropen toy (out toy o)) [Skip 9; Read 3; Skip 0; Read 2; Read 2; Read 1; RSuspend; Skip 7; Read 2]%N =
    Ok (o', [[]; [8]; []; [5; 6]; [7]; []; []; []; [9; 9]]%N).
Proof. eexists. split; [vm_compute; reflexivity|]. split; [reflexivity|]. split; [reflexivity|]. eexists. vm_compute. reflexivity. Qed.

(** The comment of inherited_flush_read says the bytes already read are kept: they are not, and the
    position below is not moved back. Suspending after having read a whole stream, then reading
    what follows without calling skip, gives nothing. *)
Theorem C58_suspend_loses_buffer_refuted : exists o', rrun toy 50 (ropen toy [1; 5; 0; 9; 9]%N) [Read 1; Read 1; RSuspend; Read 2] = Ok (o', [[5]; []; []; []]%N).
Proof. eexists. vm_compute. reflexivity. Qed.
(** A flush without data stores nothing: reading from the place get_position() gave before it gives the data that follows. *)
Theorem C58_empty_not_stored_refuted : exists o1 o2, wrun toy 50 (wfresh toy) [Write [5]; Sync]%N = Ok o1 /\ wposition toy o1 = Ok 3 /\
  wrun toy 50 o1 [Write []; Sync; Write [8]; Sync]%N = Ok o2 /\ exists o', rrun toy 50 (ropen toy (out toy o2)) [Skip 3; Read 1] = Ok (o', [[]; [8]]%N).
Proof. do 2 eexists. split; [vm_compute; reflexivity|]. split; [reflexivity|]. split; [vm_compute; reflexivity|]. eexists. vm_compute. reflexivity. Qed.

Print Assumptions C58_write. Print Assumptions C58_read. Print Assumptions C58_truncated. Print Assumptions C58_round_trip. Print Assumptions C58_suspended.
Print Assumptions C58_suspend_loses_buffer_refuted. Print Assumptions C58_empty_not_stored_refuted.
