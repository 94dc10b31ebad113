(** * RsyncProof: lemmas about reading through librsync *)
From Coq Require Import List.
From Verif Require Import Base RsyncModel RsyncSpec.
Local Open Scope nat_scope.

Lemma is_nil_true l : is_nil l = true -> l = [].
Proof. destruct l; [reflexivity|discriminate]. Qed.
Lemma is_nil_false l : is_nil l = false -> l <> [].
Proof. destruct l; [discriminate|discriminate]. Qed.

Lemma prefix_len o l : prefix o l -> length o <= length l.
Proof. intros [t ->]. rewrite app_length. lia. Qed.
Lemma prefix_full o l : prefix o l -> length l <= length o -> o = l.
Proof. intros [t ->] H. rewrite app_length in H. destruct t; [now rewrite app_nil_r|cbn in H; lia]. Qed.

Section proof.
Variable M : machine.
Variable F : list N -> list N.
Variable Inv : state M -> list N -> bool -> list N -> Prop.
Hypothesis C : computes M F Inv.

Lemma step_ok s x e o a n : Inv s x e o -> (a <> [] -> e = false) ->
  exists s' c out fin, step_forward M s a n = Ok (s', skipn c a, out, fin) /\ c <= length a /\ length out <= n /\
    Inv s' (x ++ firstn c a) (e || is_nil a) (o ++ out) /\
    (a <> [] -> 0 < n -> 0 < c \/ out <> []) /\
    (a = [] -> 0 < n -> out = [] -> fin = true) /\
    (fin = true -> a = [] -> F x = o ++ out) /\
    (fin = true -> a <> [] -> F (x ++ firstn c a) = o ++ out) /\
    (fin = true -> iter M s a (is_nil a) n = (s', c, out, RS_DONE)).
Proof.
  intros I E. unfold step_forward. destruct (iter M s a (is_nil a) n) as [[[s' c] out] r] eqn:IT.
  pose proof (c_step _ _ _ C _ _ _ _ _ _ _ _ _ _ I E IT) as (S1 & S2 & S3 & S4).
  pose proof (c_done _ _ _ C _ _ _ _ _ _ _ _ _ _ I E IT) as DN.
  assert (PR : a <> [] -> 0 < n -> 0 < c \/ out <> []) by (intros Na Hn; eapply (c_progress _ _ _ C); [exact I|exact (E Na)|exact Na|exact Hn|exact IT]).
  assert (EN : a = [] -> 0 < n -> out = [] -> r = RS_DONE).
  { intros -> Hn Ho. eapply (c_end _ _ _ C); [exact I|exact Hn|exact IT|exact Ho]. }
  destruct r; [| |congruence]; eexists s', c, out, _; (split; [reflexivity|]); do 3 (split; [assumption|]); (split; [exact PR|]).
  - split; [auto|]. split; [|split].
    + intros _ ->. destruct (DN eq_refl) as [D1 _]. cbn in D1. rewrite orb_true_r in D1. specialize (D1 eq_refl). rewrite firstn_nil, app_nil_r in D1. exact D1.
    + intros _ Na. destruct (DN eq_refl) as [_ D2]. rewrite (E Na) in D2. destruct a; [congruence|]. cbn [is_nil orb] in D2. specialize (D2 eq_refl []). rewrite app_nil_r in D2. exact D2.
    + reflexivity.
  - split; [|split; [|split]]; try discriminate. intros H1 H2 H3. specialize (EN H1 H2 H3). discriminate.
Qed.

(** ** Delta and patch *)
Variable T : list N.

Definition G (ob : obj M) (x : list N) (e : bool) (o : list N) : Prop :=
  Inv (job _ ob) x e o /\ x ++ wb _ ob ++ below _ ob = T /\ (e = true -> wb _ ob = [] /\ below _ ob = []) /\
  summed _ ob = x ++ wb _ ob /\ length (wb _ ob) <= BUFFER_SIZE.

Lemma G_prefix ob x e o : G ob x e o -> prefix o (F T).
Proof.
  intros (I & X & E & _). destruct (c_prefix _ _ _ C _ _ _ _ I) as [P1 P2]. destruct e.
  - destruct (E eq_refl) as [E1 E2]. rewrite E1, E2, !app_nil_r in X. subst x. auto.
  - rewrite <- X. apply P2. reflexivity.
Qed.

Lemma B_pos : 1 <= BUFFER_SIZE. Proof. unfold BUFFER_SIZE. lia. Qed.

Lemma fill_G ob x e o : G ob x e o -> G (fill M ob) x e o /\
  length (wb _ (fill M ob)) + length (below _ (fill M ob)) = length (wb _ ob) + length (below _ ob) /\
  (wb _ (fill M ob) = [] -> below _ (fill M ob) = []).
Proof.
  intros (I & X & E & S & L). unfold fill. cbn [job wb below summed]. split; [|split].
  - unfold G. cbn [job wb below summed]. split; [exact I|]. split; [rewrite <- app_assoc, firstn_skipn; exact X|]. split; [|split].
    + intro Q. destruct (E Q) as [-> ->]. rewrite firstn_nil, skipn_nil. auto.
    + rewrite S, app_assoc. reflexivity.
    + rewrite app_length, firstn_length. lia.
  - rewrite app_length, firstn_length, skipn_length. lia.
  - intro Q. apply app_eq_nil in Q. destruct Q as [Q1 Q2]. rewrite Q1 in *. cbn [length] in *. rewrite Nat.sub_0_r in *.
    destruct (below _ ob) as [|y b]; [apply skipn_nil|]. pose proof B_pos. destruct BUFFER_SIZE; [lia|discriminate Q2].
Qed.

Definition mu (ob : obj M) (o : list N) : nat := length (wb _ ob) + length (below _ ob) + (length (F T) - length o).

(** One turn of either loop, up to the call of librsync. *)
Lemma turn ob x e o eof n : G ob x e o -> (eof = true -> wb _ ob = [] /\ below _ ob = []) -> 0 < n ->
  let o1 := if eof then empty_wb M ob else fill M ob in
  let eof' := if eof then true else is_nil (wb _ o1) in
  exists s rest out fin x' e', step_forward M (job _ o1) (wb _ o1) n = Ok (s, rest, out, fin) /\ length out <= n /\
    (forall comp, G {| job := s; wb := rest; below := below _ o1; store := store _ o1; summed := summed _ o1; completed := comp |} x' e' (o ++ out)) /\
    completed _ o1 = completed _ ob /\
    (eof' = true -> rest = [] /\ below _ o1 = []) /\
    (eof' = true -> out = [] -> fin = true) /\
    (eof' = true -> summed _ o1 = T) /\
    (negb eof' || negb (is_nil out) = true -> length rest + length (below _ o1) + (length (F T) - length (o ++ out)) < mu ob o) /\
    (fin = true -> eof' = true -> o ++ out = F T) /\
    (fin = true -> ends_with M Inv T -> rest = [] /\ o ++ out = F T).
Proof.
  intros HG He Hn o1 eof'.
  assert (HG1 : G o1 x e o /\ length (wb _ o1) + length (below _ o1) = length (wb _ ob) + length (below _ ob) /\ (wb _ o1 = [] -> below _ o1 = []) /\
     completed _ o1 = completed _ ob /\ (eof' = true -> wb _ o1 = []) /\ (wb _ o1 = [] -> eof' = true)).
  { unfold o1, eof'. destruct eof.
    - destruct (He eq_refl) as [E1 E2]. destruct HG as (I & X & E & S & L). unfold empty_wb, G. cbn [job wb below summed]. rewrite E1 in *. auto 10.
    - destruct (fill_G _ _ _ _ HG) as (A & B & D). split; [exact A|]. split; [exact B|]. split; [exact D|]. split; [reflexivity|]. split; [intro Q; apply is_nil_true, Q|]. intro Q. change (is_nil (wb M (fill M ob)) = true). change (wb M (fill M ob) = []) in Q. rewrite Q. reflexivity. }
  destruct HG1 as (HG1 & LEN & EMP & CMP & EW & WE). clearbody o1 eof'.
  pose proof HG1 as (I & X & E & S & L).
  assert (NE : wb _ o1 <> [] -> e = false).
  { intro Na. destruct e; [|reflexivity]. destruct (E eq_refl) as [Q _]. contradiction. }
  destruct (step_ok _ _ _ _ _ n I NE) as (s & c & out & fin & ST & Lc & Lo & I' & PR & EN & D1 & D2 & IT).
  exists s, (skipn c (wb _ o1)), out, fin, (x ++ firstn c (wb _ o1)), (e || is_nil (wb _ o1)).
  split; [exact ST|]. split; [exact Lo|].
  assert (GN : forall comp, G {| job := s; wb := skipn c (wb _ o1); below := below _ o1; store := store _ o1; summed := summed _ o1; completed := comp |}
      (x ++ firstn c (wb _ o1)) (e || is_nil (wb _ o1)) (o ++ out)).
  { intro comp. unfold G. cbn [job wb below summed]. split; [exact I'|]. split; [|split; [|split]].
    - rewrite <- X. rewrite <- !app_assoc. f_equal. rewrite app_assoc, firstn_skipn. reflexivity.
    - intro Q. destruct e; cbn [orb] in Q.
      + destruct (E eq_refl) as [Q1 Q2]. rewrite Q1, skipn_nil. auto.
      + apply is_nil_true in Q. rewrite Q, skipn_nil. auto.
    - rewrite <- app_assoc, firstn_skipn. exact S.
    - rewrite skipn_length. lia. }
  split; [exact GN|]. split; [exact CMP|]. split; [|split; [|split; [|split; [|split]]]].
  - intro Q. rewrite (EW Q), skipn_nil. auto.
  - intros Q Q2. apply EN; auto.
  - intro Q. rewrite (EW Q) in *. rewrite (EMP eq_refl), !app_nil_r in *. congruence.
  - intro Q. pose proof (prefix_len _ _ (G_prefix _ _ _ _ (GN false))) as PL. unfold mu. rewrite <- LEN. rewrite skipn_length. rewrite app_length in *.
    destruct (wb _ o1) as [|y w] eqn:EQ.
    + cbn [length] in *. destruct eof'; cbn [negb orb] in Q.
      * destruct out; [discriminate|cbn [length] in *; lia].
      * specialize (WE eq_refl). discriminate.
    + destruct (PR ltac:(discriminate) Hn) as [P|P]; [lia|]. destruct out; [congruence|cbn [length] in *; lia].
  - intros Q Q2. rewrite (EW Q2) in *. rewrite (EMP eq_refl), !app_nil_r in X. subst x. symmetry. apply D1; auto.
  - intros Q EWI. pose proof (IT Q) as IT2. destruct (is_nil (wb _ o1)) eqn:NIL.
    + apply is_nil_true in NIL. rewrite NIL in *. rewrite (EMP eq_refl), !app_nil_r in X. subst x. rewrite skipn_nil. split; [reflexivity|]. symmetry. apply D1; auto.
    + rewrite <- NIL in IT2. apply is_nil_false in NIL. rewrite <- (D2 Q NIL). rewrite (NE NIL) in *.
      assert (PX : prefix (x ++ wb _ o1) T) by (exists (below _ o1); rewrite <- app_assoc; congruence).
      destruct (EWI _ _ _ _ _ _ _ _ _ I ltac:(auto) PX IT2) as [Z|Z].
      * destruct (wb _ o1); [congruence|discriminate Z].
      * rewrite Z. split; [|reflexivity]. rewrite <- X in Z. apply app_inv_head in Z. rewrite <- (firstn_skipn c (wb _ o1)) in Z at 2.
        rewrite <- app_assoc in Z. rewrite <- (app_nil_r (firstn c (wb _ o1))) in Z at 1. apply app_inv_head in Z. symmetry in Z. apply app_eq_nil in Z. apply Z.
Qed.

Lemma delta_loop_ok fuel : forall size eof ob acc x e o, G ob x e o -> (eof = true -> wb _ ob = [] /\ below _ ob = []) ->
  length acc < size -> mu ob o < fuel ->
  exists ob' new x' e', delta_loop M fuel size eof ob acc = Ok (ob', acc ++ new) /\ G ob' x' e' (o ++ new) /\ length (acc ++ new) <= size /\
    (length (acc ++ new) = size \/ (o ++ new = F T /\ summed _ ob' = T)).
Proof.
  induction fuel as [|fuel IH]; intros size eof ob acc x e o HG He La Lm; [lia|]. cbn [delta_loop].
  destruct (turn ob x e o eof (size - length acc) HG He ltac:(lia)) as (s & rest & out & fin & x' & e' & ST & Lo & GN & _ & R1 & R2 & R3 & R4 & R5 & _).
  cbv zeta in *. rewrite ST. cbn [bind].
  destruct ((length (acc ++ out) <? size) && _) eqn:CO.
  - apply andb_true_iff in CO. destruct CO as [CO1 CO2]. apply Nat.ltb_lt in CO1.
    destruct (IH size (if eof then true else is_nil (wb M (if eof then empty_wb M ob else fill M ob)))
         {| job := s; wb := rest; below := below M (if eof then empty_wb M ob else fill M ob); store := store M (if eof then empty_wb M ob else fill M ob);
            summed := summed M (if eof then empty_wb M ob else fill M ob); completed := completed M (if eof then empty_wb M ob else fill M ob) |} (acc ++ out) x' e' (o ++ out) (GN _) R1 CO1) as (ob' & new & x2 & e2 & L & G2 & L2 & FIN).
    { unfold mu. cbn [wb below]. specialize (R4 CO2). lia. }
    exists ob', (out ++ new), x2, e2. rewrite !app_assoc. auto.
  - eexists _, out, x', e'. split; [reflexivity|]. split; [apply GN|]. rewrite app_length in *. split; [lia|].
    apply andb_false_iff in CO. destruct CO as [CO|CO]; [apply Nat.ltb_ge in CO; left; lia|].
    apply orb_false_iff in CO. destruct CO as [CO1 CO2]. apply negb_false_iff in CO1, CO2. right. cbn [summed].
    split; [|apply R3, CO1]. apply R5; [|exact CO1]. apply R2; [exact CO1|apply is_nil_true, CO2].
Qed.

Hypothesis EW : ends_with M Inv T.

Lemma patch_loop_ok fuel : forall size eof ob acc x e o, G ob x e o -> (eof = true -> wb _ ob = [] /\ below _ ob = []) ->
  completed _ ob = false -> length acc < size -> mu ob o < fuel ->
  exists ob' new x' e', patch_loop M fuel size eof ob acc = Ok (ob', acc ++ new) /\ G ob' x' e' (o ++ new) /\ length (acc ++ new) <= size /\
    (length (acc ++ new) = size \/ o ++ new = F T) /\ (completed _ ob' = true -> o ++ new = F T).
Proof.
  induction fuel as [|fuel IH]; intros size eof ob acc x e o HG He Hc La Lm; [lia|]. cbn [patch_loop].
  destruct (turn ob x e o eof (size - length acc) HG He ltac:(lia)) as (s & rest & out & fin & x' & e' & ST & Lo & GN & CM & R1 & R2 & R3 & R4 & R5 & R6).
  cbv zeta in *. rewrite ST. cbn [bind]. destruct fin.
  - destruct (R6 eq_refl EW) as [Z1 Z2]. rewrite Z1 in *. cbn [is_nil negb andb bind]. rewrite andb_false_r.
    eexists _, out, x', e'. split; [reflexivity|]. split; [apply GN|]. rewrite app_length. split; [lia|]. auto.
  - destruct ((if eof then true else is_nil (wb M (if eof then empty_wb M ob else fill M ob))) && is_nil out) eqn:ED.
    { apply andb_true_iff in ED. destruct ED as [ED1 ED2]. apply is_nil_true in ED2. specialize (R2 ED1 ED2). discriminate. }
    cbn [bind]. rewrite CM, Hc. cbn [negb]. rewrite andb_true_r.
    destruct ((length (acc ++ out) <? size) && _) eqn:CO.
    + apply andb_true_iff in CO. destruct CO as [CO1 CO2]. apply Nat.ltb_lt in CO1. rewrite orb_comm in CO2.
      destruct (IH size (if eof then true else is_nil (wb M (if eof then empty_wb M ob else fill M ob)))
         {| job := s; wb := rest; below := below M (if eof then empty_wb M ob else fill M ob); store := store M (if eof then empty_wb M ob else fill M ob);
            summed := summed M (if eof then empty_wb M ob else fill M ob); completed := false |} (acc ++ out) x' e' (o ++ out) (GN _) R1 eq_refl CO1)
        as (ob' & new & x2 & e2 & L & G2 & L2 & FIN).
      { unfold mu. cbn [wb below]. specialize (R4 CO2). lia. }
      exists ob', (out ++ new), x2, e2. rewrite !app_assoc. auto.
    + eexists _, out, x', e'. split; [reflexivity|]. split; [apply GN|]. rewrite app_length in *. split; [lia|]. split; [|discriminate].
      apply andb_false_iff in CO. destruct CO as [CO|CO]; [apply Nat.ltb_ge in CO; left; lia|].
      apply orb_false_iff in CO. destruct CO as [CO1 CO2]. apply negb_false_iff in CO1, CO2. rewrite CO1, CO2 in ED. discriminate.
Qed.
End proof.

(** ** Sequences of reads *)
Lemma reads_ok M (R : list N) (rd : obj M -> nat -> res (obj M * list N)) (Rel : obj M -> list N -> Prop) (P : obj M -> Prop) :
  (forall ob o, Rel ob o -> prefix o R) ->
  (forall ob o n, Rel ob o -> 1 <= n -> exists ob' new, rd ob n = Ok (ob', new) /\ Rel ob' (o ++ new) /\ length new <= n /\ (length new = n \/ (o ++ new = R /\ P ob'))) ->
  forall sizes ob o, Forall (fun n => 1 <= n) sizes -> Rel ob o ->
    exists ob', reads M rd ob sizes = Ok (ob', firstn (list_sum sizes) (skipn (length o) R)) /\
      Rel ob' (firstn (length o + list_sum sizes) R) /\ (length R < length o + list_sum sizes -> P ob').
Proof.
  intros HP HR. induction sizes as [|n sizes IH]; intros ob o HF HO.
  - exists ob. split; [reflexivity|]. change (list_sum []) with 0. rewrite Nat.add_0_r. pose proof (prefix_len _ _ (HP _ _ HO)). destruct (HP _ _ HO) as [t E].
    split; [|lia]. rewrite E, firstn_app, firstn_all, Nat.sub_diag. cbn [firstn]. rewrite app_nil_r. exact HO.
  - inversion HF as [|? ? Hn HF']; subst. destruct (HR ob o n HO Hn) as (ob1 & new & E & H1 & L & FIN). cbn [reads]. rewrite E. cbn [bind].
    destruct (IH ob1 (o ++ new) HF' H1) as (ob2 & E2 & H2 & H3). rewrite E2. cbn [bind]. exists ob2.
    change (list_sum (n :: sizes)) with (n + list_sum sizes). rewrite app_length in *.
    pose proof (prefix_len _ _ (HP _ _ H1)) as PL. rewrite app_length in PL. destruct (HP _ _ H1) as [t T].
    assert (SK : skipn (length o) R = new ++ t).
    { rewrite T, <- app_assoc, skipn_app, skipn_all, Nat.sub_diag. reflexivity. }
    assert (SK2 : skipn (length o + length new) R = t).
    { rewrite T, skipn_app, skipn_all2 by (rewrite app_length; lia). rewrite app_length, Nat.sub_diag. reflexivity. }
    rewrite SK2 in *. rewrite SK. destruct FIN as [FIN|[FIN FP]].
    + split; [|split].
      * rewrite firstn_app. rewrite (firstn_all2 (n := n + list_sum sizes) new) by lia. replace (n + list_sum sizes - length new) with (list_sum sizes) by lia. reflexivity.
      * replace (length o + (n + list_sum sizes)) with (length o + length new + list_sum sizes) by lia. exact H2.
      * intro Q. apply H3. lia.
    + assert (Tn : t = []). { rewrite FIN in T. rewrite <- (app_nil_r R) in T at 1. apply app_inv_head in T. auto. }
      rewrite Tn in *. split; [|split].
      * rewrite firstn_nil, !app_nil_r. rewrite firstn_all2 by lia. reflexivity.
      * rewrite firstn_all2 in H2 by (rewrite <- FIN, app_length; lia). rewrite firstn_all2 by (rewrite <- FIN, app_length; lia). exact H2.
      * intro Q. destruct sizes as [|m sizes]; [cbn in E2; injection E2 as <-; exact FP|]. apply H3. pose proof (Forall_inv HF') as Hm. cbv beta in Hm.
        change (list_sum (m :: sizes)) with (m + list_sum sizes). rewrite <- FIN, app_length. lia.
Qed.

(** ** Signature *)
Section sign.
Variable M : machine.
Variable F : list N -> list N.
Variable Inv : state M -> list N -> bool -> list N -> Prop.
Hypothesis C : computes M F Inv.

Definition GS (ob : obj M) (x : list N) (e : bool) (o : list N) : Prop :=
  Inv (job _ ob) x e o /\ store _ ob ++ wb _ ob = o /\ length (wb _ ob) <= BUFFER_SIZE.

Definition nz (l : list N) : nat := if is_nil l then 0 else 1.

Lemma sign_loop_ok fuel : forall ob x e o rem, GS ob x e o -> (rem <> [] -> e = false) ->
  2 * (length rem + (length (F (x ++ rem)) - length o)) + nz (wb _ ob) < fuel ->
  exists ob' o', sign_loop M fuel ob rem = Ok ob' /\ GS ob' (x ++ rem) (e || is_nil rem) o' /\ below _ ob' = below _ ob.
Proof.
  induction fuel as [|fuel IH]; intros ob x e o rem (I & S & L) NE Lm; [lia|]. cbn [sign_loop].
  destruct (step_ok M F Inv C _ _ _ _ _ (BUFFER_SIZE - length (wb _ ob)) I NE) as (s & c & out & fin & ST & Lc & Lo & I' & PR & _).
  rewrite ST. cbn [bind].
  set (o' := if negb (is_nil (wb _ ob ++ out)) && is_nil out then _ else _).
  assert (GO : GS o' (x ++ firstn c rem) (e || is_nil rem) (o ++ out) /\ below _ o' = below _ ob /\
     (out = [] -> wb _ o' = [])).
  { unfold o', GS. destruct (negb (is_nil (wb _ ob ++ out)) && is_nil out) eqn:Q; cbn [job wb store below].
    - apply andb_true_iff in Q. destruct Q as [_ Q]. apply is_nil_true in Q. subst out. rewrite !app_nil_r in *. split; [|auto].
      split; [exact I'|]. split; [exact S|cbn [length]; lia].
    - split; [|split; [reflexivity|]].
      + split; [exact I'|]. split; [rewrite app_assoc, S; reflexivity|rewrite app_length; lia].
      + intros ->. rewrite app_nil_r in *. cbn [is_nil] in Q. rewrite andb_true_r in Q. apply negb_false_iff in Q. apply is_nil_true, Q. }
  destruct GO as (GO & BO & WO). clearbody o'.
  destruct (is_nil (skipn c rem)) eqn:Z.
  - apply is_nil_true in Z. exists o', (o ++ out). split; [reflexivity|]. split; [|exact BO].
    rewrite <- (firstn_skipn c rem) at 1. rewrite Z, app_nil_r. exact GO.
  - apply is_nil_false in Z. assert (Nr : rem <> []) by (intros ->; rewrite skipn_nil in Z; congruence).
    rewrite (NE Nr) in *. destruct rem as [|r0 rem0]; [congruence|]. cbn [is_nil orb] in *. set (rem := r0 :: rem0) in *.
    assert (X : (x ++ firstn c rem) ++ skipn c rem = x ++ rem) by (rewrite <- app_assoc, firstn_skipn; reflexivity).
    assert (PL : length (o ++ out) <= length (F (x ++ rem))).
    { apply prefix_len. rewrite <- X. destruct GO as (GI & _). apply (c_prefix _ _ _ C _ _ _ _ GI). reflexivity. }
    destruct (IH o' (x ++ firstn c rem) false (o ++ out) (skipn c rem) GO ltac:(auto)) as (ob' & o2 & E & G2 & B2).
    { rewrite X, skipn_length. rewrite app_length in *.
      assert (NW : nz (wb _ o') <= 1) by (unfold nz; destruct (is_nil (wb _ o')); lia).
      destruct (Nat.eq_dec (BUFFER_SIZE - length (wb _ ob)) 0) as [B0|B0].
      - assert (out = []) by (destruct out; [reflexivity|cbn [length] in Lo; lia]). rewrite (WO H). subst out.
        assert (nz (wb _ ob) = 1) by (unfold nz; pose proof B_pos; destruct (wb _ ob); [cbn [length] in B0; lia|reflexivity]).
        change (nz []) with 0. cbn [length] in *. lia.
      - destruct (PR ltac:(discriminate) ltac:(lia)) as [P|P]; [lia|]. destruct out; [congruence|]. cbn [length] in *. lia. }
    exists ob', o2. rewrite E, B2. split; [reflexivity|]. split; [|exact BO]. rewrite X in G2.
    replace (is_nil (skipn c rem)) with false in G2 by (destruct (skipn c rem); [congruence|reflexivity]). exact G2.
Qed.

Lemma eof_loop_ok fuel : forall ob x e o, Inv (job _ ob) x e o -> store _ ob = o -> length (F x) - length o < fuel ->
  exists ob', eof_loop M fuel ob = Ok ob' /\ store _ ob' = F x.
Proof.
  induction fuel as [|fuel IH]; intros ob x e o I S Lm; [lia|]. cbn [eof_loop].
  destruct (step_ok M F Inv C _ _ _ _ [] BUFFER_SIZE I ltac:(congruence)) as (s & c & out & fin & ST & Lc & Lo & I' & _ & EN & D1 & _).
  rewrite ST. cbn [bind]. rewrite firstn_nil, app_nil_r in I'. cbn [is_nil] in I'. rewrite orb_true_r in I'.
  destruct (negb (is_nil out) && negb fin) eqn:Q.
  - apply andb_true_iff in Q. destruct Q as [Q1 _].
    assert (PL : length (o ++ out) <= length (F x)) by (apply prefix_len; apply (c_prefix _ _ _ C _ _ _ _ I'); reflexivity).
    apply (IH _ x true (o ++ out)); [exact I'|cbn [store]; congruence|].
    destruct out; [discriminate|]. rewrite app_length in *. cbn [length] in *. lia.
  - eexists. split; [reflexivity|]. cbn [store]. rewrite S. symmetry. apply D1; [|reflexivity].
    apply andb_false_iff in Q. destruct Q as [Q|Q]; [|apply negb_false_iff, Q].
    apply negb_false_iff, is_nil_true in Q. apply EN; auto. apply B_pos.
Qed.
End sign.
