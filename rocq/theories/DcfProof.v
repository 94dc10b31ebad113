(** * DcfProof: lemmas about configuration files: lines, comments, hide_file *)
From Coq Require Import List String.
From Verif Require Import Base DcfModel DcfSpec.
Local Open Scope nat_scope.

(** ** lines *)
Lemma lines_nl l r : ~ In NL l -> lines (l ++ NL :: r) = (l ++ [NL]) :: lines r.
Proof.
  induction l as [|c l IH]; intro H; cbn [app lines]; [rewrite N.eqb_refl; reflexivity|].
  destruct (N.eqb_spec c NL) as [E|_]; [exfalso; apply H; left; exact E|]. rewrite IH by (intro Q; apply H; right; exact Q). reflexivity.
Qed.
Lemma lines_last l : ~ In NL l -> l <> [] -> lines l = [l].
Proof.
  induction l as [|c l IH]; intros H NE; [congruence|]. cbn [lines]. destruct (N.eqb_spec c NL) as [E|_]; [exfalso; apply H; left; exact E|].
  destruct l as [|d l]; [reflexivity|]. rewrite IH; [reflexivity| |discriminate]. intro Q; apply H; right; exact Q.
Qed.
Lemma line_split t : (exists l r, t = l ++ NL :: r /\ ~ In NL l) \/ ~ In NL t.
Proof.
  induction t as [|c t IH]; [right; auto|]. destruct (N.eqb_spec c NL) as [->|NE]; [left; exists [], t; split; [reflexivity|auto]|].
  destruct IH as [(l & r & -> & H)|H]; [left; exists (c :: l), r; split; [reflexivity|]|right]; intros [Q|Q]; auto.
Qed.
Lemma blank_split l : exists sp l', l = sp ++ l' /\ forallb blank sp = true /\ skip_blank l = l' /\ (forall t, skip_blank (l ++ t) = match l' with [] => skip_blank t | _ => l' ++ t end) /\
  match l' with [] => True | c :: _ => blank c = false end.
Proof.
  induction l as [|c l (sp & l' & E & B & S & A & H)]; [exists [], []; cbn; repeat split; auto|]. destruct (blank c) eqn:Bc.
  - exists (c :: sp), l'. cbn. rewrite Bc, E. repeat split; auto; rewrite <- ?E; auto.
  - exists [], (c :: l). cbn. rewrite Bc. repeat split; auto.
Qed.
Lemma blank_not_nl c : blank c = true -> c <> NL.
Proof. unfold blank. intros H ->. discriminate. Qed.

(** ** pieces *)
Fixpoint total (m : list partie) : nat := match m with [] => 0 | p :: r => longueur p + total r end.
Fixpoint offs (o : nat) (m : list partie) : Prop := match m with [] => True | p :: r => offset p = o /\ offs (o + longueur p) r end.
Definition wfp (n : nat) (p : partie) : Prop := 0 < longueur p /\ debut p + longueur p <= n.
Definition wfm (n : nat) (m : list partie) : Prop := Forall (wfp n) m /\ offs 0 m.
Lemma total_app a b : total (a ++ b) = total a + total b.
Proof. induction a as [|p a IH]; cbn; [reflexivity|lia]. Qed.
Lemma offs_app a b : forall o, offs o (a ++ b) <-> offs o a /\ offs (o + total a) b.
Proof.
  induction a as [|p a IH]; intro o; cbn; [rewrite Nat.add_0_r; tauto|]. rewrite IH. replace (o + longueur p + total a) with (o + (longueur p + total a)) by lia. tauto.
Qed.
Lemma shown_app f a b : shown f (a ++ b) = shown f a ++ shown f b.
Proof. unfold shown. rewrite map_app, concat_app. reflexivity. Qed.
Lemma wfm_snoc n m p : wfm n m -> wfp n p -> offset p = total m -> wfm n (m ++ [p]).
Proof.
  intros [F O] W E. split; [apply Forall_app; auto|]. apply offs_app. split; [exact O|]. cbn. auto.
Qed.
Lemma piece_text (f pre x t : list N) : f = pre ++ x ++ t -> firstn (List.length x) (skipn (List.length pre) f) = x.
Proof. intros ->. rewrite skipn_app, skipn_all, Nat.sub_diag. cbn [app skipn]. rewrite firstn_app, Nat.sub_diag, firstn_all. cbn. apply app_nil_r. Qed.
Lemma shown_len f m : Forall (wfp (List.length f)) m -> List.length (shown f m) = total m.
Proof.
  intro H. induction H as [|p m (_ & L) _ IH]; [reflexivity|]. unfold shown in *. cbn [map concat total]. rewrite app_length, IH, firstn_length, skipn_length. lia.
Qed.

(** ** comments *)
Definition rdy (s : nstate) (lo : nat) (lic : bool) (mor : list partie) : Prop :=
  stt s = st_unknown /\ last_offset s = lo /\ last_is_comment s = lic /\ morceau s = mor.
Definition okc (a : N) : Prop := blank a = true \/ a = NL.
Lemma nl_blanks : forall sp, forallb blank sp = true -> forall rest p a s lo lic mor, rdy s lo lic mor -> okc a ->
  exists s' a', nloop (sp ++ rest) p a s = nloop rest (p + List.length sp) a' s' /\ rdy s' lo lic mor /\ okc a'.
Proof.
  induction sp as [|c sp IH]; intros B rest p a s lo lic mor R O; cbn [app nloop List.length].
  - exists s, a. rewrite Nat.add_0_r. auto.
  - cbn in B. apply andb_true_iff in B. destruct B as [B0 B]. destruct R as (R1 & R2 & R3 & R4). unfold nstep. rewrite R1. unfold blank in B0. rewrite B0. cbn [bind].
    destruct (IH B rest (S p) c {| stt := st_unknown; tmp := with_lon (tmp s) (S (longueur (tmp s))); last_offset := last_offset s; last_is_comment := last_is_comment s; morceau := morceau s |} lo lic mor) as (s' & a' & E & R & O').
    { repeat split; auto. } { left. exact B0. }
    exists s', a'. rewrite E. replace (p + S (List.length sp)) with (S p + List.length sp) by lia. auto.
Qed.
Lemma nl_comment : forall l, ~ In NL l -> forall rest p a s, stt s = st_comment -> a <> NL ->
  exists a', nloop (l ++ rest) p a s = nloop rest (p + List.length l) a' s /\ a' <> NL.
Proof.
  induction l as [|c l IH]; intros H rest p a s S A; cbn [app nloop List.length]; [exists a; rewrite Nat.add_0_r; auto|].
  unfold nstep. rewrite S. assert (NC : c <> NL) by (intro Q; apply H; left; exact Q). destruct (N.eqb_spec c NL) as [E|_]; [congruence|]. cbn [bind].
  destruct (IH (fun Q => H (or_intror Q)) rest (Datatypes.S p) c s S NC) as (a' & E & A'). exists a'. rewrite E. replace (p + Datatypes.S (List.length l)) with (Datatypes.S p + List.length l) by lia. auto.
Qed.
Lemma nl_command : forall l, ~ In NL l -> forall rest p a s, stt s = st_command ->
  exists a', nloop (l ++ rest) p a s = nloop rest (p + List.length l) a' {| stt := st_command; tmp := with_lon (tmp s) (longueur (tmp s) + List.length l); last_offset := last_offset s; last_is_comment := last_is_comment s; morceau := morceau s |}.
Proof.
  induction l as [|c l IH]; intros H rest p a s S; cbn [app nloop List.length].
  - exists a. rewrite !Nat.add_0_r. destruct s as [st t lo lic mor], t as [d n o]. cbn in *. subst st. reflexivity.
  - unfold nstep. rewrite S. destruct (N.eqb_spec c NL) as [E|_]; [exfalso; apply H; left; exact E|]. cbn [bind orb].
    destruct (IH (fun Q => H (or_intror Q)) rest (Datatypes.S p) c {| stt := st_command; tmp := with_lon (tmp s) (Datatypes.S (longueur (tmp s))); last_offset := last_offset s; last_is_comment := last_is_comment s; morceau := morceau s |} eq_refl) as (a' & E).
    exists a'. rewrite E. cbn [tmp last_offset last_is_comment morceau with_lon debut longueur offset].
    replace (p + Datatypes.S (List.length l)) with (Datatypes.S p + List.length l) by lia. replace (longueur (tmp s) + Datatypes.S (List.length l)) with (Datatypes.S (longueur (tmp s)) + List.length l) by lia. reflexivity.
Qed.

(** what a line does: [e]: with or without its end *)
Definition tail (e : bool) (r : list N) : list N := if e then NL :: r else [].
Definition close_nl (e : bool) : list N := if e then [NL] else [].
Lemma line_kind_app l e : ~ In NL l -> line_kind (l ++ close_nl e) = match skip_blank l with [] => Empty | c :: _ => if N.eqb c HASH then Comment else Command end.
Proof.
  intro H. destruct (blank_split l) as (sp & l' & E & B & S & A & HB). unfold line_kind. rewrite A, S. destruct l' as [|c l'].
  - destruct e; reflexivity.
  - cbn [app]. destruct (N.eqb_spec c NL) as [Q|_]; [|reflexivity]. exfalso. apply H. rewrite E. apply in_or_app. right. left. exact Q.
Qed.
(** the end of the line *)
Definition fin_line (e : bool) (r : list N) (p : nat) (R : res nstate) (K : nstate -> Prop) : Prop :=
  if e then exists s, R = nloop r p NL s /\ K s else exists s, R = Ok s /\ K s.
Lemma line_empty l e r p a s lo lic mor : ~ In NL l -> skip_blank l = [] -> rdy s lo lic mor -> okc a ->
  fin_line e r (p + List.length (l ++ close_nl e)) (nloop (l ++ tail e r) p a s) (fun s' => rdy s' lo lic mor).
Proof.
  intros H SB R O. destruct (blank_split l) as (sp & l' & E & B & S & _). rewrite SB in S. subst l'. rewrite app_nil_r in E. subst l.
  destruct (nl_blanks sp B (tail e r) p a s lo lic mor R O) as (s1 & a1 & E1 & R1 & O1). rewrite E1. destruct R1 as (Q1 & Q2 & Q3 & Q4). destruct e; cbn [tail close_nl fin_line nloop].
  - eexists. split; [unfold nstep; rewrite Q1; cbn [N.eqb bind orb]; rewrite app_length; cbn [List.length]; rewrite Nat.add_1_r, Nat.add_succ_r; reflexivity|]. repeat split; auto.
  - unfold nstep. rewrite Q1. destruct O1 as [O1| ->]; [unfold blank in O1; rewrite O1; eexists; split; [reflexivity|]; repeat split; auto|]. eexists. split; [reflexivity|]. repeat split; auto.
Qed.
Lemma line_comment l e r p a s lo lic mor l2 : ~ In NL l -> skip_blank l = HASH :: l2 -> rdy s lo lic mor -> okc a ->
  fin_line e r (p + List.length (l ++ close_nl e)) (nloop (l ++ tail e r) p a s) (fun s' => morceau s' = mor /\ (e = true -> rdy s' lo true mor)).
Proof.
  intros H SB R O. destruct (blank_split l) as (sp & l' & E & B & S & _). rewrite SB in S. subst l'. subst l. rewrite <- (app_assoc sp (HASH :: l2) (tail e r)).
  destruct (nl_blanks sp B ((HASH :: l2) ++ tail e r) p a s lo lic mor R O) as (s1 & a1 & E1 & R1 & O1). rewrite E1. destruct R1 as (Q1 & Q2 & Q3 & Q4). cbn [app nloop]. unfold nstep at 1. rewrite Q1. cbn [N.eqb Pos.eqb orb HASH SP TAB NL bind].
  assert (H2 : ~ In NL l2) by (intro Q; apply H; apply in_or_app; right; right; exact Q).
  set (s2 := {| stt := st_comment; tmp := tmp s1; last_offset := last_offset s1; last_is_comment := last_is_comment s1; morceau := morceau s1 |}).
  destruct (nl_comment l2 H2 (tail e r) (Datatypes.S (p + List.length sp)) HASH s2 eq_refl) as (a2 & E2 & A2); [discriminate|]. rewrite E2. destruct e; cbn [tail close_nl fin_line nloop].
  - eexists. split; [unfold nstep; cbn [stt s2 N.eqb bind]; rewrite N.eqb_refl; cbn [bind]; rewrite !app_length; cbn [List.length]; f_equal; lia|]. cbn. repeat split; auto.
  - exists s2. split; [|split; [exact Q4|discriminate]]. unfold nstep. cbn [stt s2]. destruct (N.eqb_spec a2 NL); [congruence|reflexivity].
Qed.
Lemma line_command l e r p a s lo lic mor c l2 sp : ~ In NL l -> l = sp ++ c :: l2 -> forallb blank sp = true -> blank c = false -> c <> HASH -> rdy s lo lic mor -> okc a ->
  offs 0 mor -> lo = total mor -> (lic = false -> exists m0 b, mor = m0 ++ [b] /\ debut b <= p) ->
  fin_line e r (p + List.length (l ++ close_nl e)) (nloop (l ++ tail e r) p a s) (fun s' =>
    exists mor', rdy s' (total mor') false mor' /\ offs 0 mor' /\
      (lic = true -> mor' = mor ++ [{| debut := p + List.length sp; longueur := List.length (c :: l2 ++ close_nl e); offset := lo |}]) /\
      (lic = false -> forall m0 b, mor = m0 ++ [b] -> mor' = m0 ++ [with_lon b (p + List.length (l ++ close_nl e) - debut b)])).
Proof.
  intros H E B Bc Hc R O OF LO NE. subst l. rewrite <- (app_assoc sp (c :: l2) (tail e r)).
  destruct (nl_blanks sp B ((c :: l2) ++ tail e r) p a s lo lic mor R O) as (s1 & a1 & E1 & R1 & O1). rewrite E1. destruct R1 as (Q1 & Q2 & Q3 & Q4). cbn [app nloop]. unfold nstep at 1. rewrite Q1.
  unfold blank in Bc. rewrite Bc. assert (NC : c <> NL) by (intro Q; apply H; apply in_or_app; right; left; exact Q).
  destruct (N.eqb_spec c NL) as [Q|_]; [congruence|]. destruct (N.eqb_spec c HASH) as [Q|_]; [congruence|]. cbn [bind].
  assert (H2 : ~ In NL l2) by (intro Q; apply H; apply in_or_app; right; right; exact Q).
  set (s2 := {| stt := st_command; tmp := _; last_offset := _; last_is_comment := _; morceau := _ |}).
  destruct (nl_command l2 H2 (tail e r) (Datatypes.S (p + List.length sp)) c s2 eq_refl) as (a2 & E2). rewrite E2.
  set (s3 := {| stt := st_command; tmp := _; last_offset := _; last_is_comment := _; morceau := _ |}).
  set (pe := p + List.length ((sp ++ c :: l2) ++ close_nl e)).
  set (t3 := {| debut := p + List.length sp; longueur := List.length (c :: l2 ++ close_nl e); offset := lo |}).
  assert (FIN : exists s', nend s3 t3 pe = Ok s' /\ exists mor', rdy s' (total mor') false mor' /\ offs 0 mor' /\
      (lic = true -> mor' = mor ++ [t3]) /\ (lic = false -> forall m0 b, mor = m0 ++ [b] -> mor' = m0 ++ [with_lon b (pe - debut b)])).
  { unfold nend, s3, s2. cbn [last_is_comment morceau]. rewrite Q3, Q4. destruct lic.
    - eexists. split; [reflexivity|]. exists (mor ++ [t3]). split; [|split; [|split; [auto|discriminate]]].
      + repeat split. cbn [last_offset]. rewrite total_app. cbn [total t3 offset longueur]. lia.
      + apply offs_app. split; [exact OF|]. cbn. auto.
    - destruct (NE eq_refl) as (m0 & b & -> & Hb). rewrite rev_app_distr. cbn [rev app]. rewrite rev_involutive. eexists. split; [reflexivity|].
      apply offs_app in OF. destruct OF as (OF0 & OB & _). exists (m0 ++ [with_lon b (pe - debut b)]). split; [|split; [|split; [discriminate|]]].
      + repeat split. cbn [last_offset with_lon offset longueur]. rewrite total_app. cbn [total longueur with_lon]. lia.
      + apply offs_app. split; [exact OF0|]. cbn. auto.
      + intros _ m1 b1 EQ. apply app_inj_tail in EQ. destruct EQ as (-> & ->). reflexivity. }
  destruct FIN as (s' & EN & K). destruct e; cbn [tail close_nl fin_line nloop] in *.
  - exists s'. split; [|exact K]. unfold nstep. cbn [stt s3]. rewrite N.eqb_refl. cbn [orb].
    assert (T : with_lon (tmp s3) (S (longueur (tmp s3))) = t3). { unfold s3, s2, t3, with_lon. cbn [tmp debut longueur offset List.length]. rewrite app_length. cbn [List.length]. f_equal; lia. }
    rewrite T. replace (S (S (p + List.length sp) + List.length l2)) with pe by (unfold pe; rewrite !app_length; cbn [List.length]; lia). rewrite EN. reflexivity.
  - exists s'. split; [|exact K]. unfold nstep. cbn [stt s3]. rewrite orb_true_r.
    assert (T : tmp s3 = t3). { unfold s3, s2, t3, with_lon. cbn [tmp debut longueur offset List.length]. rewrite app_nil_r. f_equal; lia. }
    rewrite T. replace (S (p + List.length sp) + List.length l2) with pe by (unfold pe; rewrite !app_length; cbn [List.length]; lia). exact EN.
Qed.

(** the whole text; [pre]: what was read *)
Lemma with_lon_text (f pre x t : list N) b (y : list N) : f = pre ++ x ++ t -> firstn (longueur b) (skipn (debut b) f) ++ y = skipn (debut b) pre -> debut b <= List.length pre ->
  firstn (List.length (pre ++ x) - debut b) (skipn (debut b) f) = firstn (longueur b) (skipn (debut b) f) ++ y ++ x.
Proof.
  intros E H L. rewrite app_assoc, H. rewrite E, skipn_app. replace (debut b - List.length pre) with 0 by lia. cbn [skipn]. rewrite app_assoc, firstn_app, app_length, app_length, skipn_length.
  replace (List.length pre + List.length x - debut b - (List.length pre - debut b + List.length x)) with 0 by lia. cbn [firstn]. rewrite app_nil_r. apply firstn_all2. rewrite app_length, skipn_length. lia.
Qed.
Lemma no_comment_run : forall n f pre t a s lic mor empties, List.length t <= n -> f = pre ++ t -> rdy s (total mor) lic mor -> okc a -> wfm (List.length f) mor ->
  (lic = false -> exists m0 b, mor = m0 ++ [b] /\ debut b <= List.length pre /\ firstn (longueur b) (skipn (debut b) f) ++ empties = skipn (debut b) pre) ->
  exists s', nloop t (List.length pre) a s = Ok s' /\ wfm (List.length f) (morceau s') /\ shown f (morceau s') = shown f mor ++ uncomment lic empties (lines t).
Proof.
  induction n as [n IH] using lt_wf_ind. intros f pre t a s lic mor empties Hn Hf R O W LI.
  (* a line, e: terminated *)
  assert (LINE : forall l e r, t = l ++ tail e r -> ~ In NL l -> (e = false -> l <> []) -> lines t = (l ++ close_nl e) :: (if e then lines r else []) ->
     exists s', nloop t (List.length pre) a s = Ok s' /\ wfm (List.length f) (morceau s') /\ shown f (morceau s') = shown f mor ++ uncomment lic empties (lines t)).
  { intros l e r Et Hl Hne EL. rewrite EL, Et. cbn [uncomment]. rewrite line_kind_app by exact Hl.
    assert (F2 : f = (pre ++ l ++ close_nl e) ++ (if e then r else [])) by (rewrite Hf, Et; destruct e; cbn [tail close_nl]; rewrite <- !app_assoc; cbn [app]; rewrite ?app_nil_r; reflexivity).
    assert (PL : List.length pre + List.length (l ++ close_nl e) = List.length (pre ++ l ++ close_nl e)) by (rewrite (app_length pre); reflexivity).
    assert (LR : e = true -> List.length r < n) by (intros ->; rewrite Et in Hn; cbn [tail] in Hn; rewrite app_length in Hn; cbn in Hn; lia).
    destruct (skip_blank l) as [|c l2] eqn:SB; [|destruct (N.eqb_spec c HASH) as [->|NH]].
    - pose proof (line_empty l e r (List.length pre) a s (total mor) lic mor Hl SB R O) as FL. rewrite PL in FL. destruct e; cbn [fin_line tail close_nl] in *.
      + destruct FL as (s1 & E1 & R1). rewrite E1.
        destruct (IH (List.length r) (LR eq_refl) f _ r NL s1 lic mor (if lic then [] else empties ++ l ++ [NL]) (le_n _) F2 R1 (or_intror eq_refl) W) as (s' & E' & W' & S').
        { intros ->. destruct (LI eq_refl) as (m0 & b & Em & Lb & Tb). exists m0, b. split; [exact Em|]. split; [rewrite app_length; lia|].
          rewrite app_assoc, Tb, skipn_app. replace (debut b - List.length pre) with 0 by lia. reflexivity. }
        exists s'. auto.
      + destruct FL as (s1 & E1 & (_ & _ & _ & M1)). exists s1. rewrite M1. split; [exact E1|]. split; [exact W|]. cbn. rewrite app_nil_r. reflexivity.
    - pose proof (line_comment l e r (List.length pre) a s (total mor) lic mor l2 Hl SB R O) as FL. rewrite PL in FL. destruct e; cbn [fin_line tail close_nl] in *.
      + destruct FL as (s1 & E1 & M1 & R1). rewrite E1.
        destruct (IH (List.length r) (LR eq_refl) f _ r NL s1 true mor [] (le_n _) F2 (R1 eq_refl) (or_intror eq_refl) W) as (s' & E' & W' & S'); [discriminate|].
        exists s'. auto.
      + destruct FL as (s1 & E1 & M1 & _). exists s1. rewrite M1. split; [exact E1|]. split; [exact W|]. cbn. rewrite app_nil_r. reflexivity.
    - destruct (blank_split l) as (sp & l' & El & B & S & SA & HB). rewrite SB in S. subst l'.
      assert (CA : skip_blank (l ++ close_nl e) = c :: l2 ++ close_nl e) by (rewrite SA; reflexivity).
      pose proof (line_command l e r (List.length pre) a s (total mor) lic mor c l2 sp Hl El B HB NH R O (proj2 W) eq_refl) as FL. rewrite PL in FL.
      specialize (FL ltac:(intros Q; destruct (LI Q) as (m0 & b & Em & Lb & _); eauto)).
      (* the pieces after the line *)
      assert (AFTER : forall mor', offs 0 mor' ->
        (lic = true -> mor' = mor ++ [{| debut := List.length pre + List.length sp; longueur := List.length (c :: l2 ++ close_nl e); offset := total mor |}]) ->
        (lic = false -> forall m0 b, mor = m0 ++ [b] -> mor' = m0 ++ [with_lon b (List.length (pre ++ l ++ close_nl e) - debut b)]) ->
        wfm (List.length f) mor' /\ shown f mor' = shown f mor ++ (if lic then c :: l2 ++ close_nl e else empties ++ l ++ close_nl e) /\
        exists m0 b, mor' = m0 ++ [b] /\ debut b <= List.length (pre ++ l ++ close_nl e) /\ firstn (longueur b) (skipn (debut b) f) ++ [] = skipn (debut b) (pre ++ l ++ close_nl e)).
      { intros mor' OF T1 T2. destruct lic.
        - specialize (T1 eq_refl). clear T2. subst mor'. assert (F3 : f = (pre ++ sp) ++ (c :: l2 ++ close_nl e) ++ (if e then r else [])) by (rewrite F2 at 1; rewrite El; repeat (rewrite <- !app_assoc; cbn [app]); reflexivity).
          assert (TX := piece_text f (pre ++ sp) (c :: l2 ++ close_nl e) _ F3). rewrite app_length in TX. split; [|split].
          + split; [|exact OF]. apply Forall_app. split; [apply W|]. constructor; [|constructor]. split; cbn [longueur debut]; [cbn; lia|].
            apply (f_equal (@List.length N)) in F3. rewrite !app_length in F3. lia.
          + rewrite shown_app. f_equal. unfold shown. cbn [map concat longueur debut]. rewrite app_nil_r. exact TX.
          + eexists mor, _. split; [reflexivity|]. cbn [longueur debut]. split; [rewrite El, !app_length; lia|]. rewrite app_nil_r, TX, El.
            rewrite <- (app_length pre sp). replace (pre ++ (sp ++ c :: l2) ++ close_nl e) with ((pre ++ sp) ++ (c :: l2 ++ close_nl e)) by (repeat (rewrite <- !app_assoc; cbn [app]); reflexivity).
            rewrite skipn_app, skipn_all, Nat.sub_diag. reflexivity.
        - destruct (LI eq_refl) as (m0 & b & Em & Lb & Tb). specialize (T2 eq_refl m0 b Em). clear T1. subst mor'.
          assert (F3 : f = pre ++ (l ++ close_nl e) ++ (if e then r else [])) by (rewrite F2 at 1; rewrite <- app_assoc; reflexivity).
          pose proof (with_lon_text f pre (l ++ close_nl e) _ b empties F3 Tb Lb) as TX. pose proof W as [WF _]. rewrite Em in WF. apply Forall_app in WF. destruct WF as (WF & WB). apply Forall_inv in WB. destruct WB as (WB1 & WB2).
          split; [|split].
          + split; [|exact OF]. apply Forall_app. split; [exact WF|]. constructor; [|constructor]. split; cbn [longueur debut with_lon].
            * apply (f_equal (@List.length N)) in Tb. rewrite !app_length, firstn_length, !skipn_length in Tb. rewrite app_length. lia.
            * apply (f_equal (@List.length N)) in F3. rewrite !app_length in F3. rewrite !app_length. lia.
          + rewrite Em, !shown_app, <- app_assoc. f_equal. unfold shown. cbn [map concat longueur debut with_lon]. rewrite !app_nil_r. exact TX.
          + eexists m0, _. split; [reflexivity|]. cbn [longueur debut with_lon]. split; [rewrite app_length; lia|]. rewrite TX, app_nil_r, app_assoc, Tb, skipn_app.
            replace (debut b - List.length pre) with 0 by lia. reflexivity. }
      destruct e; cbn [fin_line tail close_nl] in *.
      + destruct FL as (s1 & E1 & mor' & R1 & OF & T1 & T2). rewrite E1. destruct (AFTER mor' OF T1 T2) as (W1 & S1 & NX).
        destruct (IH (List.length r) (LR eq_refl) f _ r NL s1 false mor' [] (le_n _) F2 R1 (or_intror eq_refl) W1 (fun _ => NX)) as (s' & E' & W' & S').
        exists s'. split; [exact E'|]. split; [exact W'|]. rewrite S', S1, <- app_assoc. f_equal. rewrite CA. destruct lic; reflexivity.
      + destruct FL as (s1 & E1 & mor' & (_ & _ & _ & M1) & OF & T1 & T2). destruct (AFTER mor' OF T1 T2) as (W1 & S1 & _). exists s1. rewrite M1. split; [exact E1|]. split; [exact W1|].
        rewrite S1, CA. cbn [uncomment]. destruct lic; rewrite ?app_nil_r; reflexivity. }
  destruct (line_split t) as [(l & r & Et & Hl)|Hl].
  - apply (LINE l true r); auto; [discriminate|]. rewrite Et. apply lines_nl, Hl.
  - destruct t as [|c0 t0] eqn:Ht.
    + cbn [nloop lines uncomment]. destruct R as (R1 & R2 & R3 & R4). unfold nstep. rewrite R1. rewrite app_nil_r.
      destruct O as [O| ->]; [unfold blank in O; rewrite O|]; (eexists; split; [reflexivity|]; cbn [morceau]; rewrite R4; auto).
    + rewrite <- Ht in *. apply (LINE t false []); auto; [cbn; rewrite app_nil_r; reflexivity|intros _; rewrite Ht; discriminate|].
      cbn [close_nl]. rewrite app_nil_r. apply lines_last; [exact Hl|rewrite Ht; discriminate].
Qed.
Lemma no_comment_ok f : exists m, no_comment f = Ok m /\ wfm (List.length f) m /\ shown f m = uncomment true [] (lines f).
Proof.
  destruct (no_comment_run (List.length f) f [] f SP ninit true [] [] (le_n _) eq_refl) as (s & E & W & S).
  - repeat split.
  - left. reflexivity.
  - split; [constructor|exact I].
  - discriminate.
  - exists (morceau s). unfold no_comment. cbn [List.length] in E. rewrite E. auto.
Qed.

Lemma skipn_skipn {A} x y (l : list A) : skipn x (skipn y l) = skipn (x + y) l.
Proof. revert y. induction l as [|c l IH]; intro y; [rewrite !skipn_nil; reflexivity|]. destruct y; cbn [skipn]; [rewrite Nat.add_0_r; reflexivity|]. rewrite Nat.add_succ_r. apply IH. Qed.
(** ** hide_file *)
(** at position q of what is shown *)
Definition at_pos (m : list partie) (h : hpos) (q : nat) : Prop :=
  (q = total m /\ idx h = List.length m /\ relicat h = 0) \/
  exists m1 p m2, m = m1 ++ p :: m2 /\ idx h = List.length m1 /\ relicat h < longueur p /\ q = total m1 + relicat h.
Lemma total_cons_app m1 p m2 : total (m1 ++ p :: m2) = total m1 + longueur p + total m2.
Proof. rewrite total_app. cbn [total]. lia. Qed.
Lemma hread_one f m h q : wfm (List.length f) m -> at_pos m h q ->
  exists h', hread f m h 1 = Ok (h', firstn 1 (skipn q (shown f m))) /\ at_pos m h' (Nat.min (S q) (total m)).
Proof.
  intros (W & O) [(-> & I & R)|(m1 & p & m2 & -> & I & R & ->)].
  - exists h. unfold hread. cbn [hread_loop Nat.add Nat.ltb Nat.leb negb]. rewrite I. rewrite (proj2 (nth_error_None m (List.length m))) by lia.
    rewrite skipn_all2 by (rewrite shown_len by exact W; lia). split; [reflexivity|]. left. repeat split; auto. lia.
  - unfold hread. cbn [hread_loop Nat.add Nat.ltb Nat.leb negb]. rewrite I, nth_error_app2, Nat.sub_diag by lia. cbn [nth_error].
    pose proof W as W'. apply Forall_app in W'. destruct W' as (W1 & W2). inversion W2 as [|? ? (P1 & P2) W3]; subst.
    replace (Nat.min (longueur p - relicat h) (1 - 0)) with 1 by lia. unfold ref_read.
    assert (X : firstn 1 (skipn (total m1 + relicat h) (shown f (m1 ++ p :: m2))) = firstn 1 (skipn (debut p + relicat h) f)).
    { change (p :: m2) with ([p] ++ m2). rewrite !shown_app. rewrite skipn_app, skipn_all2 by (rewrite shown_len by exact W1; lia). rewrite shown_len by exact W1. cbn [app].
      replace (total m1 + relicat h - total m1) with (relicat h) by lia. unfold shown at 1. cbn [map concat]. rewrite app_nil_r, skipn_app, firstn_length, skipn_length.
      replace (relicat h - Nat.min (longueur p) (List.length f - debut p)) with 0 by lia. cbn [skipn]. rewrite firstn_app.
      rewrite skipn_length, firstn_length, skipn_length. replace (1 - (Nat.min (longueur p) (List.length f - debut p) - relicat h)) with 0 by lia. rewrite firstn_O, app_nil_r.
      rewrite skipn_firstn_comm, firstn_firstn, skipn_skipn. replace (Nat.min 1 (longueur p - relicat h)) with 1 by lia. f_equal. f_equal. lia. }
    rewrite X. set (g := firstn 1 (skipn (debut p + relicat h) f)). assert (LG : List.length g = 1) by (unfold g; rewrite firstn_length, skipn_length; lia). rewrite LG. cbn [Nat.eqb andb Nat.add Nat.ltb Nat.leb negb app].
    eexists. split; [reflexivity|]. rewrite Nat.min_l by (rewrite total_cons_app; lia). destruct (Nat.leb_spec (longueur p) (relicat h + 1)) as [L|L].
    + destruct m2 as [|p' m2].
      * left. cbn [idx relicat]. rewrite total_app, app_length. cbn. lia.
      * right. inversion W3 as [|? ? (P3 & _) _]; subst. exists (m1 ++ [p]), p', m2. rewrite <- app_assoc, app_length, total_app. cbn. repeat split; lia.
    + right. exists m1, p, m2. cbn [idx relicat]. repeat split; auto; lia.
Qed.
Lemma hread_all_run : forall n f m h q fuel, wfm (List.length f) m -> at_pos m h q -> total m - q <= n -> n < fuel -> q <= total m -> hread_all fuel f m h = Ok (skipn q (shown f m)).
Proof.
  induction n as [|n IH]; intros f m h q fuel W A L F Q; destruct fuel as [|fuel]; try lia; cbn [hread_all]; destruct (hread_one f m h q W A) as (h' & E & A'); rewrite E; cbn [bind];
    pose proof (shown_len f m (proj1 W)) as SL.
  - rewrite (skipn_all2 (n := q)) by lia. reflexivity.
  - destruct (Nat.eq_dec q (total m)) as [->|NE]; [rewrite skipn_all2 by lia; reflexivity|].
    destruct (skipn q (shown f m)) as [|c r] eqn:K; [apply (f_equal (@List.length N)) in K; rewrite skipn_length in K; cbn in K; lia|]. cbn [firstn].
    rewrite Nat.min_l in A' by lia. rewrite (IH f m h' (S q) fuel W A') by lia. cbn [bind app]. f_equal. f_equal.
    replace (S q) with (1 + q) by lia. rewrite <- skipn_skipn, K. reflexivity.
Qed.
Lemma at_start n m : wfm n m -> at_pos m {| idx := 0; relicat := 0 |} 0.
Proof.
  intros (W & O). destruct m as [|p m]; [left; auto|]. right. inversion W as [|? ? (P & _) _]; subst. exists [], p, m. cbn. auto.
Qed.
Lemma total_le n m : Forall (wfp n) m -> (forall p, In p m -> longueur p <= n). Proof. intros W p H. rewrite Forall_forall in W. destruct (W p H). lia. Qed.
Lemma hread_all_ok f m fuel : wfm (List.length f) m -> total m < fuel -> hread_all fuel f m {| idx := 0; relicat := 0 |} = Ok (shown f m).
Proof. intros W F. rewrite (hread_all_run (total m) f m _ 0 fuel W (at_start _ _ W)) by lia. reflexivity. Qed.
Lemma hfind_ok : forall m2 m1 p q o, offs o (m1 ++ p :: m2) -> (forall x, In x (m1 ++ p :: m2) -> 0 < longueur x) -> forall i, o + total m1 <= q < o + total m1 + longueur p -> hfind (m1 ++ p :: m2) i q = Some (i + List.length m1, p).
Proof.
  intros m2 m1. induction m1 as [|x m1 IH]; intros p q o O P i H; cbn [app hfind List.length total offs] in *.
  - destruct O as (O & _). pose proof (P p (or_introl eq_refl)). destruct (Nat.ltb_spec (offset p + longueur p - 1) q); [lia|]. rewrite Nat.add_0_r. reflexivity.
  - destruct O as (O & O'). pose proof (P x (or_introl eq_refl)). destruct (Nat.ltb_spec (offset x + longueur x - 1) q); [|lia].
    rewrite (IH p q _ O') by (try (intros y Y; apply P; right; exact Y); lia). f_equal. f_equal. lia.
Qed.
Lemma locate : forall m q, q < total m -> exists m1 p m2, m = m1 ++ p :: m2 /\ total m1 <= q < total m1 + longueur p.
Proof.
  induction m as [|x m IH]; intros q H; cbn [total] in H; [lia|]. destruct (Nat.lt_ge_cases q (longueur x)) as [L|L]; [exists [], x, m; cbn; split; [reflexivity|lia]|].
  destruct (IH (q - longueur x)) as (m1 & p & m2 & -> & K); [lia|]. exists (x :: m1), p, m2. cbn. split; [reflexivity|lia].
Qed.
Lemma hskip_ok n m h q : wfm n m -> q < total m -> exists h', hskip m h q = Ok (h', true) /\ at_pos m h' q.
Proof.
  intros (W & O) H. destruct (locate m q H) as (m1 & p & m2 & E & K). unfold hskip. rewrite E in *. rewrite (hfind_ok m2 m1 p q 0 O); [|rewrite Forall_forall in W; intros x I; apply (W x I)|lia].
  apply offs_app in O. destruct O as (_ & O & _). destruct (Nat.ltb_spec q (offset p)); [lia|]. eexists. split; [reflexivity|]. right. exists m1, p, m2. cbn. repeat split; auto; lia.
Qed.
Lemma offs_last : forall m o, offs o m -> match rev m with [] => m = [] | p :: _ => offset p + longueur p = o + total m end.
Proof.
  intros m o O. destruct (rev m) as [|p r] eqn:E; [apply (f_equal (@rev partie)) in E; rewrite rev_involutive in E; exact E|].
  assert (M : m = rev r ++ [p]) by (rewrite <- (rev_involutive m), E; reflexivity). rewrite M in *. apply offs_app in O. destruct O as (_ & O & _). rewrite total_app. cbn [total]. lia.
Qed.
Lemma hposition_ok n m h q : wfm n m -> at_pos m h q -> hposition m h = q.
Proof.
  intros (W & O) [(-> & I & R)|(m1 & p & m2 & -> & I & R & ->)]; unfold hposition; rewrite I.
  - rewrite (proj2 (nth_error_None m (List.length m))) by lia. pose proof (offs_last m 0 O) as L. destruct (rev m) as [|p r]; [rewrite L; reflexivity|]. lia.
  - rewrite nth_error_app2, Nat.sub_diag by lia. cbn [nth_error]. apply offs_app in O. destruct O as (_ & O & _). lia.
Qed.
