From Coq Require Import List.
From Verif Require Import Base InfinintModel InfinintProof InfinintProof2 CrcModel CrcProof PropCrc DatetimeModel HeaderModel HeaderProof2 PathModel PropPath EscapeModel EscapeSpec EscapeProof4.
From Verif Require Import ReadStable CatModel CatSpec CatProof CatProof2 CatProof3 PropCatalogue SeqModel SeqSpec SeqProof SeqProof2 SeqProof3 SeqProof4 SeqProof5 SeqProof6 SeqProof7.
Import ListNotations.
Open Scope N_scope.

(** ** nothing more to read *)
Lemma nf_none : forall d, next_file (map D d) = (false, []).
Proof. intro d. rewrite <- (app_nil_r (map D d)), nf_D. reflexivity. Qed.
Lemma run_stop : forall n lax algo cov s its, next_file its = (false, []) -> exists f, run n lax algo cov s its = ([], f) /\ unfinished lax f.
Proof.
  intros [|n] lax algo cov s its H; [eexists; split; [reflexivity|right; eauto]|]. cbn [run]. unfold next_file in H. rewrite H. cbn [negb]. eexists. split; [reflexivity|].
  unfold finish. destruct (length (s_stack s) <? s_depth s)%nat; [right; eauto|]. cbn [search]. destruct lax; [left; auto|right; eauto].
Qed.
Lemma db_all : forall p, data_before (map D p) = p.
Proof. intro p. rewrite <- (app_nil_r (map D p)), db_D. cbn [data_before]. apply app_nil_r. Qed.
Lemma ad_all : forall p, after_data (map D p) = [].
Proof. intro p. rewrite <- (app_nil_r (map D p)), ad_D. reflexivity. Qed.
Lemma run_header_cut : forall n lax algo cov s h x co' p q, (forall rest, small_read algo (s_co s) (h ++ rest) = Ok (Some (x, co', rest))) -> h = p ++ q -> q <> [] ->
  exists f, run n lax algo cov s (M seqt_file :: map D p) = ([], f) /\ unfinished lax f.
Proof.
  intros [|n] lax algo cov s h x co' p q R E Q; [eexists; split; [reflexivity|right; eauto]|]. cbn [run]. fold (next_file (M seqt_file :: map D p)). rewrite nf_file. cbn [negb]. rewrite db_all, ad_all.
  pose proof (small_cut algo (s_co s) h x co' p q R E Q) as NS. destruct (small_read algo (s_co s) p) as [[y|]|e].
  - exfalso. eapply NS. reflexivity.
  - unfold next_failed. destruct (skipn 1 p); (eexists; split; [reflexivity|right; eauto]).
  - destruct (lax && erange e); [apply run_stop, nf_none|eexists; split; [reflexivity|right; eauto]].
Qed.
Lemma failed_last : forall st done r t t1 t2, tail_items st done r = Ok t -> t = t1 ++ t2 -> t2 <> [] -> ~ In (M seqt_failed_backup) t1.
Proof.
  intros st done r t t1 t2 H E N I. 
  assert (WM : forall w a t0, wasted_items w = Ok a -> In (M t0) a -> t0 = seqt_file_crc \/ t0 = seqt_changed).
  { induction w as [|c w IH]; intros a t0 Ha I0; cbn [wasted_items] in Ha; [injection Ha as <-; contradiction|].
    destruct (copy_dump c) as (k & _ & Ec). rewrite Ec in Ha. cbn [bind] in Ha. destruct (wasted_items w) as [aw|]; [|discriminate]. injection Ha as <-.
    rewrite <- app_assoc in I0. apply marks_D in I0. destruct I0 as [I0|I0]; [left; congruence|]. apply marks_D in I0. destruct I0 as [I0|I0]; [right; congruence|]. eauto. }
  assert (CM : forall c a t0, copy_items c = Ok a -> In (M t0) a -> t0 = seqt_file_crc).
  { intros c a t0 Ha I0. destruct (copy_dump c) as (k & _ & Ec). rewrite Ec in Ha. injection Ha as <-. apply marks_D in I0. destruct I0 as [I0|I0]; [congruence|]. apply in_map_iff in I0 as (y & Ey & _). discriminate. }
  assert (IT : In (M seqt_failed_backup) t) by (rewrite E; apply in_or_app; left; exact I).
  unfold tail_items in H. destruct (r_body r) as [|w|w d|w la dy].
  - destruct (written st done (r_entry r)) as [i|]; [|injection H as <-; contradiction]. destruct (ea_items i (r_ea r)) as [x|] eqn:Ex; [|discriminate]. injection H as <-.
    apply in_app_or in IT as [IT|IT]; [apply sig_marks in IT|destruct (ea_marks _ _ _ _ Ex IT)]; discriminate.
  - destruct (wasted_items w) as [a|] eqn:Ew; [|discriminate]. cbn [bind] in H. injection H as <-. destruct (split_at _ _ _ _ _ (eq_sym E) N) as [(u & U & E1 & E2)|(u & E1 & E2)].
    + assert (IA : In (M seqt_failed_backup) a) by (rewrite E1; apply in_or_app; left; exact I). destruct (WM _ _ _ Ew IA); discriminate.
    + assert (u = []) as -> by (destruct u as [|? [|]]; cbn [app] in E2; [reflexivity|injection E2 as <- E2; congruence|discriminate]). rewrite app_nil_r in E1. subst t1. destruct (WM _ _ _ Ew I); discriminate.
  - destruct (wasted_items w) as [a|] eqn:Ew; [|discriminate]. cbn [bind] in H. injection H as <-. apply in_app_or in IT as [IT|IT]; [destruct (WM _ _ _ Ew IT); discriminate|].
    apply in_map_iff in IT as (y & Ey & _). discriminate.
  - destruct (written st done (r_entry r)) as [i|]; [|discriminate]. destruct (wasted_items w) as [a|] eqn:Ew; [|discriminate]. destruct (copy_items la) as [l0|] eqn:El; [|discriminate]. destruct (ea_items i (r_ea r)) as [x|] eqn:Ex; [|discriminate].
    cbn [bind] in H. injection H as <-. apply in_app_or in IT as [IT|IT]; [destruct (WM _ _ _ Ew IT); discriminate|].
    apply in_app_or in IT as [IT|IT]; [discriminate (CM _ _ _ El IT)|]. apply in_app_or in IT as [IT|IT]; [destruct dy; [destruct IT as [IT|[]]; discriminate|contradiction]|].
    apply in_app_or in IT as [IT|IT]; [apply sig_marks in IT|destruct (ea_marks _ _ _ _ Ex IT)]; discriminate.
Qed.
Lemma not_failed_cut : forall l, ~ In (M seqt_failed_backup) l -> next_failed (data_before l) (after_data l) = false.
Proof.
  intros l H. unfold next_failed. destruct (data_before l); [|reflexivity]. destruct (after_data l) as [|[|[]|] l0] eqn:E; try reflexivity. exfalso. apply H, marks_after. rewrite E. left. reflexivity.
Qed.

(** ** the event being recorded when the archive stopped *)
Lemma run_event_cut : forall st algo cov lax n p s ev x y j, distinct_sets st -> rel st p s -> match ev with Eput r => rec_ok st (fst (fst p)) r | Eend => True end ->
  event_items st (fst (fst p)) ev = Ok (x ++ y) -> y <> [] -> junk_ok y j ->
  exists more f, run (S n) lax algo cov s (x ++ map D j) = (more, f) /\ unfinished lax f /\ in_progress st cov p ev (length x) more.
Proof.
  intros st algo cov lax n [[done at_] skip] s ev x y j HD HR HO HE N J. cbn [fst] in *. destruct ev as [r|]; cbn [event_items] in HE.
  - pose proof HR as (HI & Hdep & Hwait & Hst & Hr1 & Hr2).
    destruct (header_read st algo done (s_co s) r HD HI HO) as (h & e' & co' & Dh & Rh & I' & Sh & Std).
    destruct (tail_dumped st done r HO) as (t & Et). unfold rec_items in HE. rewrite Dh, Et in HE. cbn [bind] in HE. injection HE as HE.
    cbn [in_progress]. destruct x as [|m x].
    { destruct (run_stop (S n) lax algo cov s (map D j) (nf_none j)) as (f & E & U). exists [], f. split; [exact E|]. split; [exact U|]. exists h. split; [exact Dh|]. reflexivity. }
    cbn [app] in HE. injection HE as <- HE. destruct (split_at _ _ _ _ _ (eq_sym HE) N) as [(z & Z & E1 & E2)|(z & E1 & E2)].
    + (* within the header *)
      destruct (map_D_split _ _ _ E1) as (p & q & -> & -> & ->). assert (Q : q <> []) by (intros ->; apply Z; reflexivity).
      assert (J0 : j = []) by (subst y; destruct q; [contradiction|exact J]). subst j. cbn [map]. rewrite app_nil_r.
      destruct (run_header_cut (S n) lax algo cov s (p ++ q) (Some e') co' p q Rh eq_refl Q) as (f & E & U). exists [], f. split; [exact E|]. split; [exact U|]. exists (p ++ q). split; [exact Dh|].
      cbn [length]. rewrite map_length. destruct (Nat.leb_spec (S (length p)) (length (p ++ q))) as [|G]; [reflexivity|]. rewrite app_length in G. destruct q; [contradiction|]. cbn [length] in G. lia.
    + subst x. assert (NH : (length (M seqt_file :: map D h ++ z) <=? length h)%nat = false) by (apply Nat.leb_gt; cbn [length]; rewrite app_length, map_length; lia).
      cbn [run app]. rewrite <- app_assoc. fold (next_file (M seqt_file :: map D h ++ z ++ map D j)). rewrite nf_file. cbn [negb]. rewrite db_D, Rh, ad_D.
      pose proof (failed_last _ _ _ _ _ _ Et E2 N) as FL.
      rewrite not_failed_cut by (intro I; apply in_app_or in I as [I|I]; [auto|apply in_map_iff in I as (u & Eu & _); discriminate]).
      rewrite split_data. destruct Std as (Hname & Hdir & Std0). pose proof (conj Hname (conj Hdir Std0)) as Std. rewrite Hdir.
      assert (IT : inner_items z) by (pose proof (inner_tail st done r t Et) as IT; rewrite E2 in IT; apply inner_app in IT as [IT _]; exact IT).
      assert (NF : next_file (z ++ map D j) = (false, [])) by (rewrite (nf_inner z _ IT); apply nf_none).
      destruct skip as [|skip].
      * assert (W : (0 <? s_wait s)%nat = false) by (rewrite Hwait; reflexivity). rewrite W. rewrite Hname, Hst.
        destruct (cov (name_of (r_entry r) :: at_) (opens (r_entry r))) eqn:EC.
        -- pose proof (entry_cut st done (s_co s) co' r e' t z y j HD HI HO Et Std E2 N J) as PC. pose proof (nf_restore (s_co s) co' e' (z ++ map D j)) as NR.
           destruct (restore_entry (s_co s) co' e' (z ++ map D j)) as [o its]. cbn [fst snd] in PC, NR. rewrite NF in NR.
           match goal with |- context[run n lax algo cov ?s0 its] => destruct (run_stop n lax algo cov s0 its NR) as (f & E & U); rewrite E end.
           rewrite Sh. unfold cons_line.
           assert (X : exists f', (match o with Ohang => ([], Fexn Fuel) | Oundef => ([], Fexn UB) | _ => (@nil line, f) end) = ([], f') /\ unfinished lax f').
           { destruct o; (eexists; split; [reflexivity|]); try exact U; right; eauto. }
           destruct X as (f' & X & U'). rewrite X. exists [Line (name_of (r_entry r) :: at_) (expected true st (r_entry r)) o], f'. split; [reflexivity|]. split; [exact U'|].
           exists h. split; [exact Dh|]. rewrite NH. cbn zeta. rewrite ?EC. eauto.
        -- match goal with |- context[run n lax algo cov ?s0 _] => destruct (run_stop n lax algo cov s0 _ NF) as (f & E & U); rewrite E end.
           rewrite Sh. eexists _, f. split; [reflexivity|]. split; [exact U|]. exists h. split; [exact Dh|]. rewrite NH. cbn zeta. rewrite ?EC. eauto.
      * assert (W : (0 <? s_wait s)%nat = true) by (rewrite Hwait; reflexivity). rewrite W.
        assert (W2 : ((if opens (r_entry r) then S (s_depth s) else s_depth s) <? s_wait s)%nat = false) by (apply Nat.ltb_ge; destruct (opens (r_entry r)); lia). rewrite W2.
        match goal with |- context[run n lax algo cov ?s0 _] => destruct (run_stop n lax algo cov s0 _ NF) as (f & E & U); rewrite E end.
        exists [], f. split; [reflexivity|]. split; [exact U|]. exists h. split; [exact Dh|]. rewrite NH. reflexivity.
  - destruct (eod_small algo (s_co s)) as (b & Eb & Rb). rewrite HE in Eb. injection Eb as Eb. cbn [in_progress]. destruct x as [|m x]; cbn [app] in Eb.
    + destruct (run_stop (S n) lax algo cov s (map D j) (nf_none j)) as (f & E & U). exists [], f. auto.
    + injection Eb as -> Eb. symmetry in Eb. destruct (map_D_split _ _ _ Eb) as (p & q & -> & -> & ->). assert (Q : q <> []) by (intros ->; apply N; reflexivity).
      assert (J0 : j = []) by (destruct q; [contradiction|exact J]). subst j. cbn [map app]. rewrite app_nil_r.
      destruct (run_header_cut (S n) lax algo cov s (p ++ q) None (s_co s) p q Rb eq_refl Q) as (f & E & U). exists [], f. auto.
Qed.
