(** * Proofs about the escape layer: the stream format, writing sessions. *)
From Verif Require Import Base FileModel EscapeModel EscapeProof EscapeSpec.
Open Scope nat_scope.

Lemma starts_cmp : forall s0 l, starts s0 l = true <-> cmp5 s0 l = Full.
Proof.
  intros s0 l. unfold cmp5. rewrite cmp_full. split.
  - destruct l as [|a [|b [|c [|d [|e r]]]]]; cbn [starts]; try discriminate. intro H.
    rewrite !andb_true_iff, !N.eqb_eq in H. destruct H as ((((-> & ->) & ->) & ->) & ->). exists r. reflexivity.
  - intros (r & ->). cbn. rewrite N.eqb_refl. reflexivity.
Qed.
Lemma starts_fixed : forall s0 l, starts s0 (fixed s0 ++ l) = true.
Proof. intros. apply starts_cmp. apply cmp_full. eauto. Qed.

Lemma parse_fuel : forall f1 f2 s0 l, length l <= f1 -> length l <= f2 -> parse_f f1 s0 l = parse_f f2 s0 l.
Proof.
  induction f1 as [|f1 IH]; intros [|f2] s0 [|b r] H1 H2; cbn [length] in *; try lia; auto.
  cbn [parse_f].
  rewrite (IH f2 s0 (skipn 6 (b :: r))), (IH f2 s0 r) by (try lia; rewrite skipn_length; cbn [length]; lia). reflexivity.
Qed.
Lemma parse_nil : forall s0, parse s0 [] = [].
Proof. reflexivity. Qed.
Lemma parse_data : forall s0 b r, cmp5 s0 (b :: r) <> Full -> parse s0 (b :: r) = D b :: parse s0 r.
Proof.
  intros s0 b r H. unfold parse. cbn [length parse_f].
  destruct (starts s0 (b :: r)) eqn:E; [apply starts_cmp in E; congruence|reflexivity].
Qed.
Lemma parse_seq : forall s0 c r, parse s0 (fixed s0 ++ c :: r) =
  match char2type c with
  | Ok seqt_not_a_sequence => map D (fixed s0) ++ parse s0 r
  | Ok t => M t :: parse s0 r
  | Err _ => [Bad]
  end.
Proof.
  intros s0 c r. unfold parse at 1. destruct (length (fixed s0 ++ c :: r)) as [|n] eqn:E; [discriminate|].
  cbn [parse_f]. destruct (fixed s0 ++ c :: r) as [|b q] eqn:E1; [discriminate|]. rewrite <- E1.
  rewrite starts_fixed. change (nth_error (fixed s0 ++ c :: r) 5) with (Some c).
  change (skipn 6 (fixed s0 ++ c :: r)) with r. cbn iota.
  assert (parse_f n s0 r = parse s0 r) as ->; [|reflexivity].
  apply parse_fuel; [|lia]. rewrite <- E1, app_length in E. cbn [fixed length] in E. lia.
Qed.
Lemma char2type_type2char : forall t, char2type (type2char t) = Ok t.
Proof. intros []; reflexivity. Qed.
Lemma char2type_inv : forall c t, char2type c = Ok t -> c = type2char t.
Proof.
  intros c t H. unfold char2type in H.
  repeat match goal with
  | H : (if (c =? ?k)%N then _ else _) = _ |- _ => destruct (N.eqb_spec c k) as [->|?]; [injection H as <-; reflexivity|]
  end. discriminate.
Qed.
Lemma parse_mark : forall s0 t r, t <> seqt_not_a_sequence -> parse s0 (fixed s0 ++ type2char t :: r) = M t :: parse s0 r.
Proof. intros s0 t r H. rewrite parse_seq, char2type_type2char. destruct t; congruence. Qed.
Lemma parse_X : forall s0 r, parse s0 (fixed s0 ++ X :: r) = map D (fixed s0) ++ parse s0 r.
Proof. intros. rewrite parse_seq. reflexivity. Qed.

(** bytes before a possible start of the sequence are data, whatever follows *)
Lemma parse_find : forall s0 a v, parse s0 (a ++ v) = map D (firstn (find s0 a) a) ++ parse s0 (skipn (find s0 a) a ++ v).
Proof.
  intros s0 a v. induction a as [|b r IH]; cbn [find]; [reflexivity|].
  destruct (cmp5 s0 (b :: r)) eqn:C; cbn [firstn skipn map app]; auto.
  rewrite parse_data.
  - rewrite IH. reflexivity.
  - change (b :: r ++ v) with ((b :: r) ++ v). unfold cmp5. rewrite cmp_mismatch_app by exact C. discriminate.
Qed.
Lemma parse_short : forall s0 l, s0_ok s0 -> length l <= 5 -> parse s0 l = map D l.
Proof.
  intros s0 l (H1 & H2 & H3 & H4). 
  assert (G : forall l, length l <= 4 -> parse s0 l = map D l).
  { induction l0 as [|b r IH]; intro H; [reflexivity|]. rewrite parse_data.
    - rewrite IH; [reflexivity|cbn in H; lia].
    - intro C. apply cmp_full in C. destruct C as (q & E). rewrite E, app_length in H. cbn in H. lia. }
  intro H. destruct l as [|b r]; [reflexivity|].
  destruct (starts s0 (b :: r)) eqn:E.
  - unfold parse. cbn [length parse_f]. rewrite E. destruct (nth_error (b :: r) 5) eqn:E5.
    + assert (nth_error (b :: r) 5 <> None) by congruence. apply nth_error_Some in H0. lia.
    + fold (parse s0 r). rewrite G; [reflexivity|cbn in H; lia].
  - rewrite parse_data by (intro C; apply starts_cmp in C; congruence). rewrite G; [reflexivity|cbn in H; lia].
Qed.

(** ** the escaped data parse to the data *)
Definition head_ok (s0 : N) (rest : list N) : Prop := rest = [] \/ exists q, rest = s0 :: q.

Lemma enc_head : forall s0 p r rest q, s0_ok s0 -> ~ In s0 p -> head_ok s0 rest ->
  enc s0 r ++ rest = p ++ q -> exists r', r = p ++ r'.
Proof.
  intros s0 p. induction p as [|x p IH]; intros r rest q Hs Hn Hr E; [exists r; reflexivity|].
  destruct r as [|b r].
  - exfalso. rewrite enc_nil in E. cbn [app] in E. destruct Hr as [->|(q' & ->)]; [discriminate|].
    injection E as -> _. apply Hn. left. reflexivity.
  - destruct (cmp5 s0 (b :: r)) eqn:C.
    + exfalso. apply cmp_full in C. destruct C as (z & C). rewrite C, enc_full in E.
      cbn in E. injection E as -> _. apply Hn. left; reflexivity.
    + rewrite enc_cons in E by congruence. cbn [app] in E. injection E as -> E.
      destruct (IH r rest q) as (r' & ->); auto; [intro; apply Hn; right; auto|]. exists r'. reflexivity.
    + rewrite enc_cons in E by congruence. cbn [app] in E. injection E as -> E.
      destruct (IH r rest q) as (r' & ->); auto; [intro; apply Hn; right; auto|]. exists r'. reflexivity.
Qed.
Lemma parse_enc_aux : forall n s0 d rest, length d <= n -> s0_ok s0 -> head_ok s0 rest ->
  parse s0 (enc s0 d ++ rest) = map D d ++ parse s0 rest.
Proof.
  induction n as [|n IH]; intros s0 d rest Hl Hs Hr.
  - destruct d; [reflexivity|cbn in Hl; lia].
  - destruct d as [|b r]; [reflexivity|].
    destruct (starts s0 (b :: r)) eqn:C.
    + apply starts_cmp, cmp_full in C. destruct C as (z & C). rewrite C, enc_full, <- !app_assoc. cbn [app].
      change (s0 :: 253%N :: 234%N :: 119%N :: 33%N :: X :: enc s0 z ++ rest) with (fixed s0 ++ X :: (enc s0 z ++ rest)).
      rewrite parse_X, IH; auto.
      apply (f_equal (@length N)) in C. rewrite app_length in C. cbn [length fixed] in *. lia.
    + assert (Hnf : cmp5 s0 (b :: r) <> Full) by (intro Q; apply starts_cmp in Q; congruence).
      rewrite enc_cons by exact Hnf. cbn [app map]. rewrite parse_data.
      * rewrite IH; auto. cbn [length] in Hl. lia.
      * intro Q. apply cmp_full in Q. destruct Q as (q & Q). cbn [fixed app] in Q. injection Q as -> Q.
        destruct Hs as (H1 & H2 & H3 & H4).
        destruct (enc_head s0 [253; 234; 119; 33]%N r rest q) as (r' & ->); [split; auto| |auto|exact Q|].
        { cbn. intros [X|[X|[X|[X|[]]]]]; congruence. }
        apply Hnf. apply cmp_full. exists r'. reflexivity.
Qed.
Lemma parse_enc : forall s0 d rest, s0_ok s0 -> head_ok s0 rest ->
  parse s0 (enc s0 d ++ rest) = map D d ++ parse s0 rest.
Proof. intros. apply (parse_enc_aux (length d)); auto. Qed.

(** ** writing sessions *)
(** syncs are allowed where no data follows directly *)
Fixpoint sync_ok (ops : list wop) : Prop :=
  match ops with
  | [] => True
  | OpSync :: r => (match r with OpWrite _ :: _ => False | _ => True end) /\ sync_ok r
  | _ :: r => sync_ok r
  end.
Definition no_X (ops : list wop) : Prop := ~ In (OpMark seqt_not_a_sequence) ops.

Definition winv (s0 : N) (pre base : list N) (its : list item) (data : list N) (w : wesc) : Prop :=
  wstate s0 (pre ++ base) data w /\ forall rest, parse s0 (base ++ rest) = its ++ parse s0 rest.
Definition finv (s0 : N) (pre base : list N) (its : list item) (data : list N) (w : wesc) : Prop :=
  at_eof (w_below w) /\ w_buf w = [] /\ fdata (w_below w) = pre ++ base ++ enc s0 data /\
  forall rest, parse s0 (base ++ rest) = its ++ parse s0 rest.

Lemma flush_inv : forall s0 pre base its data w, winv s0 pre base its data w -> finv s0 pre base its data (esc_flush w).
Proof.
  intros s0 pre base its data w ((He & Hl & out & Ho & Hv) & Hp). unfold esc_flush.
  destruct (g_write_eof (w_below w) (w_buf w) He) as [D E].
  split; [exact E|]. split; [reflexivity|]. split; [|exact Hp]. cbn [w_below]. rewrite D, Ho.
  specialize (Hv []). rewrite !app_nil_r in Hv. rewrite Hv, (enc_short s0 (w_buf w)), <- !app_assoc by auto. reflexivity.
Qed.
Lemma flush_inv2 : forall s0 pre base its data w, finv s0 pre base its data w -> finv s0 pre base its data (esc_flush w).
Proof.
  intros s0 pre base its data w (He & Hb & Ho & Hp). unfold esc_flush. rewrite Hb. cbn [g_write].
  repeat split; auto.
Qed.
Lemma mark_inv : forall s0 pre base its data w t, s0_ok s0 -> t <> seqt_not_a_sequence -> finv s0 pre base its data (esc_flush w) ->
  exists w', esc_mark s0 t w = Ok w' /\
    winv s0 pre (base ++ enc s0 data ++ fixed s0 ++ [type2char t]) (its ++ map D data ++ [M t]) [] w'.
Proof.
  intros s0 pre base its data w t Hs Ht (He & Hb & Ho & Hp). unfold esc_mark.
  unfold seqt_eqb. destruct (seqt_eq_dec t seqt_not_a_sequence); [congruence|].
  eexists. split; [reflexivity|].
  destruct (g_write_eof (w_below (esc_flush w)) (fixed s0 ++ [type2char t]) He) as [D E].
  split; [split; [exact E|]; split|].
  - cbn. lia.
  - exists []. split; [|reflexivity]. cbn [w_below]. rewrite D, Ho, !app_nil_r, <- !app_assoc. reflexivity.
  - intro rest. rewrite <- app_assoc, Hp, <- !app_assoc. rewrite parse_enc; auto.
    + cbn [app]. change (s0 :: 253%N :: 234%N :: 119%N :: 33%N :: type2char t :: rest) with (fixed s0 ++ type2char t :: rest).
      rewrite parse_mark by auto. rewrite ?app_nil_r, <- ?app_assoc. reflexivity.
    + right. cbn. eauto.
Qed.

Lemma w_run_inv : forall s0 pre ops, s0_ok s0 -> sync_ok ops -> no_X ops -> forall base its data w,
  (winv s0 pre base its data w \/ (finv s0 pre base its data w /\ match ops with OpWrite _ :: _ => False | _ => True end)) ->
  exists w' base' its' data', w_run s0 ops w = Ok w' /\ finv s0 pre base' its' data' (esc_flush w') /\
    its' ++ map D data' = its ++ map D data ++ items_of ops.
Proof.
  intros s0 pre ops Hs. induction ops as [|o ops IH]; intros Hy Hx base its data w Hw.
  - exists w, base, its, data. cbn [w_run items_of]. rewrite app_nil_r. split; [reflexivity|]. split; [|reflexivity].
    destruct Hw as [Hw|[Hw _]]; [apply flush_inv|apply flush_inv2]; auto.
  - assert (Hx' : no_X ops) by (intro Q; apply Hx; right; exact Q).
    destruct o as [a|t|]; cbn [w_run].
    + destruct Hw as [[Hw Hp]|[_ []]].
      destruct (esc_write_spec s0 a w (pre ++ base) data Hw) as (w1 & E & Hw1). rewrite E. cbn [bind].
      destruct (IH Hy Hx' base its (data ++ a) w1) as (w' & base' & its' & data' & E' & F & I); [left; split; auto|].
      exists w', base', its', data'. split; [exact E'|]. split; [exact F|]. rewrite I, map_app, <- app_assoc. reflexivity.
    + assert (Ht : t <> seqt_not_a_sequence) by (intros ->; apply Hx; left; reflexivity).
      assert (F : finv s0 pre base its data (esc_flush w)) by (destruct Hw as [Hw|[Hw _]]; [apply flush_inv|apply flush_inv2]; auto).
      destruct (mark_inv s0 pre base its data w t Hs Ht F) as (w1 & E & Hw1). rewrite E. cbn [bind].
      destruct (IH Hy Hx' _ _ _ w1 (or_introl Hw1)) as (w' & base' & its' & data' & E' & F' & I).
      exists w', base', its', data'. split; [exact E'|]. split; [exact F'|]. rewrite I, <- !app_assoc. reflexivity.
    + cbn [sync_ok] in Hy. destruct Hy as [Hn Hy].
      assert (F : finv s0 pre base its data (esc_flush w)) by (destruct Hw as [Hw|[Hw _]]; [apply flush_inv|apply flush_inv2]; auto).
      apply (IH Hy Hx' base its data (esc_flush w)). right. split; auto.
Qed.

Theorem session_spec : forall s0 ops f, s0_ok s0 -> sync_ok ops -> no_X ops -> at_eof f ->
  exists f' body, w_session s0 ops f = Ok f' /\ fdata f' = fdata f ++ body /\ at_eof f' /\ parse s0 body = items_of ops.
Proof.
  intros s0 ops f Hs Hy Hx He.
  destruct (w_run_inv s0 (fdata f) ops Hs Hy Hx [] [] [] (w_new f)) as (w & base & its & data & E & (F1 & F2 & F3 & F4) & I).
  - left. split; [|reflexivity]. split; [exact He|]. split; [cbn; lia|]. exists []. rewrite !app_nil_r. split; [reflexivity|]. reflexivity.
  - unfold w_session. rewrite E. cbn [bind]. exists (w_below (esc_flush w)), (base ++ enc s0 data).
    split; [reflexivity|]. split; [exact F3|]. split; [exact F1|].
    rewrite F4, <- (app_nil_r (enc s0 data)), parse_enc; auto; [|left; reflexivity].
    rewrite parse_nil, app_nil_r. exact I.
Qed.
