(** * Properties C11 and C12: the escape layer gives back the data and the marks it was given.

    The specification is EscapeSpec.v: [items_of ops] is what was written, [search] what a search of mark must do. *)
From Verif Require Import Base FileModel EscapeModel EscapeSpec EscapeProof EscapeProof2 EscapeProof3 EscapeProof4.
Open Scope nat_scope.

(** a client of the reading side *)
Inductive rop := RRead (n : nat) | RSkip (t : seqt) (jump : bool) (unjumpable : list seqt).
Inductive rres := RData (d : list N) | RFound (b : bool).
Fixpoint r_run (s0 : N) (ops : list rop) (r : resc) : res (list rres * resc) :=
  match ops with
  | [] => Ok ([], r)
  | RRead n :: q => let* '(d, r) := read s0 n r in let* '(l, r) := r_run s0 q r in Ok (RData d :: l, r)
  | RSkip t j u :: q => let* '(b, r) := skip_to_next_mark s0 t j u r in let* '(l, r) := r_run s0 q r in Ok (RFound b :: l, r)
  end.

(** what each operation must answer when [its] is left to read, and what is left afterwards *)
Definition step_ok (s0 : N) (its : list item) (o : rop) (a : rres) (its' : list item) : Prop :=
  match o, a with
  | RRead n, RData d =>
    its = map D d ++ its' /\ length d <= n /\
    (* a short read: end of stream, a mark comes next, or the very end of the stream is a start of the fixed sequence *)
    (length d < n -> its' = [] \/ (exists t r, its' = M t :: r) \/
                     (exists p q, p <> [] /\ fixed s0 = p ++ q /\ its' = map D p))
  | RSkip t j u, RFound b =>
    b = fst (search t j u its) /\ (b = true -> its' = snd (search t j u its)) /\
    (b = false -> exists ds, its' = map D ds ++ snd (search t j u its))
  | _, _ => False
  end.
Fixpoint run_ok (s0 : N) (its : list item) (ops : list rop) (l : list rres) : Prop :=
  match ops, l with
  | [], [] => True
  | o :: ops, a :: l => exists its', step_ok s0 its o a its' /\ run_ok s0 its' ops l
  | _, _ => False
  end.

(** the two values used by libdar (escape.hpp:54-55) *)
Definition s0_normal : N := 173.
Definition s0_sparse : N := 174.
Lemma s0_ok_both : s0_ok s0_normal /\ s0_ok s0_sparse.
Proof. unfold s0_ok, s0_normal, s0_sparse. lia. Qed.

Lemma r_run_spec : forall s0 ops r, s0_ok s0 -> rinv s0 r -> ~ In Bad (abs s0 r) ->
  exists l r', r_run s0 ops r = Ok (l, r') /\ run_ok s0 (abs s0 r) ops l.
Proof.
  intros s0 ops. induction ops as [|o ops IH]; intros r Hs Hi Hb; cbn [r_run].
  - exists [], r. split; [reflexivity|exact I].
  - destruct o as [n|t j u].
    + destruct (read_spec s0 n r Hs Hi Hb) as (ds & r1 & -> & I1 & A1 & L1 & S1). cbn [bind].
      destruct (IH r1 Hs I1) as (l & r2 & -> & R); [rewrite A1 in Hb; apply bad_app in Hb; exact Hb|]. cbn [bind].
      exists (RData ds :: l), r2. split; [reflexivity|]. exists (abs s0 r1). split; [|exact R].
      split; [exact A1|]. split; [exact L1|]. intro Q. destruct (S1 Q) as [E|[E|(p & q & E1 & E2 & E3 & _)]]; auto.
      right; right. exists p, q. auto.
    + destruct (skip_spec s0 t j u r Hs Hi Hb) as (found & r1 & -> & I1 & F1 & F2 & F3). cbn [bind].
      assert (Hb1 : ~ In Bad (abs s0 r1)).
      { assert (Hs2 : forall its, ~ In Bad its -> ~ In Bad (snd (search t j u its))).
        { induction its as [|[b|t'|] its IHi]; cbn [search]; intro H.
          - auto.
          - apply IHi. intro; apply H; right; auto.
          - destruct (seqt_eqb t' t); [cbn; intro; apply H; right; auto|].
            destruct (j && negb (existsb (seqt_eqb t') u)); [|exact H]. apply IHi. intro; apply H; right; auto.
          - exfalso. apply H. left. reflexivity. }
        destruct found.
        - rewrite F2 by reflexivity. auto.
        - destruct (F3 eq_refl) as (ds & ->). intro Q. apply in_app_or in Q. destruct Q as [Q|Q]; [|apply (Hs2 _ Hb Q)].
          apply in_map_iff in Q. destruct Q as (x & Q & _). discriminate. }
      destruct (IH r1 Hs I1 Hb1) as (l & r2 & -> & R). cbn [bind].
      exists (RFound found :: l), r2. split; [reflexivity|]. exists (abs s0 r1). split; [|exact R].
      split; [exact F1|]. auto.
Qed.

(** the reader opened where the writer started *)
Definition reader_at (p : nat) (f : gfile) : resc := r_new (g_skip p f).
Lemma reader_at_inv : forall s0 p f, rinv s0 (reader_at p f) /\ abs s0 (reader_at p f) = parse s0 (skipn p (fdata f)).
Proof.
  intros s0 p f. split.
  - split; [cbn; lia|]. split; [|split; [cbn; lia|discriminate]].
    cbn [reader_at r_new alloc]. unfold READ_BUF. lia.
  - unfold abs, reader_at, r_new, rest_below, g_skip. cbn [ar eo rb r_below fpos fdata slice]. reflexivity.
Qed.
Lemma items_no_bad : forall ops, ~ In Bad (items_of ops).
Proof.
  induction ops as [|[a|t|] ops IH]; cbn [items_of]; auto.
  - intro Q. apply in_app_or in Q. destruct Q as [Q|Q]; [|auto]. apply in_map_iff in Q. destruct Q as (x & Q & _). discriminate.
  - intros [Q|Q]; [discriminate|auto].
Qed.

(** C11: any data (cut in any way, whatever its content) and any marks, read back by any client doing any sequence of
    reads of any size and of searches of marks. Syncs may occur where no data follows directly. *)
Theorem C11_written_is_read_back : forall s0 ops f, s0_ok s0 -> no_X ops -> sync_ok ops -> at_eof f ->
  exists f', w_session s0 ops f = Ok f' /\ firstn (length (fdata f)) (fdata f') = fdata f /\
    forall client, exists answers r', r_run s0 client (reader_at (length (fdata f)) f') = Ok (answers, r') /\
      run_ok s0 (items_of ops) client answers.
Proof.
  intros s0 ops f Hs Hx Hy He. destruct (session_spec s0 ops f Hs Hy Hx He) as (f' & body & E & D & _ & P).
  exists f'. split; [exact E|]. split; [rewrite D; apply firstn_app_exact|]. intro client.
  destruct (reader_at_inv s0 (length (fdata f)) f') as [I A]. rewrite D, skipn_app_exact, P in A.
  rewrite <- A. apply r_run_spec; auto. rewrite A. apply items_no_bad.
Qed.
Print Assumptions C11_written_is_read_back.

(** In particular a run of data closed by a mark is delivered completely by reads of any sizes, each of them giving all
    the bytes requested until the last byte before the mark. *)
Fixpoint cut (d : list N) (ns : list nat) : list rres :=
  match ns with [] => [] | n :: r => RData (firstn n d) :: cut (skipn n d) r end.
Lemma data_prefix : forall t X ds d its, map D d ++ M t :: X = map D ds ++ its ->
  exists d2, d = ds ++ d2 /\ its = map D d2 ++ M t :: X.
Proof.
  intros t X ds. induction ds as [|b ds IH]; intros d its H.
  - exists d. auto.
  - destruct d as [|c d]; cbn [map app] in H; [discriminate|]. injection H as -> H.
    destruct (IH d its H) as (d2 & -> & E). exists d2. auto.
Qed.
Lemma reads_exact : forall s0 t X ns d r, s0_ok s0 -> rinv s0 r -> abs s0 r = map D d ++ M t :: X -> ~ In Bad X ->
  exists r', r_run s0 (map RRead ns) r = Ok (cut d ns, r').
Proof.
  intros s0 t X ns. induction ns as [|n ns IH]; intros d r Hs Hi A Hb; cbn [map r_run cut]; [eauto|].
  assert (Hb' : ~ In Bad (abs s0 r)).
  { rewrite A. intro Q. apply in_app_or in Q. destruct Q as [Q|[Q|Q]]; [|discriminate|auto].
    apply in_map_iff in Q. destruct Q as (x & Q & _). discriminate. }
  destruct (read_spec s0 n r Hs Hi Hb') as (ds & r1 & -> & I1 & A1 & L1 & S1). cbn [bind].
  rewrite A in A1. destruct (data_prefix _ _ _ _ _ A1) as (d2 & -> & E2).
  assert (F : firstn n (ds ++ d2) = ds /\ skipn n (ds ++ d2) = d2).
  { destruct (Nat.eq_dec (length ds) n) as [Q|Q].
    - split; [apply firstn_app_exact_n|apply skipn_app_exact_n]; auto.
    - destruct (S1 ltac:(lia)) as [Z|[(t' & r' & Z)|(p & q & _ & _ & Z & _)]]; rewrite E2 in Z.
      + destruct d2; discriminate.
      + destruct d2; [|discriminate]. rewrite app_nil_r, firstn_all2, skipn_all2 by lia. auto.
      + exfalso. assert (G : In (M t) (map D p)) by (rewrite <- Z; apply in_or_app; right; left; reflexivity).
        apply in_map_iff in G. destruct G as (x & G & _). discriminate. }
  destruct F as [-> ->]. destruct (IH d2 r1 Hs I1 E2 Hb) as (r' & ->). cbn [bind]. eauto.
Qed.
Theorem C11_reads_exact : forall s0 d t ops ns f, s0_ok s0 -> no_X ops -> sync_ok ops -> t <> seqt_not_a_sequence -> at_eof f ->
  exists f' r', w_session s0 (OpWrite d :: OpMark t :: ops) f = Ok f' /\
    r_run s0 (map RRead ns) (reader_at (length (fdata f)) f') = Ok (cut d ns, r').
Proof.
  intros s0 d t ops ns f Hs Hx Hy Ht He.
  destruct (session_spec s0 (OpWrite d :: OpMark t :: ops) f Hs Hy) as (f' & body & E & Df & _ & P); auto.
  { intros [Q|[Q|Q]]; [discriminate|congruence|]. apply Hx. exact Q. }
  destruct (reader_at_inv s0 (length (fdata f)) f') as [I A]. rewrite Df, skipn_app_exact, P in A.
  destruct (reads_exact s0 t (items_of ops) ns d _ Hs I A (items_no_bad ops)) as (r' & R). eauto.
Qed.
Print Assumptions C11_reads_exact.

(** A mark of type "not a sequence" is refused, and nothing else is: every other writing operation succeeds (first
    theorem). *)
Theorem C11_reserved_mark_refused : forall s0 w, esc_mark s0 seqt_not_a_sequence w = Err Erange.
Proof. reflexivity. Qed.

(** A sync (escape.hpp:135) between two writes flushes an unfinished start of sequence: what follows is then not
    escaped and data becomes a mark. *)
Definition outcome {A : Type} (x : res (A * resc)) : res A := let* '(a, _) := x in Ok a.
Theorem C11_sync_refuted : exists ops f' answers, no_X ops /\ ~ In Bad (items_of ops) /\
  w_session s0_normal ops (mk_file [] 0) = Ok f' /\
  outcome (r_run s0_normal [RRead 20; RSkip seqt_catalogue false []] (reader_at 0 f')) = Ok answers /\
  ~ run_ok s0_normal (items_of ops) [RRead 20; RSkip seqt_catalogue false []] answers.
Proof.
  exists [OpWrite [1; 173; 253]%N; OpSync; OpWrite [234; 119; 33; 67; 2]%N].
  eexists _, _. split; [|split; [|split; [vm_compute; reflexivity|split; [vm_compute; reflexivity|]]]].
  - intros [Q|[Q|[Q|[]]]]; discriminate.
  - apply items_no_bad.
  - cbn [run_ok items_of map app]. intros (its1 & (E & _ & S) & its2 & (F & _) & _).
    injection E as <-. cbn in F. discriminate.
Qed.
Print Assumptions C11_sync_refuted.

(** A short read does not always mean end of data: when the stream ends by a start of the fixed sequence, a read of at
    most six bytes may return nothing although data remains, which the next read returns. *)
Theorem C11_short_read_refuted : exists f', w_session s0_normal [OpWrite [173; 253]%N] (mk_file [] 0) = Ok f' /\
  outcome (r_run s0_normal [RRead 6; RRead 6] (reader_at 0 f')) = Ok [RData []; RData [173; 253]%N].
Proof. eexists. repeat split; vm_compute; reflexivity. Qed.

(** non-trivial instance of the hypotheses of C11 *)
Example C11_instance : s0_ok s0_normal /\
  let ops := [OpWrite [173; 253; 234; 119; 33; 70]%N; OpWrite [173]%N; OpMark seqt_file; OpWrite [253; 9]%N; OpSync; OpMark seqt_ea; OpSync] in
  no_X ops /\ sync_ok ops /\ at_eof (mk_file [7; 8]%N 2) /\
  items_of ops = [D 173; D 253; D 234; D 119; D 33; D 70; D 173; M seqt_file; D 253; D 9; M seqt_ea]%N.
Proof.
  split; [apply s0_ok_both|]. cbn zeta. split; [|split; [cbn; tauto|split; reflexivity]].
  intro Q. repeat (destruct Q as [Q|Q]; [discriminate|]). destruct Q.
Qed.

(** ** C12 *)
(** From any state a client may reach, a search that succeeds leaves the reader just after the first mark of that type,
    having gone over data and jumpable marks only; otherwise it answers false. This is [search]; the independent reading
    of it is given by the next two theorems. *)
Theorem C12_search : forall s0 t j u r, s0_ok s0 -> rinv s0 r -> ~ In Bad (abs s0 r) ->
  exists found r', skip_to_next_mark s0 t j u r = Ok (found, r') /\ rinv s0 r' /\ found = fst (search t j u (abs s0 r)) /\
    (found = true -> abs s0 r' = snd (search t j u (abs s0 r))).
Proof.
  intros s0 t j u r Hs Hi Hb. destruct (skip_spec s0 t j u r Hs Hi Hb) as (fd & r' & E & I & F1 & F2 & _). eauto 8.
Qed.
Print Assumptions C12_search.
Lemma seqt_eqb_eq : forall a b, seqt_eqb a b = true <-> a = b.
Proof. intros a b. unfold seqt_eqb. destruct (seqt_eq_dec a b); split; congruence. Qed.
Theorem C12_search_found : forall t j u its, ~ In Bad its -> fst (search t j u its) = true ->
  exists before, its = before ++ M t :: snd (search t j u its) /\ ~ In (M t) before /\
    forall t', In (M t') before -> j = true /\ ~ In t' u.
Proof.
  intros t j u its. induction its as [|[b|t'|] its IH]; intros Hb H; cbn [search] in *; [discriminate| | |exfalso; apply Hb; left; reflexivity].
  - destruct IH as (before & E & N1 & N2); [intro; apply Hb; right; auto|exact H|].
    exists (D b :: before). split; [rewrite E at 1; reflexivity|]. split; [intros [Q|Q]; [discriminate|auto]|].
    intros t' [Q|Q]; [discriminate|auto].
  - destruct (seqt_eqb t' t) eqn:Et.
    + apply seqt_eqb_eq in Et. subst t'. exists []. split; [reflexivity|]. split; [auto|]. intros ? [].
    + destruct (j && negb (existsb (seqt_eqb t') u)) eqn:Ej; [|discriminate].
      apply andb_true_iff in Ej. destruct Ej as [Ej Eu]. apply negb_true_iff in Eu.
      destruct IH as (before & E & N1 & N2); [intro; apply Hb; right; auto|exact H|].
      exists (M t' :: before). split; [rewrite E at 1; reflexivity|].
      assert (t' <> t) by (intros ->; assert (seqt_eqb t t = true) by (apply seqt_eqb_eq; auto); congruence).
      split; [intros [Q|Q]; [congruence|auto]|].
      intros t2 [Q|Q]; [|auto]. injection Q as ->. split; [exact Ej|]. intro Q.
      assert (existsb (seqt_eqb t2) u = true); [|congruence]. apply existsb_exists. exists t2. split; auto. apply seqt_eqb_eq. auto.
Qed.
Theorem C12_search_not_found : forall t j u its, ~ In Bad its -> fst (search t j u its) = false ->
  (snd (search t j u its) = [] /\ ~ In (M t) its) \/
  exists before t' r, its = before ++ M t' :: r /\ snd (search t j u its) = M t' :: r /\ ~ In (M t) (before ++ [M t']) /\
    (j = false \/ In t' u).
Proof.
  intros t j u its. induction its as [|[b|t'|] its IH]; intros Hb H; cbn [search] in *; [auto| | |exfalso; apply Hb; left; reflexivity].
  - destruct IH as [[E1 E2]|(before & t' & r & E1 & E2 & E3 & E4)]; [intro; apply Hb; right; auto|exact H| |].
    + left. split; [exact E1|]. intros [Q|Q]; [discriminate|auto].
    + right. exists (D b :: before), t', r. split; [rewrite E1 at 1; reflexivity|]. split; [exact E2|]. split; [|exact E4].
      intros [Q|Q]; [discriminate|auto].
  - destruct (seqt_eqb t' t) eqn:Et; [discriminate|].
    assert (t' <> t) by (intros ->; assert (seqt_eqb t t = true) by (apply seqt_eqb_eq; auto); congruence).
    destruct (j && negb (existsb (seqt_eqb t') u)) eqn:Ej.
    + destruct IH as [[E1 E2]|(before & t2 & r & E1 & E2 & E3 & E4)]; [intro; apply Hb; right; auto|exact H| |].
      * left. split; [exact E1|]. intros [Q|Q]; [congruence|auto].
      * right. exists (M t' :: before), t2, r. split; [rewrite E1 at 1; reflexivity|]. split; [exact E2|]. split; [|exact E4].
        intros [Q|Q]; [congruence|auto].
    + right. exists [], t', its. split; [reflexivity|]. split; [reflexivity|]. split; [intros [Q|[]]; congruence|].
      apply andb_false_iff in Ej. destruct Ej as [Ej|Ej]; [auto|]. right. apply negb_false_iff, existsb_exists in Ej.
      destruct Ej as (x & Hx & Ex). apply seqt_eqb_eq in Ex. subst. exact Hx.
Qed.
(** On failure the blocking mark is still to be read, possibly with the data placed just before it (the next theorem
    shows this data). *)
Theorem C12_search_blocked : forall s0 t j u r, s0_ok s0 -> rinv s0 r -> ~ In Bad (abs s0 r) ->
  fst (search t j u (abs s0 r)) = false ->
  exists r' ds, skip_to_next_mark s0 t j u r = Ok (false, r') /\ rinv s0 r' /\ abs s0 r' = map D ds ++ snd (search t j u (abs s0 r)).
Proof.
  intros s0 t j u r Hs Hi Hb H. destruct (skip_spec s0 t j u r Hs Hi Hb) as (fd & r' & E & I & F1 & _ & F3).
  rewrite H in F1. subst fd. destruct (F3 eq_refl) as (ds & A). eauto 8.
Qed.
Print Assumptions C12_search_blocked.
(** data equal to the fixed sequence placed just before the blocking mark comes back after a failed search *)
Theorem C12_blocked_refuted : exists f',
  w_session s0_normal [OpWrite [1; 173; 253; 234; 119; 33]%N; OpMark seqt_file] (mk_file [] 0) = Ok f' /\
  outcome (r_run s0_normal [RSkip seqt_catalogue false []; RRead 10] (reader_at 0 f')) =
    Ok [RFound false; RData [173; 253; 234; 119; 33]%N].
Proof. eexists. repeat split; vm_compute; reflexivity. Qed.

(** The next mark is reported when the next item is a mark, and no mark is reported otherwise, unless the data to come
    starts with the fixed sequence, where SRC_BUG may be thrown instead. *)
Theorem C12_next_mark : forall s0 r, s0_ok s0 -> rinv s0 r -> ~ In Bad (abs s0 r) ->
  match abs s0 r with
  | M t :: _ => exists r', next_to_read_is_which_mark s0 r = Ok (Some t, r') /\ rinv s0 r' /\ abs s0 r' = abs s0 r
  | _ => (exists r', next_to_read_is_which_mark s0 r = Ok (None, r') /\ rinv s0 r' /\ abs s0 r' = abs s0 r) \/
         (next_to_read_is_which_mark s0 r = Err Ebug /\ exists its, abs s0 r = map D (fixed s0) ++ its)
  end.
Proof. exact which_mark_spec. Qed.
Print Assumptions C12_next_mark.
Theorem C12_next_mark_refuted : exists f',
  w_session s0_normal [OpWrite [173; 253; 234; 119; 33; 1; 2; 3]%N] (mk_file [] 0) = Ok f' /\
  outcome (next_to_read_is_which_mark s0_normal (reader_at 0 f')) = Err Ebug.
Proof. eexists (mk_file [173; 253; 234; 119; 33; 88; 1; 2; 3]%N 9). split; vm_compute; reflexivity. Qed.

(** the states quantified over in C12 are those of a reader opened anywhere on any stream without unknown mark, and of all
    the states reached from there *)
Theorem C12_reachable : forall s0 p f, rinv s0 (reader_at p f) /\ abs s0 (reader_at p f) = parse s0 (skipn p (fdata f)).
Proof. exact reader_at_inv. Qed.
Example C12_instance : abs s0_normal (reader_at 1 (mk_file [9; 1; 173; 253; 234; 119; 33; 88; 2; 173; 253; 234; 119; 33; 70; 3]%N 0)) =
  [D 1; D 173; D 253; D 234; D 119; D 33; D 2; M seqt_file; D 3]%N.
Proof. reflexivity. Qed.
