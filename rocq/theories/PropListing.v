(** * C35: a listing file selects exactly what it lists. *)
From Coq Require Import Sorted.
From Verif Require Import Base PathModel PropPath ListingModel ListingProof.
Open Scope nat_scope.

(** ** specification *)
(** a file name without special meaning, in one line *)
Definition clean (n : str) : Prop := plain_name n /\ noslash n /\ ~ In LF n /\ ~ In CR n.
(** a line of the listing: absolute or relative, and its names *)
Definition line : Type := bool * list str.
Definition good_line (l : line) : Prop := Forall clean (snd l) /\ (fst l = false -> snd l <> []).
Definition text (l : line) : str := (if fst l then [SLASH] else []) ++ join (snd l).
(** the path a line stands for, relative ones being taken from the prefix *)
Definition place (prefix : list str) (l : line) : list str := if fst l then snd l else prefix ++ snd l.
(** the file: each line with its end, LF or CR LF, then possibly a last line without end *)
Definition content (ls : list (line * bool)) (last : option line) : str :=
  concat (map (fun x : line * bool => text (fst x) ++ (if snd x then [CR; LF] else [LF])) ls) ++ match last with Some l => text l | None => [] end.
Definition all_lines (ls : list (line * bool)) (last : option line) : list line :=
  map fst ls ++ match last with Some l => [l] | None => [] end.
Definition absolute (names : list str) : str := SLASH :: join names.

(** ** lines *)
Definition good_text (s : str) : Prop := s <> [] /\ ~ In LF s /\ ~ In CR s.
Lemma bfold_text : forall up s entry ls, ~ In LF s -> ~ In CR s -> bfold up s (false, entry, ls) = Ok (false, entry ++ s, ls).
Proof.
  induction s as [|c s IH]; intros entry ls H1 H2; [cbn; rewrite app_nil_r; reflexivity|]. cbn [bfold bstep].
  destruct (N.eqb_spec c LF) as [->|]; [exfalso; apply H1; left; reflexivity|].
  destruct (N.eqb_spec c CR) as [->|]; [exfalso; apply H2; left; reflexivity|]. cbn [negb andb bind].
  etransitivity; [apply IH; intro Q; [apply H1|apply H2]; right; exact Q|]. rewrite <- app_assoc. reflexivity.
Qed.
Lemma drop_last_app : forall a b : str, drop_last (length b) (a ++ b) = a.
Proof. intros. unfold drop_last. rewrite app_length. replace (_ - _) with (length a) by lia. apply firstn_app_exact. Qed.
Lemma bfold_line : forall up s (crlf : bool) (ls : list str), good_text s -> (forall x, length (up x) = length x) ->
  bfold up (s ++ (if crlf then [CR; LF] else [LF])) (@pair bool str false [], ls) = Ok (@pair bool str false [], up s :: ls).
Proof.
  intros up s crlf ls (H1 & H2 & H3) U. rewrite bfold_app, bfold_text by auto. cbn [bind app].
  assert (L : 1 <= length s) by (destruct s; [congruence|cbn; lia]).
  assert (N : nonempty (up s) = true) by (specialize (U s); destruct (up s); [cbn in U; lia|reflexivity]).
  destruct crlf.
  - cbn [bfold bstep]. change (CR =? LF)%N with false. change (CR =? CR)%N with true. cbn [negb andb bind bfold bstep]. rewrite N.eqb_refl.
    rewrite <- app_assoc. cbn [app].
    destruct (Nat.leb_spec (length (s ++ [CR; LF])) 2) as [G|G]; [rewrite app_length in G; cbn [length] in G; lia|].
    change 2 with (length [CR; LF]). rewrite drop_last_app, N. reflexivity.
  - cbn [bfold bstep]. rewrite N.eqb_refl.
    destruct (Nat.leb_spec (length (s ++ [LF])) 1) as [G|G]; [rewrite app_length in G; cbn [length] in G; lia|].
    change 1 with (length [LF]). rewrite drop_last_app, N. reflexivity.
Qed.
Lemma bfold_lines : forall up (xs : list (str * bool)) (ls : list str), Forall (fun x : str * bool => good_text (fst x)) xs -> (forall x, length (up x) = length x) ->
  bfold up (concat (map (fun x : str * bool => fst x ++ (if snd x then [CR; LF] else [LF])) xs)) (@pair bool str false [], ls) =
  Ok (@pair bool str false [], rev (map (fun x : str * bool => up (fst x)) xs) ++ ls).
Proof.
  induction xs as [|x xs IH]; intros ls H U; [reflexivity|]. inversion H; subst. cbn [map concat]. rewrite bfold_app, bfold_line by auto. cbn [bind].
  etransitivity; [apply IH; auto|]. cbn [rev]. rewrite <- app_assoc. reflexivity.
Qed.
Lemma clean_comp : forall l, Forall clean l -> Forall comp l.
Proof. intros l H. eapply Forall_impl; [|exact H]. intros a ((H1 & _) & H2 & _). split; auto. Qed.
Lemma join_noin : forall c l, c <> SLASH -> Forall (fun n => ~ In c n) l -> ~ In c (join l).
Proof.
  intros c l Hc. induction l as [|w l IH]; intro H; [auto|]. inversion H; subst. destruct l as [|w' l]; [exact H2|].
  change (join (w :: w' :: l)) with (w ++ SLASH :: join (w' :: l)). rewrite in_app_iff. intros [Q|[Q|Q]]; [auto|congruence|apply IH; auto].
Qed.
Lemma text_good : forall l, good_line l -> good_text (text l).
Proof.
  intros [a ns] [H1 H2]. unfold text. cbn [fst snd] in *.
  assert (N1 : ~ In LF (join ns)) by (apply join_noin; [discriminate|]; eapply Forall_impl; [|exact H1]; unfold clean; tauto).
  assert (N2 : ~ In CR (join ns)) by (apply join_noin; [discriminate|]; eapply Forall_impl; [|exact H1]; unfold clean; tauto).
  destruct a; cbn [app].
  - split; [discriminate|]. split; intros [Q|Q]; auto; discriminate.
  - split; auto. destruct ns as [|w ns]; [exfalso; apply H2; auto|]. inversion H1; subst. destruct (join_hd w ns) as (c & t & -> & _); [|discriminate].
    destruct H3 as ((H3 & _) & H5 & _). split; auto.
Qed.

(** ** paths *)
Lemma clean_normal : forall ns, Forall clean ns -> normal ns.
Proof. intros ns H. right. exists 0, ns. split; auto. eapply Forall_impl; [|exact H]. unfold clean. tauto. Qed.
Lemma clean_nodot : forall ns, Forall clean ns -> ~ In dot ns.
Proof. intros ns H I. rewrite Forall_forall in H. destruct (H _ I) as ((_ & Q & _) & _). congruence. Qed.
Lemma make_abs : forall ns, Forall clean ns -> path_make (SLASH :: join ns) false = Ok (Path ns false false).
Proof.
  intros ns H. destruct (make_split SLASH (join ns)) as (p & E & ->). rewrite E. change (SLASH =? SLASH)%N with true. cbn [negb].
  rewrite path_split_plain by (apply join_not_url, clean_comp; auto). rewrite words_join by (apply clean_comp; auto).
  rewrite reduce_id; auto; [apply clean_normal; auto|discriminate|intros _; apply clean_nodot; auto].
Qed.
Lemma make_rel : forall ns, Forall clean ns -> ns <> [] -> path_make (join ns) false = Ok (Path ns true false).
Proof.
  intros [|w ns] H N; [congruence|]. pose proof (clean_comp _ H) as C.
  destruct (join_hd w ns ltac:(inversion C; auto)) as (c & t & Ej & Hc). pose proof (words_join _ C) as W. pose proof (join_not_url _ C) as U.
  rewrite Ej in *. destruct (make_split c t) as (p & E & ->). rewrite E. replace (c =? SLASH)%N with false by (symmetry; apply N.eqb_neq; auto). cbn [negb].
  rewrite path_split_plain by auto. rewrite W. rewrite reduce_id; auto; [apply clean_normal; auto|intros Q; discriminate].
Qed.
Lemma entry_of : forall prefix l, Forall clean prefix -> good_line l ->
  (let* p := path_make (text l) false in if relative p then let* q := path_add (Path prefix false false) p in Ok (display q) else Ok (text l)) =
  Ok (absolute (place prefix l)).
Proof.
  intros prefix [a ns] Hp [H1 H2]. unfold text, place, absolute. cbn [fst snd] in *. destruct a; cbn [app].
  - rewrite make_abs by auto. reflexivity.
  - rewrite make_rel by auto. cbn [bind relative]. unfold path_add. cbn [relative negb dirs undisclosed orb bind].
    assert (F : filter (fun x => negb (str_eqb x dot)) ns = ns).
    { pose proof (clean_nodot _ H1) as D. clear - D. induction ns as [|w ns IH]; [reflexivity|]. cbn [filter].
      destruct (str_eqb_spec w dot) as [->|]; [exfalso; apply D; left; reflexivity|]. cbn [negb]. rewrite IH; [reflexivity|]. intro Q. apply D. right. auto. }
    rewrite F. rewrite reduce_id; [reflexivity|apply clean_normal, Forall_app; auto|discriminate|intros _; apply clean_nodot, Forall_app; auto].
Qed.
Lemma complete_ok : forall prefix ls, Forall clean prefix -> Forall good_line ls ->
  complete (Path prefix false false) (map text ls) = Ok (map (fun l => absolute (place prefix l)) ls).
Proof.
  intros prefix ls Hp. induction ls as [|l ls IH]; intro H; [reflexivity|]. inversion H; subst. cbn [map complete]. rewrite entry_of by auto.
  rewrite IH by auto. reflexivity.
Qed.
Lemma place_clean : forall prefix l, Forall clean prefix -> good_line l -> Forall clean (place prefix l).
Proof. intros prefix [a ns] Hp [H1 _]. unfold place. cbn [fst snd] in *. destruct a; auto. apply Forall_app. auto. Qed.
Lemma absolute_inj : forall a b, Forall clean a -> Forall clean b -> absolute a = absolute b -> a = b.
Proof.
  intros a b A B E. unfold absolute in E. injection E as E. rewrite <- (words_join a (clean_comp _ A)), <- (words_join b (clean_comp _ B)), E. reflexivity.
Qed.
Lemma absolute_below : forall a b r, Forall clean a -> Forall clean b -> b <> [] -> absolute a = absolute b ++ SLASH :: r -> exists x, a = b ++ x.
Proof.
  intros a b r A B Nb E. unfold absolute in E. cbn [app] in E. injection E as E. exists (words r).
  rewrite <- (words_join a (clean_comp _ A)), E, words_app, (words_join b (clean_comp _ B)). reflexivity.
Qed.

(** ** letter case *)
(** what is expected of the upper case of a character: stable, and neither made from nor changing '/', '.', and line ends *)
Definition good_up (up : N -> N) : Prop :=
  (forall c, up (up c) = up c) /\ (forall c d, In d [SLASH; 46%N; LF; CR] -> (up c = d <-> c = d)).
Lemma up_slash : forall up, good_up up -> up SLASH = SLASH.
Proof. intros up [_ H]. apply (H SLASH SLASH); cbn; auto. Qed.
Lemma up_in : forall up c n, good_up up -> In c [SLASH; 46%N; LF; CR] -> (In c (map up n) <-> In c n).
Proof.
  intros up c n [_ H] I. rewrite in_map_iff. split.
  - intros (x & E & Q). apply (H x c I) in E. subst. exact Q.
  - intro Q. exists c. split; auto. apply (H c c I). reflexivity.
Qed.
Lemma up_name : forall up n, good_up up -> (clean (map up n) <-> clean n).
Proof.
  intros up n G. unfold clean, plain_name, noslash. rewrite !(up_in up) by (auto; cbn; auto).
  assert (D : forall k, map up n = repeat 46%N k <-> n = repeat 46%N k).
  { destruct G as [_ H]. assert (H46 : forall c, up c = 46%N <-> c = 46%N) by (intro; apply H; cbn; auto). clear H.
    intro k. revert n. induction k as [|k IH]; intros [|c n]; cbn [map repeat]; try (split; [discriminate|discriminate]); [split; auto|].
    split; intro E; injection E as E1 E2; [rewrite (proj1 (H46 c) E1), (proj1 (IH n) E2)|rewrite (proj2 (H46 c) E1), (proj2 (IH n) E2)]; reflexivity. }
  pose proof (D 0) as D0. pose proof (D 1) as D1. pose proof (D 2) as D2. cbn [repeat] in *. unfold dot, dotdot. tauto.
Qed.
Lemma up_names : forall up l, good_up up -> Forall clean l -> Forall clean (map (map up) l).
Proof. intros up l G H. apply Forall_map. eapply Forall_impl; [|exact H]. intros a Ha. apply up_name; auto. Qed.
Lemma up_join : forall up l, good_up up -> map up (join l) = join (map (map up) l).
Proof.
  intros up l G. induction l as [|w l IH]; [reflexivity|]. destruct l as [|w' l]; [reflexivity|].
  change (join (w :: w' :: l)) with (w ++ SLASH :: join (w' :: l)). rewrite map_app. cbn [map]. rewrite up_slash by auto.
  change (join (map up w :: map up w' :: map (map up) l)) with (map up w ++ SLASH :: join (map (map up) (w' :: l))). rewrite <- IH. reflexivity.
Qed.
Definition upcase (cs : bool) (up : N -> N) (n : str) : str := if cs then n else map up n.
Lemma upcase_text : forall cs up l, good_up up -> upcase cs up (text l) = text (fst l, map (upcase cs up) (snd l)).
Proof.
  intros cs up [a ns] G. unfold upcase, text. cbn [fst snd]. destruct cs; [rewrite map_id; reflexivity|].
  rewrite map_app, up_join by auto. destruct a; cbn [map]; [rewrite up_slash by auto|]; reflexivity.
Qed.
Lemma upcase_abs : forall cs up l, good_up up -> upcase cs up (absolute l) = absolute (map (upcase cs up) l).
Proof. intros cs up l G. apply (upcase_text cs up (true, l) G). Qed.
Lemma upcase_clean : forall cs up l, good_up up -> Forall clean l -> Forall clean (map (upcase cs up) l).
Proof. intros [] up l G H; unfold upcase; [rewrite map_id; auto|apply up_names; auto]. Qed.
Lemma upcase_twice : forall cs up n, good_up up -> upcase cs up (upcase cs up n) = upcase cs up n.
Proof. intros [] up n [G _]; unfold upcase; auto. rewrite map_map. apply map_ext. auto. Qed.

(** ** coverage by a sorted list *)
Lemma covered_ok : forall up cs inc (es : list (list str)) q, good_up up -> Forall (Forall clean) es -> Forall clean q ->
  (forall e, In e es -> map (upcase cs up) e = e) ->
  exists b, ml_covered up (mk_ml (unique (sort_list (map absolute es))) cs inc) (absolute q) = Ok b /\
    (b = true <-> exists e, In e es /\ (e = map (upcase cs up) q \/ (inc = true /\ exists r, e = map (upcase cs up) q ++ r))).
Proof.
  intros up cs inc es q G Ces Cq Ues. set (l := unique (sort_list (map absolute es))).
  assert (IL : forall s, In s l <-> exists e, In e es /\ s = absolute e).
  { intro s. unfold l. rewrite unique_in, sort_in, in_map_iff. split; intros (e & H1 & H2); exists e; auto. }
  assert (S : StronglySorted slt l) by (apply unique_sorted, sort_sorted).
  assert (EQC : (if cs then absolute q else map up (absolute q)) = absolute (map (upcase cs up) q)) by (rewrite <- upcase_abs by auto; reflexivity).
  unfold ml_covered. cbn [contenu case_s including]. rewrite EQC. set (Q := map (upcase cs up) q) in *.
  assert (CQ : Forall clean Q) by (apply upcase_clean; auto).
  destruct l as [|x0 l0] eqn:El.
  { exists false. split; [reflexivity|]. split; [discriminate|]. intros (e & He & _). exfalso. apply (IL (absolute e)). exists e. auto. }
  rewrite <- El in *. assert (Nl : l <> []) by (rewrite El; discriminate).
  replace (match l with [] => Ok false | _ :: _ => _ end) with
    (let '(mn, mx) := bsearch (length l) l (absolute Q) 0 (length l - 1) in
     let mx := if (mn =? 0) && lexle (absolute Q) (nth mn l []) then mn else mx in
     if str_eqb (nth mx l []) (absolute Q) || str_eqb (nth mn l []) (absolute Q) then Ok true
     else if inc then
       let* p := path_make (nth mx l []) false in
       let* q := path_make (absolute q) false in
       Ok (if cs then is_subdir_of p q else is_subdir_nocase up p q)
     else Ok false) by (rewrite El; reflexivity).
  clear El.
  pose proof (search_spec l (absolute Q) Nl S) as SS. destruct (bsearch (length l) l (absolute Q) 0 (length l - 1)) as [mn mx0]. cbn zeta in *.
  set (mx := if (mn =? 0) && lexle (absolute Q) (nth mn l []) then mn else mx0) in *. clearbody mx. destruct SS as (S1 & S2 & S3 & S4).
  destruct (str_eqb (nth mx l []) (absolute Q) || str_eqb (nth mn l []) (absolute Q)) eqn:EQ.
  { exists true. split; auto. split; auto. intros _. destruct (proj1 (IL (absolute Q)) (proj1 S3 eq_refl)) as (e & He & Ee). exists e. split; auto. left.
    symmetry. apply absolute_inj; auto. rewrite Forall_forall in Ces. auto. }
  assert (NI : ~ In (absolute Q) l) by (intro I; apply S3 in I; discriminate).
  destruct (S4 NI) as (S5 & S6). destruct inc.
  2: { exists false. split; auto. split; [discriminate|]. intros (e & He & [->|(Z & _)]); [|discriminate]. exfalso. apply NI, IL. eauto. }
  destruct (proj1 (IL (nth mx l [])) (nth_In _ _ S1)) as (e0 & He0 & Ee0).
  assert (Ce0 : Forall clean e0) by (rewrite Forall_forall in Ces; auto).
  rewrite Ee0. unfold absolute at 1 2. rewrite !make_abs by auto. cbn [bind].
  exists (if cs then is_subdir_of (Path e0 false false) (Path q false false) else is_subdir_nocase up (Path e0 false false) (Path q false false)).
  split; [reflexivity|].
  assert (SD : (if cs then is_subdir_of (Path e0 false false) (Path q false false) else is_subdir_nocase up (Path e0 false false) (Path q false false)) =
     is_subdir_of (Path e0 false false) (Path Q false false)).
  { unfold is_subdir_of, is_subdir_nocase, display. cbn [relative dirs app]. destruct cs.
    - unfold Q, upcase. rewrite map_id. reflexivity.
    - change (SLASH :: join e0) with (absolute e0). change (SLASH :: join q) with (absolute q). change (SLASH :: join Q) with (absolute Q).
      change (map up (absolute e0)) with (upcase false up (absolute e0)). change (map up (absolute q)) with (upcase false up (absolute q)).
      rewrite !upcase_abs by auto. rewrite (Ues e0 He0). reflexivity. }
  rewrite SD. rewrite C17_subdir; cbn [dirs relative]; try (apply clean_comp; assumption); try discriminate.
  split.
  - intros (_ & r & Er). exists e0. split; auto. right. split; eauto.
  - intros (e & He & K). split; auto.
    assert (K' : exists r, e = Q ++ r) by (destruct K as [->|(_ & K)]; [exists []; symmetry; apply app_nil_r|exact K]).
    destruct K' as (r & Er). destruct Q as [|w Q'] eqn:EQ'; [exists e0; reflexivity|]. rewrite <- EQ' in *.
    assert (Q <> []) by (rewrite EQ'; discriminate).
    destruct r as [|z r]; [exfalso; apply NI, IL; exists e; split; auto; rewrite Er, app_nil_r; reflexivity|].
    assert (B : exists r, nth mx l [] = absolute Q ++ SLASH :: r).
    { apply (below_spec l (absolute Q) mx S S1 S5 S6 NI). exists (absolute e), (join (z :: r)). split; [apply IL; eauto|].
      unfold absolute. rewrite Er, join_app by (auto; discriminate). reflexivity. }
    destruct B as (t & Et). rewrite Ee0 in Et. apply absolute_below in Et; auto.
Qed.

(** ** C35 *)
(** Whatever the listing (any number of clean lines, absolute or relative, ended by LF or CR LF), however it is cut in buffers, for any
    absolute prefix: the mask is built, and covers an absolute path exactly when a line stands for it or, if the mask is used to
    include, when a line stands for something below it. Without case sensitivity the same after conversion to upper case, when
    the last line is ended. *)
Theorem C35_listing : forall up cs prefix inc ls last bufs,
  good_up up -> Forall clean prefix -> Forall good_line (all_lines ls last) -> Forall (fun b => b <> []) bufs ->
  concat bufs = content ls last -> (cs = true \/ last = None) ->
  exists m, ml_make up cs (Path prefix false false) inc [] bufs = Ok m /\
  forall q, Forall clean q ->
  exists b, ml_covered up m (absolute q) = Ok b /\
    (b = true <-> exists l, In l (all_lines ls last) /\
       let p := map (upcase cs up) (place prefix l) in let d := map (upcase cs up) q in
       p = d \/ (inc = true /\ exists r, p = d ++ r)).
Proof.
  intros up cs prefix inc ls last bufs G Hp HL Hb Ec Hlast.
  set (U := upcase cs up). set (P := map U prefix). set (LL := map (fun l : line => (fst l, map U (snd l))) (all_lines ls last)).
  assert (CP : Forall clean P) by (apply upcase_clean; auto).
  assert (CL : Forall good_line LL).
  { apply Forall_map. eapply Forall_impl; [|exact HL]. intros [a ns] [H1 H2]. cbn [fst snd] in *. split; cbn [fst snd].
    - apply upcase_clean; auto.
    - intros Z Q. apply (H2 Z). destruct ns; [auto|discriminate]. }
  assert (RB : read_bufs U bufs (dst false) [] [] = Ok (map text LL)).
  { rewrite read_bufs_default by auto. rewrite Ec. unfold content. rewrite bfold_app.
    assert (Fl : Forall (fun x => good_text (fst x)) (map (fun x : line * bool => (text (fst x), snd x)) ls)).
    { apply Forall_map. apply Forall_forall. intros x Hx. cbn [fst]. apply text_good. rewrite Forall_forall in HL. apply HL. unfold all_lines.
      apply in_or_app. left. apply in_map. auto. }
    pose proof (bfold_lines U _ [] Fl) as B. rewrite map_map in B. cbn [fst snd] in B. rewrite B.
    2: { intro x. unfold U, upcase. destruct cs; [auto|apply map_length]. }
    clear B. cbn [bind]. rewrite map_map. cbn [fst snd]. rewrite app_nil_r.
    assert (T : map text LL = map (fun x => U (text x)) (all_lines ls last)).
    { unfold LL. rewrite map_map. apply map_ext. intro l. symmetry. apply upcase_text. auto. }
    rewrite T. unfold all_lines. rewrite map_app, map_map. destruct last as [z|].
    - destruct Hlast as [->|]; [|discriminate].
      assert (Gz : good_text (text z)) by (apply text_good; rewrite Forall_forall in HL; apply HL; unfold all_lines; apply in_or_app; right; left; auto).
      destruct Gz as (Z1 & Z2 & Z3). rewrite bfold_text by auto. cbn [bind app]. replace (nonempty (text z)) with true by (destruct (text z); [congruence|reflexivity]).
      cbn [rev]. rewrite rev_involutive. reflexivity.
    - cbn [bfold bind nonempty map]. rewrite rev_involutive, app_nil_r. reflexivity. }
  assert (MM : ml_make up cs (Path prefix false false) inc [] bufs = Ok (mk_ml (unique (sort_list (map absolute (map (place P) LL)))) cs inc)).
  { unfold ml_make. cbn [eols_make bind].
    assert (PP : (if cs then Ok (Path prefix false false) else path_make (map up (display (Path prefix false false))) false) = Ok (Path P false false)).
    { unfold P, U, upcase. destruct cs; [rewrite map_id; reflexivity|]. unfold display. cbn [relative dirs app map]. rewrite up_slash, up_join by auto.
      apply make_abs. apply up_names; auto. }
    rewrite PP. cbn [bind].
    change ([mk_ip [10%N] 0 false 0 false; mk_ip [13%N; 10%N] 0 false 0 false], 0) with (dst false).
    replace (if cs then fun s : str => s else map up) with U by (unfold U, upcase; destruct cs; reflexivity).
    rewrite RB. cbn [bind]. change (path_make ROOT false) with (Ok (Path [ROOT] true false)). cbn [bind relative andb].
    rewrite complete_ok by auto. cbn [bind]. rewrite map_map. reflexivity. }
  eexists. split; [exact MM|]. intros q Cq.
  destruct (covered_ok up cs inc (map (place P) LL) q G) as (b & Eb & Kb); auto.
  - apply Forall_map. eapply Forall_impl; [|exact CL]. intros l Hl. apply place_clean; auto.
  - intros e He. apply in_map_iff in He as (l & <- & Hl). unfold LL in Hl. apply in_map_iff in Hl as ([a ns] & <- & Hl).
    unfold place, P. cbn [fst snd]. destruct a; [|rewrite map_app, !map_map; f_equal; apply map_ext; intro; apply upcase_twice; auto].
    rewrite map_map. apply map_ext. intro. apply upcase_twice; auto.
  - exists b. split; auto. rewrite Kb. clear Kb.
    assert (PL : forall l, map U (place prefix l) = place P (fst l, map U (snd l))).
    { intros [a ns]. unfold place, P. cbn [fst snd]. destruct a; [reflexivity|apply map_app]. }
    split.
    + intros (e & He & K). apply in_map_iff in He as (l' & <- & Hl). unfold LL in Hl. apply in_map_iff in Hl as (l & <- & Hl).
      exists l. split; auto. cbn zeta. fold U. rewrite PL. exact K.
    + intros (l & Hl & K). cbn zeta in K. fold U in K. rewrite PL in K. eexists. split; [|exact K]. apply in_map.
      unfold LL. apply in_map_iff. exists l. auto.
Qed.


(** ** witnesses and exceptions *)
Definition ascii_up (c : N) : N := if ((97 <=? c) && (c <=? 122))%N then (c - 32)%N else c.
Lemma ascii_good : good_up ascii_up.
Proof.
  split.
  - intro c. unfold ascii_up. destruct (N.leb_spec 97 c), (N.leb_spec c 122); cbn [andb]; try (destruct (N.leb_spec 97 c), (N.leb_spec c 122); cbn [andb]; lia).
    destruct (N.leb_spec 97 (c - 32)), (N.leb_spec (c - 32) 122); cbn [andb]; lia.
  - intros c d H. unfold ascii_up. cbn [In] in H. unfold SLASH, LF, CR in H.
    destruct (N.leb_spec 97 c), (N.leb_spec c 122); cbn [andb]; intuition lia.
Qed.
(** the listing "a/b LF /c/d CR LF a", in two buffers cut within the CR LF, prefix /p *)
Example C35_listing_ex : exists ls last,
  Forall good_line (all_lines ls last) /\ concat [[97; 47; 98; 10; 47; 99; 47; 100; 13]; [10; 97]]%N = content ls last /\
  exists m, ml_make ascii_up true (Path [[112%N]] false false) true [] [[97; 47; 98; 10; 47; 99; 47; 100; 13]; [10; 97]]%N = Ok m /\
    ml_covered ascii_up m (absolute [[112]; [97]; [98]]%N) = Ok true /\ ml_covered ascii_up m (absolute [[99]]%N) = Ok true /\
    ml_covered ascii_up m (absolute [[99]; [100]; [101]]%N) = Ok false /\ ml_covered ascii_up m (absolute [[97]]%N) = Ok false.
Proof.
  exists [((false, [[97]; [98]]%N), false); ((true, [[99]; [100]]%N), true)], (Some (false, [[97]]%N)). split; [|split; [reflexivity|]].
  - assert (C : forall c, In c [97; 98; 99; 100]%N -> clean [c]).
    { intros c H. unfold clean, plain_name, noslash, dot, dotdot, SLASH, LF, CR. cbn [In] in *. intuition (try congruence; lia). }
    repeat apply Forall_cons; try apply Forall_nil; (split; [cbn [snd]; repeat apply Forall_cons; try apply Forall_nil; apply C; cbn; tauto|discriminate]).
  - eexists. split; [vm_compute; reflexivity|]. repeat split; vm_compute; reflexivity.
Qed.
(** An empty line in the listing is an internal error. *)
Theorem C35_blank_line_refuted : forall up cs prefix inc a b, Forall clean prefix -> good_up up -> good_line a -> good_line b ->
  ml_make up cs (Path prefix false false) inc [] [text a ++ [LF; LF] ++ text b ++ [LF]] = Err Ebug.
Proof.
  intros up cs prefix inc a b Hp G Ha Hb. unfold ml_make. cbn [eols_make bind].
  assert (PP : exists P, (if cs then Ok (Path prefix false false) else path_make (map up (display (Path prefix false false))) false) = Ok P).
  { destruct cs; [eauto|]. unfold display. cbn [relative dirs app map]. rewrite up_slash, up_join by auto. eexists. apply make_abs. apply up_names; auto. }
  destruct PP as (P & ->). cbn [bind].
  change ([mk_ip [10%N] 0 false 0 false; mk_ip [13%N; 10%N] 0 false 0 false], 0) with (dst false).
  rewrite read_bufs_default by (constructor; [|constructor]; destruct (text a); discriminate). cbn [concat]. rewrite app_nil_r.
  change ([LF; LF] ++ text b ++ [LF]) with ([LF] ++ [LF] ++ text b ++ [LF]). rewrite app_assoc, bfold_app.
  match goal with |- context [bfold ?u _ _] => set (U := u) end.
  pose proof (bfold_line U (text a) false [] (text_good a Ha)) as B. cbn iota in B. rewrite B; [reflexivity|]. unfold U.
  intro x. destruct cs; [reflexivity|apply map_length].
Qed.
(** Without case sensitivity a last line without end of line is not converted: when excluding, it does not match itself. *)
Theorem C35_last_line_case_refuted : exists m,
  ml_make ascii_up false (Path [] false false) false [] [[47; 97]%N] = Ok m /\ ml_covered ascii_up m [47; 97]%N = Ok false /\
  exists m', ml_make ascii_up false (Path [] false false) false [] [[47; 97; 10]%N] = Ok m' /\ ml_covered ascii_up m' [47; 97]%N = Ok true.
Proof. eexists. split; [vm_compute; reflexivity|]. split; [vm_compute; reflexivity|]. eexists. split; vm_compute; reflexivity. Qed.
(** An absolute line is not put in canonical form: "/a/b/" does not select /a/b, the relative "a/b/" does. *)
Theorem C35_absolute_not_normalised_refuted : exists m,
  ml_make ascii_up true (Path [] false false) false [] [[47; 97; 47; 98; 47; 10]%N] = Ok m /\ ml_covered ascii_up m [47; 97; 47; 98]%N = Ok false /\
  exists m', ml_make ascii_up true (Path [] false false) false [] [[97; 47; 98; 47; 10]%N] = Ok m' /\ ml_covered ascii_up m' [47; 97; 47; 98]%N = Ok true.
Proof. eexists. split; [vm_compute; reflexivity|]. split; [vm_compute; reflexivity|]. eexists. split; vm_compute; reflexivity. Qed.
(** With end of lines "\n" and "\n\r", a file ended by "\n" has its last line read with the "\n" in its name. *)
Theorem C35_user_eol_refuted : exists m,
  ml_make ascii_up true (Path [] false false) false [[10]; [10; 13]]%N [[47; 97; 10]%N] = Ok m /\ ml_covered ascii_up m [47; 97]%N = Ok false /\
  ml_covered ascii_up m [47; 97; 10]%N = Ok true.
Proof. eexists. split; [vm_compute; reflexivity|]. split; vm_compute; reflexivity. Qed.
