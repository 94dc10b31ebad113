From Coq Require Import List.
From Verif Require Import Base InfinintModel CrcModel CrcProof PropCrc DatetimeModel PropDatetime PathModel PropPath CatModel SeqModel PropChange PropCatalogue DiffModel DiffSpec DiffProof.
Import ListNotations.
Open Scope N_scope.

Definition decides (r : res unit) (P : Prop) : Prop := (r = Ok tt /\ P) \/ (r = Err Erange /\ ~ P).
Lemma decides_if : forall (b : bool) r (P Q : Prop), (b = true <-> P) -> (P -> decides r Q) -> decides (if negb b then Err Erange else r) (P /\ Q).
Proof.
  intros [] r P Q H D; cbn [negb].
  - destruct (D (proj1 H eq_refl)) as [[E q]|[E q]]; [left|right]; split; auto; [split; [apply H; reflexivity|exact q]|tauto].
  - right. split; [reflexivity|]. intros [p _]. apply H in p. discriminate.
Qed.
Lemma decides_bind : forall r k (P Q : Prop), decides r P -> (P -> decides k Q) -> decides (let* _ := r in k) (P /\ Q).
Proof.
  intros r k P Q [[-> p]|[-> p]] H; cbn [bind].
  - destruct (H p) as [[E q]|[E q]]; [left|right]; split; auto; tauto.
  - right. split; [reflexivity|]. tauto.
Qed.
Lemma decides_iff : forall r P Q, (P <-> Q) -> decides r P -> decides r Q.
Proof. intros r P Q H [[E p]|[E p]]; [left|right]; split; auto; tauto. Qed.
Lemma dates_spec : forall cap h a b, exists r, equal_with_hourshift cap h a b = Ok r /\ (r = true <-> dates_agree cap h a b).
Proof. exact hourshift_spec. Qed.

(** EA *)
Lemma ea_find_in : forall l k v, NoDup (map fst l) -> (ea_find k l = Some v <-> In (k, v) l).
Proof.
  induction l as [|[k' v'] l IH]; intros k v ND; cbn [ea_find In map fst] in *; [split; [discriminate|tauto]|]. inversion ND as [|? ? N1 N2]; subst.
  destruct (str_eqb_spec k' k) as [->|NE].
  - split; [intro E; injection E as ->; auto|]. intros [E|I]; [congruence|]. exfalso. apply N1. apply in_map_iff. exists (k, v). auto.
  - rewrite IH by assumption. split; [auto|]. intros [E|I]; [congruence|exact I].
Qed.
Lemma ea_diff_spec : forall cov me you, NoDup (map fst you) -> (negb (ea_diff cov me you) = true <-> forall k v, In (k, v) me -> cov k = true -> In (k, v) you).
Proof.
  intros cov me you ND. unfold ea_diff. rewrite negb_true_iff. split.
  - intros H k v I C. destruct (ea_find k you) as [v'|] eqn:F.
    + destruct (str_eqb_spec v' v) as [->|NE]; [apply ea_find_in in F; assumption|]. exfalso. assert (X : existsb (fun kv => cov (fst kv) && negb match ea_find (fst kv) you with Some v => str_eqb v (snd kv) | None => false end) me = true).
      { apply existsb_exists. exists (k, v). split; [exact I|]. cbn [fst snd]. rewrite C, F. destruct (str_eqb_spec v' v); [contradiction|reflexivity]. } congruence.
    + exfalso. assert (X : existsb (fun kv => cov (fst kv) && negb match ea_find (fst kv) you with Some v => str_eqb v (snd kv) | None => false end) me = true).
      { apply existsb_exists. exists (k, v). split; [exact I|]. cbn [fst snd]. rewrite C, F. reflexivity. } congruence.
  - intro H. match goal with |- ?b = false => destruct b eqn:X end; [|reflexivity]. apply existsb_exists in X as ((k, v) & I & B). cbn [fst snd] in B. apply andb_true_iff in B as [B1 B2].
    specialize (H k v I B1). apply (ea_find_in _ _ _ ND) in H. rewrite H, str_eqb_refl in B2. discriminate.
Qed.

(** FSA *)
Lemma fsa_eqb_eq : forall a b, fsa_eqb a b = true <-> a = b.
Proof.
  intros [fa na va] [fb nb vb]. unfold fsa_eqb. cbn [f_fam f_nat f_val]. rewrite !andb_true_iff, !N.eqb_eq.
  assert (V : fval_eqb va vb = true <-> va = vb).
  { destruct va as [x|x|[x ux]], vb as [y|y|[y uy]]; cbn [fval_eqb]; try (split; discriminate).
    - destruct x, y; cbn; split; congruence.
    - rewrite N.eqb_eq. split; congruence.
    - unfold dt_eq, unit_eqb. cbn [uni DatetimeModel.val]. rewrite andb_true_iff, !N.eqb_eq. split; [intros [U ->]; f_equal; f_equal; destruct ux, uy; cbn in U; congruence|intro E; injection E as -> ->; auto]. }
  rewrite V. split; [intros [[-> ->] ->]; reflexivity|intro E; injection E; auto].
Qed.
Lemma fsa_lt_before : forall a b, fsa_lt a b = true <-> fsa_before a b.
Proof.
  intros [fa na va] [fb nb vb]. unfold fsa_lt, fsa_before. cbn [f_fam f_nat].
  destruct (N.ltb_spec fa fb), (N.ltb_spec fb fa); split; intro X; try reflexivity; try discriminate; try lia.
Qed.
Lemma fsa_lt_not_before : forall a b, fsa_lt a b = false <-> ~ fsa_before a b.
Proof. intros a b. rewrite <- fsa_lt_before. destruct (fsa_lt a b); split; intro; congruence. Qed.
Lemma fsa_lt_trans : forall a b c, fsa_lt a b = true -> fsa_lt b c = true -> fsa_lt a c = true.
Proof.
  intros [fa na va] [fb nb vb] [fc nc vc]. unfold fsa_lt. cbn [f_fam f_nat].
  destruct (N.ltb_spec fa fb), (N.ltb_spec fb fa), (N.ltb_spec fb fc), (N.ltb_spec fc fb), (N.ltb_spec fa fc), (N.ltb_spec fc fa); try discriminate; try lia; auto.
Qed.
Lemma fsa_lt_irrefl : forall a, fsa_lt a a = false.
Proof. intros [f n v]. unfold fsa_lt. cbn. rewrite !N.ltb_irrefl. reflexivity. Qed.
Lemma sorted_tail : forall x l, fsas_sorted (x :: l) -> fsas_sorted l /\ Forall (fun y => fsa_lt x y = true) l.
Proof.
  intros x l. revert x. induction l as [|y l IH]; intros x H; [split; constructor|]. destruct H as [H1 H2]. apply fsa_lt_before in H1. split; [exact H2|]. destruct (IH y H2) as [_ F]. constructor; [exact H1|].
  eapply Forall_impl; [|exact F]. intros z Hz. eapply fsa_lt_trans; eauto.
Qed.
Lemma advance_spec : forall x rt, fsas_sorted rt -> (exists y, In y rt /\ fsa_lt y x = false) ->
  exists p y r, rt = p ++ y :: r /\ advance x rt = Ok (y :: r) /\ fsa_lt y x = false /\ Forall (fun z => fsa_lt z x = true) p.
Proof.
  intros x. induction rt as [|z rt IH]; intros S (y & I & L); [destruct I|]. cbn [advance]. destruct (fsa_lt z x) eqn:Z.
  - destruct I as [->|I]; [congruence|]. destruct rt as [|w rt]; [destruct I|]. destruct (IH (proj2 S) ltac:(eauto)) as (p & y' & r & E & A & L' & F).
    exists (z :: p), y', r. split; [rewrite E; reflexivity|]. split; [exact A|]. split; [exact L'|]. constructor; assumption.
  - exists [], z, rt. repeat split; auto.
Qed.
Lemma sorted_app_r : forall p l, fsas_sorted (p ++ l) -> fsas_sorted l.
Proof. induction p as [|x p IH]; intros l H; [exact H|]. apply IH. exact (proj1 (sorted_tail _ _ H)). Qed.
Lemma in_sorted_head : forall x y r, fsas_sorted (y :: r) -> fsa_lt y x = false -> In x (y :: r) -> x = y.
Proof. intros x y r S L [E|I]; [congruence|]. destruct (sorted_tail _ _ S) as [_ F]. rewrite Forall_forall in F. specialize (F _ I). congruence. Qed.
Lemma included_spec : forall scope it rt, fsas_sorted it -> fsas_sorted rt -> rt <> [] ->
  (forall x, In x it -> scope (f_fam x) = true -> exists y, In y rt /\ fsa_lt y x = false) ->
  exists b, included scope it rt = Ok b /\ (b = true <-> forall x, In x it -> scope (f_fam x) = true -> In x rt).
Proof.
  intros scope. induction it as [|x it IH]; intros rt SI SR NE R; cbn [included].
  - exists true. split; [reflexivity|]. split; [intros _ x []|reflexivity].
  - destruct (sorted_tail _ _ SI) as [SI' FI]. rewrite Forall_forall in FI. destruct rt as [|z rt]; [contradiction|]. destruct (scope (f_fam x)) eqn:SC; cbn [negb].
    + destruct (advance_spec x (z :: rt) SR (R x (or_introl eq_refl) SC)) as (p & y & r & E & A & L & F). rewrite A. cbn [bind].
      rewrite Forall_forall in F. assert (SY : fsas_sorted (y :: r)) by (rewrite E in SR; exact (sorted_app_r _ _ SR)).
      destruct (fsa_eqb y x) eqn:Q.
      * apply fsa_eqb_eq in Q. subst y.
        assert (MV : forall w, fsa_lt x w = true -> (In w (z :: rt) <-> In w (x :: r))).
        { intros w Lw. rewrite E, in_app_iff. split; [|tauto]. intros [I|I]; [|exact I]. specialize (F _ I). pose proof (fsa_lt_trans _ _ _ Lw F). rewrite fsa_lt_irrefl in H. discriminate. }
        destruct (IH (x :: r) SI' SY ltac:(discriminate)) as (b & EB & B).
        -- intros w I Sw. destruct (R w (or_intror I) Sw) as (y & Iy & Ly). destruct (fsa_lt y x) eqn:Yx.
           ++ pose proof (fsa_lt_trans _ _ _ Yx (FI _ I)). congruence.
           ++ rewrite E, in_app_iff in Iy. destruct Iy as [Iy|Iy]; [specialize (F _ Iy); congruence|]. eauto.
        -- exists b. split; [exact EB|]. rewrite B. split.
           ++ intros H w [<-|I] Sw; [rewrite E; apply in_or_app; right; left; reflexivity|]. apply MV; [apply FI; exact I|]. apply H; assumption.
           ++ intros H w I Sw. apply MV; [apply FI; exact I|]. apply H; [right; exact I|exact Sw].
      * exists false. split; [reflexivity|]. split; [discriminate|]. intro H. exfalso. specialize (H x (or_introl eq_refl) SC). rewrite E, in_app_iff in H. destruct H as [I|I].
        -- specialize (F _ I). rewrite fsa_lt_irrefl in F. discriminate.
        -- apply (in_sorted_head x y r SY L) in I. subst y. assert (fsa_eqb x x = true) by (apply fsa_eqb_eq; reflexivity). congruence.
    + destruct (IH (z :: rt) SI' SR NE) as (b & EB & B); [intros w I; apply R; right; exact I|]. exists b. split; [exact EB|]. rewrite B. split.
      * intros H w [<-|I] Sw; [congruence|auto].
      * intros H w I Sw. apply H; [right; exact I|exact Sw].
Qed.

(** ** the pieces of compare *)
Lemma right_sum_spec : forall k data, crc_size k <> O -> decides (crc_check k data) (right_sum k data).
Proof.
  intros k data Hk. unfold crc_check. destruct (crc_of_ok (crc_size k) data Hk) as (v & E & V). rewrite E. cbn [bind].
  assert (SV : crc_size v = crc_size k).
  { unfold crc_size at 1. rewrite V. unfold checksum. rewrite map_length, seq_length. reflexivity. }
  rewrite SV, Nat.eqb_refl. cbn [negb orb]. unfold right_sum. rewrite <- V. destruct (crc_eq k v) eqn:Q; cbn [negb].
  - left. split; [reflexivity|]. apply crc_eq_spec. exact Q.
  - right. split; [reflexivity|]. intro X. apply crc_eq_spec in X. congruence.
Qed.
Lemma crc_width_pos : forall n, crc_width n <> O.
Proof.
  intro n. unfold crc_width, GIGA. destruct (N.eqb_spec n 0); cbn [negb]; [discriminate|]. cbv zeta. destruct (N.eqb_spec (n mod 1073741824) 0); cbn [negb]; lia.
Qed.
Lemma decides_true : forall P : Prop, P -> decides (Ok tt) P.
Proof. left. auto. Qed.
Lemma decides_false : forall P : Prop, ~ P -> decides (Err Erange) P.
Proof. right. auto. Qed.
Definition by_crc (a : ainode) (check result : option crc) (you : list N) : res unit :=
  match a_saved a with
  | Sdelta => match check with
              | None => Err Erange
              | Some _ => match result with None => Err Ebug | Some k => crc_check k you end
              end
  | _ => match check with Some k => crc_check k you | None => Ok tt end
  end.
Lemma by_crc_spec : forall a check result you, (forall k, check = Some k -> crc_size k <> O) -> (forall k, result = Some k -> crc_size k <> O) -> (a_saved a = Sdelta -> check <> None -> result <> None) ->
  decides (by_crc a check result you) (match a_saved a with Sdelta => check <> None /\ exists k, result = Some k /\ right_sum k you | _ => forall k, check = Some k -> right_sum k you end).
Proof.
  intros a check result you H1 H2 H3. unfold by_crc.
  assert (P : decides (match check with Some k => crc_check k you | None => Ok tt end) (forall k, check = Some k -> right_sum k you)).
  { destruct check as [k|]; [|apply decides_true; discriminate]. eapply decides_iff; [|apply right_sum_spec, H1; reflexivity]. split; [intros R k0 E; injection E as <-; exact R|auto]. }
  destruct (a_saved a); try exact P. destruct check as [k|]; [|apply decides_false; tauto]. destruct result as [r|]; [|exfalso; apply H3; congruence].
  eapply decides_iff; [|apply right_sum_spec, H2; reflexivity]. split; [intro R; split; [discriminate|eauto]|]. intros [_ (k0 & E & R)]. injection E as <-. exact R.
Qed.
Definition by_data (o : dopt) (data : list N) (check : option crc) (you : list N) : res unit :=
  let width := if o_seq o then crc_width (N.of_nat (length you)) else match check with Some k => crc_size k | None => crc_width (N.of_nat (length you)) end in
  let* '(d, v, _) := gf_diff (o_size o) data you width in
  if d : bool then Err Erange
  else match check with
    | Some k => if negb (crc_size k =? crc_size v)%nat then Err Erange else if negb (crc_eq k v) then Err Erange else Ok tt
    | None => Ok tt
    end.
Lemma by_data_spec : forall o data check you, (0 < o_size o)%nat -> (forall k, check = Some k -> crc_size k <> O) ->
  decides (by_data o data check you) (data = you /\ forall k, check = Some k -> right_sum k you /\ (o_seq o = true -> crc_size k = crc_width (N.of_nat (length you)))).
Proof.
  intros o data check you Hs Hc. unfold by_data. set (w := if o_seq o then _ else _). assert (W : w <> O).
  { unfold w. destruct (o_seq o); [apply crc_width_pos|]. destruct check; [apply Hc; reflexivity|apply crc_width_pos]. }
  destruct (gf_diff_spec (o_size o) data you w Hs W) as (d & v & x & E & R). rewrite E. cbn [bind]. destruct d.
  - apply decides_false. tauto.
  - destruct R as (-> & _ & V & SV). destruct check as [k|]; [|apply decides_true; split; [reflexivity|discriminate]].
    rewrite SV. destruct (Nat.eqb_spec (crc_size k) w) as [K|K]; cbn [negb].
    + destruct (crc_eq k v) eqn:Q; cbn [negb].
      * apply decides_true. split; [reflexivity|]. intros k0 E0. injection E0 as <-. split; [unfold right_sum; rewrite K, <- V; apply crc_eq_spec; exact Q|].
        intro S. rewrite K. unfold w. rewrite S. reflexivity.
      * apply decides_false. intros [_ H]. destruct (H k eq_refl) as [RS _]. unfold right_sum in RS. rewrite K, <- V in RS. apply crc_eq_spec in RS. congruence.
    + apply decides_false. intros [_ H]. destruct (H k eq_refl) as [_ S]. unfold w in K. destruct (o_seq o); [apply K, S; reflexivity|apply K; reflexivity].
Qed.
Lemma file_spec : forall o a size data check sig result f you, a_kind a = Afile size data check sig result -> ainode_ok a -> (0 < o_size o)%nat ->
  decides (file_compare o a size data check sig result f you) (size = N.of_nat (length you) /\ dates_agree (o_cap o) 0 (a_mtime a) (f_mtime f) /\ data_agrees o a data check sig result you).
Proof.
  intros o a size data check sig result f you K (_ & _ & H) Hs. rewrite K in H. destruct H as (H1 & H2 & H3 & H4). unfold file_compare.
  apply decides_if; [apply N.eqb_eq|]. intros _. destruct (dates_spec (o_cap o) 0 (a_mtime a) (f_mtime f)) as (e & E & D). rewrite E. cbn [bind].
  apply decides_if; [exact D|]. intros _.
  assert (C : decides (match sig with
      | Some (magic, len, s) => if negb (o_seq o && o_isolated o) && o_librsync o then if magic =? 0 then Err Ebug else if str_eqb s (o_rsig o magic len you) then Ok tt else Err Erange else by_crc a check result you
      | None => by_crc a check result you end)
    (match sig, o_librsync o && negb (o_seq o && o_isolated o) with
     | Some (magic, len, s), true => s = o_rsig o magic len you
     | _, _ => match a_saved a with Sdelta => check <> None /\ exists k, result = Some k /\ right_sum k you | _ => forall k, check = Some k -> right_sum k you end
     end)).
  { pose proof (by_crc_spec a check result you H1 H2 H3) as B. destruct sig as [[[m len] s]|]; [|exact B]. rewrite (andb_comm (o_librsync o)). destruct (negb (o_seq o && o_isolated o) && o_librsync o); [|exact B].
    destruct (N.eqb_spec m 0) as [Z|Z]; [exfalso; exact (H4 _ _ _ eq_refl Z)|]. destruct (str_eqb_spec s (o_rsig o m len you)); [apply decides_true|apply decides_false]; assumption. }
  unfold data_agrees. destruct (a_saved a) eqn:SV; cbn [andb]; try (unfold by_crc in C; rewrite SV in C; destruct (o_isolated o); exact C).
  destruct (o_isolated o) eqn:IS; cbn [negb]; [|exact (by_data_spec o data check you Hs H1)].
  unfold by_crc in C. rewrite SV in C. exact C.
Qed.
Lemma ctime_spec : forall o a f, decides (ctime_check o a f) (not_older o (a_ctime a) (f_ctime f)).
Proof.
  intros o a f. unfold ctime_check. destruct (dates_spec (o_cap o) (o_shift o) (a_ctime a) (f_ctime f)) as (e & E & D). rewrite E, C19_order. cbn [bind]. unfold not_older.
  destruct e; cbn [negb andb]; [apply decides_true; right; apply D; reflexivity|]. destruct (N.ltb_spec (instant (a_ctime a)) (instant (f_ctime f))).
  - apply decides_false. intros [L|X]; [lia|]. apply D in X. discriminate.
  - apply decides_true. left. lia.
Qed.
Lemma ea_spec : forall o a f, finode_ok f -> decides (ea_compare o a f) (eas_agree o a f).
Proof.
  intros o a f [H _]. unfold ea_compare, eas_agree.
  assert (P : decides (match f_eas f with Some _ => ctime_check o a f | None => Err Erange end) (f_eas f <> None /\ not_older o (a_ctime a) (f_ctime f))).
  { destruct (f_eas f); [|apply decides_false; tauto]. eapply decides_iff; [|apply ctime_spec]. split; [split; [discriminate|assumption]|tauto]. }
  destruct (a_ea a); try exact P; try (apply decides_true; exact I).
  destruct (f_eas f) as [you|] eqn:E; [|apply decides_false; intros (y & E2 & _); discriminate].
  pose proof (ea_diff_spec (o_ea o) (a_eas a) you (H _ eq_refl)) as S. destruct (o_isolated o); cbn [negb andb].
  - apply decides_true. exists you. split; [reflexivity|discriminate].
  - destruct (ea_diff (o_ea o) (a_eas a) you); cbn [negb] in S.
    + apply decides_false. intros (y & E2 & R). injection E2 as <-. destruct S as [_ S]. specialize (S (R eq_refl)). discriminate.
    + apply decides_true. exists you. split; [reflexivity|]. intros _. apply S. reflexivity.
Qed.
Lemma in_scope_spec : forall o n, in_scope o n = true <-> In n (o_scope o).
Proof. intros o n. unfold in_scope. rewrite existsb_exists. split; [intros (x & I & E); apply N.eqb_eq in E; congruence|intro I; exists n; split; [exact I|apply N.eqb_refl]]. Qed.
Lemma fsa_spec : forall o a f, ainode_ok a -> finode_ok f -> fsa_reached o a f -> decides (fsa_compare o a f) (fsas_agree o a f).
Proof.
  intros o a f (_ & SA & _) [_ H] R. unfold fsa_compare, fsas_agree.
  assert (M : decides (match o_scope o with [] => Ok tt | _ :: _ => Err Erange end) (o_scope o = [])) by (destruct (o_scope o); [apply decides_true; reflexivity|apply decides_false; discriminate]).
  destruct (a_fsa a); [apply decides_true; exact I| |].
  - destruct (f_fsas f); [apply ctime_spec|exact M].
  - destruct (f_fsas f) as [you|] eqn:E; [|exact M]. destruct (H _ eq_refl) as [SY NE]. destruct (o_isolated o); [apply decides_true; discriminate|].
    destruct (included_spec (in_scope o) (a_fsas a) you SA SY NE) as (b & EB & B).
    { intros x I S. destruct (R you x E I) as (y & Iy & Ly); [apply in_scope_spec; exact S|]. exists y. split; [exact Iy|apply fsa_lt_not_before; exact Ly]. }
    rewrite EB. cbn [bind]. destruct b.
    + apply decides_true. intros _ x I S. apply (proj1 B eq_refl); [exact I|apply in_scope_spec; exact S].
    + apply decides_false. intro X. destruct B as [_ B]. assert (false = true); [|discriminate]. apply B. intros x I S. apply X; [reflexivity|exact I|apply in_scope_spec; exact S].
Qed.
Lemma kind_spec : forall o a f, ainode_ok a -> (0 < o_size o)%nat -> a_letter (a_kind a) = f_letter (f_kind f) -> decides (sub_compare o a f) (kinds_agree o a f).
Proof.
  intros o a f HA Hs L. unfold sub_compare, kinds_agree.
  assert (SAVED : forall (b : bool) (P : Prop), (b = true <-> P) -> decides (if match a_saved a with Ssaved => true | _ => false end && negb b then Err Erange else Ok tt) (a_saved a = Ssaved -> P)).
  { intros b P H. destruct (a_saved a); cbn [andb]; try (apply decides_true; discriminate). destruct b; cbn [negb].
    - apply decides_true. intros _. apply H. reflexivity.
    - apply decides_false. intro X. destruct H as [_ H]. specialize (H (X eq_refl)). discriminate. }
  destruct (a_kind a) eqn:KA, (f_kind f) eqn:KF; cbn [a_letter f_letter] in L; try discriminate; try (apply decides_true; exact I).
  - apply file_spec; assumption.
  - apply SAVED. apply str_eqb_eq.
  - apply SAVED. rewrite andb_true_iff, !N.eqb_eq. tauto.
  - apply SAVED. rewrite andb_true_iff, !N.eqb_eq. tauto.
Qed.
Lemma kinds_letter : forall o a f, kinds_agree o a f -> a_letter (a_kind a) = f_letter (f_kind f).
Proof. intros o a f. unfold kinds_agree. destruct (a_kind a), (f_kind f); try contradiction; reflexivity. Qed.
Lemma decides_fields : forall o a f (k : res unit) (Q : Prop), decides k Q ->
  decides (if (match o_what o with F_all => true | _ => false end) && negb (a_uid a =? f_uid f) then Err Erange
           else if (match o_what o with F_all => true | _ => false end) && negb (a_gid a =? f_gid f) then Err Erange
           else if (match o_what o with F_all | F_ignore_owner => true | _ => false end) && negb (a_perm a =? f_perm f) then Err Erange
           else k)
    ((o_what o = F_all -> a_uid a = f_uid f /\ a_gid a = f_gid f) /\ (o_what o = F_all \/ o_what o = F_ignore_owner -> a_perm a = f_perm f) /\ Q).
Proof.
  intros o a f k Q D. destruct (N.eqb_spec (a_uid a) (f_uid f)), (N.eqb_spec (a_gid a) (f_gid f)), (N.eqb_spec (a_perm a) (f_perm f)), (o_what o); cbn [negb andb];
    try (apply decides_false; intros (A & B & C); intuition congruence);
    (eapply decides_iff; [|exact D]; split; [intro q; repeat split; intros; intuition congruence|tauto]).
Qed.
Theorem compare_spec : forall o a f, ainode_ok a -> finode_ok f -> fsa_reached o a f -> (0 < o_size o)%nat -> decides (compare o a f) (agrees o a f).
Proof.
  intros o a f HA HF HR Hs. unfold compare, agrees.
  set (dm := match f_kind f with Flink _ => o_linkdate o | _ => true end).
  set (D1 := o_what o <> F_inode_type -> is_symlink f = true -> o_linkdate o = true -> dates_agree (o_cap o) (o_shift o) (a_mtime a) (f_mtime f)).
  set (D2 := o_what o <> F_inode_type -> is_symlink f = false -> dates_agree (o_cap o) (o_shift o) (a_mtime a) (f_mtime f)).
  unfold same_as. destruct (str_eqb_spec (a_name a) (f_name f)) as [NE|NE]; cbn [andb negb]; [|apply decides_false; tauto].
  destruct (N.eqb_spec (a_letter (a_kind a)) (f_letter (f_kind f))) as [L|L]; cbn [negb]; [|apply decides_false; intros (_ & _ & _ & _ & _ & K & _); apply L; exact (kinds_letter _ _ _ K)].
  eapply decides_iff; [|apply decides_fields; eapply (decides_iff _ ((D1 /\ D2) /\ kinds_agree o a f /\ eas_agree o a f /\ fsas_agree o a f)); [reflexivity|]].
  - tauto.
  - assert (DT : exists bad, (if dm && date_checked (o_what o) then let* e := equal_with_hourshift (o_cap o) (o_shift o) (a_mtime a) (f_mtime f) in Ok (negb e) else Ok false) = Ok bad /\ (negb bad = true <-> D1 /\ D2)).
    { unfold dm, D1, D2, is_symlink. destruct (dates_spec (o_cap o) (o_shift o) (a_mtime a) (f_mtime f)) as (e & E & S). rewrite E. cbn [bind].
      assert (X : forall (X Y : Prop), (exists bad, Ok (negb e) = Ok bad /\ (negb bad = true <-> dates_agree (o_cap o) (o_shift o) (a_mtime a) (f_mtime f)))).
      { intros. exists (negb e). split; [reflexivity|]. rewrite negb_involutive. exact S. }
      destruct (o_what o) eqn:W; cbn [date_checked]; try rewrite andb_false_r; try (exists false; split; [reflexivity|]; split; [intros _; split; congruence|reflexivity]);
        rewrite andb_true_r; destruct (f_kind f); try (destruct (X True True) as (bad & E1 & S1); exists bad; split; [exact E1|]; rewrite S1; split; [intro; split; [discriminate|auto]|intros [_ Y]; apply Y; [discriminate|reflexivity]]);
        destruct (o_linkdate o); try (destruct (X True True) as (bad & E1 & S1); exists bad; split; [exact E1|]; rewrite S1; split; [intro; split; [auto|discriminate]|intros [Y _]; apply Y; [discriminate|reflexivity|reflexivity]]);
        exists false; (split; [reflexivity|]; split; [intros _; split; discriminate|reflexivity]). }
    destruct DT as (bad & E & S). rewrite E. cbn [bind].
    replace (if bad then Err Erange else let* _ := sub_compare o a f in let* _ := ea_compare o a f in fsa_compare o a f)
      with (if negb (negb bad) then Err Erange else let* _ := sub_compare o a f in let* _ := ea_compare o a f in fsa_compare o a f) by (rewrite negb_involutive; reflexivity).
    apply decides_if; [exact S|]. intros _. apply decides_bind; [apply kind_spec; assumption|]. intros _. apply decides_bind; [apply ea_spec; assumption|]. intros _. apply fsa_spec; assumption.
Qed.
