From Coq Require Import List.
From Verif Require Import Base InfinintModel CrcModel DatetimeModel PathModel CatModel SeqModel DiffModel DiffSpec DiffProof DiffProof2.
Import ListNotations.
Open Scope N_scope.

(** the reported path when the directory being read is [here] *)
Definition inside (d : defile) (here : fpath) : Prop := (d_path d = here /\ d_init d = true) \/ (exists x, d_path d = x :: here) /\ d_init d = false.
Lemma enter_inside : forall d here n dir, inside d here -> df_enter n dir d = Ok (Df (n :: here) dir).
Proof.
  intros [p i] here n dir H. unfold inside in H. cbn [d_path d_init] in H. unfold df_enter, df_pop. cbn [d_init d_path]. destruct H as [[-> ->]|[[x ->] ->]]; cbn [bind d_path d_init]; destruct dir; reflexivity.
Qed.
Lemma eod_inside : forall d n here, inside d (n :: here) -> exists d', df_eod d = Ok d' /\ inside d' here.
Proof.
  intros [p i] n here H. unfold inside in H. cbn [d_path d_init] in H. unfold df_eod, df_pop. cbn [d_init d_path]. destruct H as [[-> ->]|[[x ->] ->]]; cbn [bind]; eexists; (split; [reflexivity|]); right; cbn [d_path d_init]; split; eauto.
Qed.
Lemma nodes_of_cons : forall t l, nodes_of (t :: l) = (nodes t + nodes_of l)%nat.
Proof. reflexivity. Qed.
Lemma nodes_dir : forall i ch, nodes (Tdir i ch) = S (S (nodes_of ch)).
Proof. intros i ch. cbn [nodes]. do 2 apply f_equal. induction ch as [|t ch IH]; [reflexivity|]. change (nodes_of (t :: ch)) with (nodes t + nodes_of ch)%nat. rewrite <- IH. reflexivity. Qed.
Definition trees_ok (o : dopt) (fs : fpath -> lookup) (here : fpath) (l : list atree) : Prop := Forall (tree_ok o fs here) l.
Lemma tree_ok_dir : forall o fs here i ch, tree_ok o fs here (Tdir i ch) ->
  ainode_ok i /\ (forall e, fs (a_name i :: here) <> Fails e) /\ a_kind i = Adir /\
  (forall f, fs (a_name i :: here) = Found f -> finode_ok f /\ f_name f = a_name i /\ fsa_reached o i f) /\ trees_ok o fs (a_name i :: here) ch.
Proof.
  intros o fs here i ch H. cbn [tree_ok] in H. destruct H as ((H1 & _ & H2) & H3 & H4 & H5). split; [exact H1|]. split; [exact H3|]. split; [exact H4|]. split; [exact H2|].
  unfold trees_ok. induction ch as [|t ch IH]; [constructor|]. destruct H5 as [H5 H6]. constructor; auto.
Qed.
Definition prepend (l : list dline) (x : list dline * res unit) : list dline * res unit := (l ++ fst x, snd x).
Section Walk.
  Variables (o : dopt) (subtree : fpath -> bool) (names : list N -> bool) (fs : fpath -> lookup).
  Hypothesis Hs : (0 < o_size o)%nat.
  Notation REPORTS := (reports o subtree names fs).
  Notation ALL := (reports_all o subtree names fs).
  (** an inode that is not a directory *)
  Lemma on_leaf : forall i here st d, ainode_ok i -> a_kind i <> Adir -> (forall e, fs (a_name i :: here) = Fails e -> fatal e = false) ->
    (forall f, fs (a_name i :: here) = Found f -> finode_ok f /\ f_name f = a_name i /\ fsa_reached o i f) -> d_path d = a_name i :: here ->
    exists v, judge o i (fs (a_name i :: here)) v /\ on_inode o fs i false (Dst st d here (S (length here))) = ([(a_name i :: here, v)], Ok (Dst st d here (S (length here)))).
  Proof.
    intros i here st d HA HK HE HF HD. unfold on_inode. cbn [w_cur w_path w_stack w_pile]. rewrite HD. destruct (fs (a_name i :: here)) as [|f|e] eqn:EF.
    - exists Vmissing. split; reflexivity.
    - destruct (HF f eq_refl) as (FO & FN & FR). destruct (compare_spec o i f HA FO FR Hs) as [[EC AG]|[EC AG]]; rewrite EC.
      + exists Vok. split; [left; auto|]. destruct (is_dirkind (f_kind f)) eqn:KD; [|reflexivity]. exfalso. destruct AG as (_ & _ & _ & _ & _ & K & _). apply kinds_letter in K.
        destruct (f_kind f); try discriminate. destruct (a_kind i); cbn in K; try discriminate. apply HK. reflexivity.
      + exists Vdiff. split; [right; auto|]. cbn [negb andb]. destruct (is_dirkind (f_kind f)); cbn [andb bind fs_up w_pile w_stack w_path w_cur List.tl]; reflexivity.
    - exists (Verr e). split; [reflexivity|]. rewrite (HE e eq_refl). reflexivity.
  Qed.
  Lemma on_directory : forall i ch rest up here d, ainode_ok i -> (forall e, fs (a_name i :: here) <> Fails e) -> a_kind i = Adir ->
    (forall f, fs (a_name i :: here) = Found f -> finode_ok f /\ f_name f = a_name i /\ fsa_reached o i f) -> d = Df (a_name i :: here) true ->
    exists v, judge o i (fs (a_name i :: here)) v /\ on_inode o fs i true (Dst (ch :: rest :: up) d here (S (length here))) =
      ([(a_name i :: here, v)], Ok (if is_dir (fs (a_name i :: here)) then Dst (ch :: rest :: up) d (a_name i :: here) (S (S (length here)))
                                    else Dst (rest :: up) (Df (a_name i :: here) false) here (S (length here)))).
  Proof.
    intros i ch rest up here d HA HE HK HF ->. unfold on_inode. cbn [w_cur w_path w_stack w_pile d_path]. destruct (fs (a_name i :: here)) as [|f|e] eqn:EF.
    - exists Vmissing. split; reflexivity.
    - destruct (HF f eq_refl) as (FO & FN & FR). cbn [is_dir]. destruct (compare_spec o i f HA FO FR Hs) as [[EC AG]|[EC AG]]; rewrite EC.
      + exists Vok. split; [left; auto|]. destruct AG as (_ & _ & _ & _ & _ & K & _). apply kinds_letter in K. rewrite HK in K. destruct (f_kind f); try discriminate. cbn [is_dirkind]. rewrite FN. reflexivity.
      + exists Vdiff. split; [right; auto|]. cbn [negb andb bind]. destruct (is_dirkind (f_kind f)); cbn [negb]; [rewrite FN|]; reflexivity.
    - exfalso. exact (HE e eq_refl).
  Qed.
  Notation WALK n := (walk n o subtree names fs).
  Lemma walk_eod : forall n here x up d, inside d (x :: here) -> exists d', inside d' here /\ forall l,
    WALK (S n) (Dst ([] :: l :: up) d (x :: here) (S (S (length here)))) = WALK n (Dst (l :: up) d' here (S (length here))).
  Proof.
    intros n here x up d H. destruct (eod_inside _ _ _ H) as (d' & E & I). exists d'. split; [exact I|]. intro l. cbn [walk cat_read w_stack w_path w_cur w_pile]. rewrite E. reflexivity.
  Qed.
  Lemma prepend_app : forall a b x, prepend a (prepend b x) = prepend (a ++ b) x.
  Proof. intros. unfold prepend. cbn [fst snd]. rewrite app_assoc. reflexivity. Qed.
  Lemma prepend_nil : forall x, prepend [] x = x.
  Proof. intros [a b]. reflexivity. Qed.
  (** one entry *)
  Lemma walk_step : forall n t ts here up d, inside d here ->
    WALK (S n) (Dst ((t :: ts) :: up) d here (S (length here))) =
    let dir := match t with Tdir _ _ => true | _ => false end in
    let d1 := Df (tname t :: here) dir in
    let s1 := Dst (match t with Tdir _ ch => ch :: ts :: up | _ => ts :: up end) d1 here (S (length here)) in
    match on_entry o subtree names fs t s1 with
    | (l, Err e) => (link_line o t (tname t :: here) ++ l, Err e)
    | (l, Ok s) => prepend (link_line o t (tname t :: here) ++ l) (WALK n s)
    end.
  Proof.
    intros n t ts here up d H. cbn [walk cat_read w_stack w_path w_cur w_pile]. rewrite (enter_inside _ _ (tname t) (match t with Tdir _ _ => true | _ => false end) H). cbn [d_path].
    destruct t; cbv zeta; destruct (on_entry o subtree names fs _ _) as [l [s|e]]; try reflexivity; destruct (WALK n s) as [more r]; reflexivity.
  Qed.
  Lemma inside_leaf : forall n here, inside (Df (n :: here) false) here.
  Proof. intros. right. cbn. eauto. Qed.
  Lemma walk_leaf : forall t ts here up d n, match t with Tdir _ _ => False | _ => True end -> tree_ok o fs here t -> inside d here ->
    exists l d1, REPORTS here t l /\ inside d1 here /\ WALK (S n) (Dst ((t :: ts) :: up) d here (S (length here))) = prepend l (WALK n (Dst (ts :: up) d1 here (S (length here)))).
  Proof.
    intros t ts here up d n HT HO HI. rewrite walk_step by exact HI. destruct t as [i|i links|g|i ch]; [| | |contradiction]; cbn [tname]; cbv zeta; unfold on_entry; cbn [w_path d_path tname].
    - cbn [tree_ok] in HO. destruct HO as ((H1 & H2 & H3) & H4). cbn [link_line app]. rewrite orb_false_l. destruct (subtree (a_name i :: here)) eqn:SU; cbn [andb].
      + destruct (names (a_name i)) eqn:NA.
        * destruct (on_leaf i here (ts :: up) (Df (a_name i :: here) false) H1 H4 H2 H3 eq_refl) as (v & J & E). rewrite E. exists [(a_name i :: here, v)], (Df (a_name i :: here) false).
          split; [apply rp_ino; assumption|]. split; [apply inside_leaf|reflexivity].
        * exists [(a_name i :: here, Vskipped)], (Df (a_name i :: here) false). split; [apply rp_skip; rewrite SU, NA; reflexivity|]. split; [apply inside_leaf|reflexivity].
      + exists [(a_name i :: here, Vskipped)], (Df (a_name i :: here) false). split; [apply rp_skip; rewrite SU; reflexivity|]. split; [apply inside_leaf|reflexivity].
    - cbn [tree_ok] in HO. destruct HO as ((H1 & H2 & H3) & H4). cbn [link_line]. rewrite orb_false_l.
      assert (LO : negb match a_kind i with Afile _ _ _ _ _ => true | _ => false end || (links =? 1) || negb (o_seq o) = negb (left_out o i links)).
      { unfold left_out. destruct (a_kind i), (links =? 1), (o_seq o); reflexivity. }
      rewrite LO. destruct (subtree (a_name i :: here)) eqn:SU; cbn [andb].
      + destruct (names (a_name i)) eqn:NA.
        * destruct (left_out o i links) eqn:LE; cbn [negb].
          -- exists [(a_name i :: here, Vlinkskipped); (a_name i :: here, Vnothing)], (Df (a_name i :: here) false). split; [apply rp_left; assumption|]. split; [apply inside_leaf|reflexivity].
          -- destruct (on_leaf i here (ts :: up) (Df (a_name i :: here) false) H1 H4 H2 H3 eq_refl) as (v & J & E). rewrite E. exists [(a_name i :: here, v)], (Df (a_name i :: here) false).
             split; [apply rp_mir; assumption|]. split; [apply inside_leaf|reflexivity].
        * exists ((if left_out o i links then [(a_name i :: here, Vlinkskipped)] else []) ++ [(a_name i :: here, Vskipped)]), (Df (a_name i :: here) false).
          split; [apply rp_skip_mir; rewrite SU, NA; reflexivity|]. split; [apply inside_leaf|]. destruct (left_out o i links); reflexivity.
      + exists ((if left_out o i links then [(a_name i :: here, Vlinkskipped)] else []) ++ [(a_name i :: here, Vskipped)]), (Df (a_name i :: here) false).
        split; [apply rp_skip_mir; rewrite SU; reflexivity|]. split; [apply inside_leaf|]. destruct (left_out o i links); reflexivity.
    - cbn [link_line app]. rewrite orb_false_l. destruct (subtree (g :: here)) eqn:SU; cbn [andb].
      + destruct (names g) eqn:NA.
        * exists [(g :: here, Vnothing)], (Df (g :: here) false). split; [apply rp_gone; assumption|]. split; [apply inside_leaf|reflexivity].
        * exists [(g :: here, Vskipped)], (Df (g :: here) false). split; [apply rp_skip_gone; rewrite SU, NA; reflexivity|]. split; [apply inside_leaf|reflexivity].
      + exists [(g :: here, Vskipped)], (Df (g :: here) false). split; [apply rp_skip_gone; rewrite SU; reflexivity|]. split; [apply inside_leaf|reflexivity].
  Qed.
  Lemma walk_all : forall k ts here up d n, (nodes_of ts <= k)%nat -> trees_ok o fs here ts -> inside d here ->
    exists lines d' m, ALL here ts lines /\ inside d' here /\ (n <= m)%nat /\
      WALK (nodes_of ts + n)%nat (Dst (ts :: up) d here (S (length here))) = prepend lines (WALK m (Dst ([] :: up) d' here (S (length here)))).
  Proof.
    induction k as [|k IH]; intros ts here up d n Hk HO HI;
      (destruct ts as [|t ts]; [exists [], d, n; split; [constructor|]; split; [exact HI|]; split; [lia|]; symmetry; apply prepend_nil|]).
    - exfalso. rewrite nodes_of_cons in Hk. destruct t; [cbn in Hk; lia|cbn in Hk; lia|cbn in Hk; lia|rewrite nodes_dir in Hk; lia].
    - apply Forall_cons_iff in HO as [T1 T2]. rewrite nodes_of_cons in *.
      assert (LEAF : match t with Tdir _ _ => False | _ => True end -> nodes t = 1%nat ->
        exists lines d' m, ALL here (t :: ts) lines /\ inside d' here /\ (n <= m)%nat /\ WALK (nodes t + nodes_of ts + n)%nat (Dst ((t :: ts) :: up) d here (S (length here))) = prepend lines (WALK m (Dst ([] :: up) d' here (S (length here))))).
      { intros HT H1. destruct (walk_leaf t ts here up d (nodes_of ts + n) HT T1 HI) as (l & d1 & R1 & I1 & W1).
        destruct (IH ts here up d1 n ltac:(lia) T2 I1) as (ls & d2 & m & R2 & I2 & M2 & W2). exists (l ++ ls), d2, m. split; [constructor; assumption|]. split; [exact I2|]. split; [exact M2|].
        rewrite H1. cbn [Nat.add]. rewrite W1, W2, prepend_app. reflexivity. }
      destruct t as [i|i links|g|i ch]; try (apply LEAF; [exact I|reflexivity]). clear LEAF. rewrite nodes_dir in *.
      destruct (tree_ok_dir _ _ _ _ _ T1) as (H1 & H2 & H3 & H4 & H5).
      cbn [Nat.add]. rewrite walk_step by exact HI. cbn [tname]. cbv zeta. unfold on_entry. cbn [w_path d_path tname link_line app]. rewrite orb_true_l, andb_true_r.
      assert (OUT : forall l x, REPORTS here (Tdir i ch) l -> inside x here ->
        exists lines d' m, ALL here (Tdir i ch :: ts) lines /\ inside d' here /\ (n <= m)%nat /\
          prepend l (WALK (S (nodes_of ch + nodes_of ts + n)) (Dst (ts :: up) x here (S (length here)))) = prepend lines (WALK m (Dst ([] :: up) d' here (S (length here))))).
      { intros l x R X. destruct (IH ts here up x (S (nodes_of ch + n)) ltac:(lia) T2 X) as (ls & d2 & m & R2 & I2 & M2 & W2). exists (l ++ ls), d2, m. split; [constructor; assumption|]. split; [exact I2|]. split; [lia|].
        replace (S (nodes_of ch + nodes_of ts + n))%nat with (nodes_of ts + S (nodes_of ch + n))%nat by lia. rewrite W2, prepend_app. reflexivity. }
      destruct (subtree (a_name i :: here)) eqn:SU.
      + destruct (on_directory i ch ts up here _ H1 H2 H3 H4 eq_refl) as (v & J & E). rewrite E. destruct (is_dir (fs (a_name i :: here))) eqn:DI.
        * destruct (IH ch (a_name i :: here) (ts :: up) (Df (a_name i :: here) true) (S (nodes_of ts + n)) ltac:(lia) H5 ltac:(left; split; reflexivity)) as (ls & d2 & m & R2 & I2 & M2 & W2).
          cbn [length] in W2. replace (S (nodes_of ch + nodes_of ts + n))%nat with (nodes_of ch + S (nodes_of ts + n))%nat by lia. rewrite W2.
          assert (Q : exists q, m = S (nodes_of ts + q) /\ (n <= q)%nat) by (exists (m - 1 - nodes_of ts)%nat; lia). destruct Q as (q & -> & Hq).
          destruct (walk_eod (nodes_of ts + q) here (a_name i) up d2 I2) as (d3 & I3 & W3). rewrite W3.
          destruct (IH ts here up d3 q ltac:(lia) T2 I3) as (ls4 & d4 & m4 & R4 & I4 & M4 & W4). rewrite W4.
          exists (((a_name i :: here, v) :: ls) ++ ls4), d4, m4. split; [constructor; [apply rp_dir; assumption|exact R4]|]. split; [exact I4|]. split; [lia|]. rewrite !prepend_app. reflexivity.
        * apply OUT; [apply rp_nodir; assumption|apply inside_leaf].
      + cbn [cat_up w_stack w_path w_cur w_pile List.tl df_eod df_pop d_init d_path bind]. apply OUT; [apply rp_skip_dir; exact SU|apply inside_leaf].
  Qed.
  Lemma difference_spec : forall root, trees_ok o fs [] root -> exists lines, ALL [] root lines /\ difference o subtree names fs root = (lines, Ok tt).
  Proof.
    intros root H. destruct (walk_all (nodes_of root) root [] [] (Df [] true) 1 (le_n _) H ltac:(left; split; reflexivity)) as (lines & d & m & R & I & M & W).
    exists lines. split; [exact R|]. unfold difference. replace (S (nodes_of root)) with (nodes_of root + 1)%nat by lia. cbn [length] in W. rewrite W. destruct m as [|m]; [lia|].
    unfold prepend. cbn. rewrite app_nil_r. reflexivity.
  Qed.
End Walk.
