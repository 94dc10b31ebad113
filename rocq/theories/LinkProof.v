(** Proofs for C41, part 1: what a backup writes. *)
From Coq Require Import NArith List Bool Lia.
From Verif Require Import Base DatetimeModel PropDatetime PropChange CritModel RestoreModel RestoreSpec RestoreProof RestoreProof2 LinkModel LinkSpec.
Import ListNotations.
Open Scope N_scope.
Local Set Warnings "-notation-overridden".

Lemma upd_same : forall (A : Type) (m : N -> A) k v, upd m k v k = v. Proof. intros. unfold upd. rewrite N.eqb_refl. reflexivity. Qed.
Lemma upd_other : forall (A : Type) (m : N -> A) k v x, x <> k -> upd m k v x = m x.
Proof. intros A m k v x H. unfold upd. destruct (N.eqb_spec x k); [contradiction|reflexivity]. Qed.
Lemma updn_same : forall (A : Type) (m : list N -> A) k v, updn m k v k = v. Proof. intros. unfold updn. rewrite neqb_refl. reflexivity. Qed.
Lemma updn_other : forall (A : Type) (m : list N -> A) k v x, x <> k -> updn m k v x = m x.
Proof. intros A m k v x H. unfold updn. rewrite neqb_ne by exact H. reflexivity. Qed.

Section Backup.
Variables (cap : time_unit) (hourshift : N).
Variable cov : name -> bool.
Variable ref : larc.
Variable d : disk.
Notation sh := (save_head cap hourshift).
Notation save_one := (save_one cap hourshift cov ref d).

Definition nb (i : N) (l : list (name * N)) : N := N.of_nat (length (filter (fun x => snd x =? i) l)).
Lemma nb_app : forall i a b, nb i (a ++ b) = nb i a + nb i b.
Proof. intros. unfold nb. rewrite filter_app, app_length. lia. Qed.
Lemma nb_one : forall i p j, nb i [(p, j)] = if j =? i then 1 else 0.
Proof. intros. unfold nb. cbn. destruct (j =? i); reflexivity. Qed.
Lemma nb_pos : forall i p l, In (p, i) l -> 1 <= nb i l.
Proof.
  induction l as [|[q j] l IH]; intros []; change ((q, j) :: l) with ([(q, j)] ++ l); rewrite nb_app, nb_one.
  - injection H as -> ->. rewrite N.eqb_refl. lia. - specialize (IH H). lia.
Qed.
Lemma nb_in : forall i l, 1 <= nb i l -> In i (map snd l).
Proof.
  induction l as [|[q j] l IH]; intro H; [cbn in H; lia|]. change ((q, j) :: l) with ([(q, j)] ++ l) in H. rewrite nb_app, nb_one in H. cbn.
  destruct (N.eqb_spec j i); [auto|right; apply IH; lia].
Qed.

(** the first selected name of an inode *)
Definition leader (l : list (name * N)) (i : N) : option name := option_map fst (find (fun x => cov (fst x) && (snd x =? i)) l).
Lemma leader_app : forall a b i, leader (a ++ b) i = match leader a i with Some p => Some p | None => leader b i end.
Proof.
  intros a b i. unfold leader. induction a as [|x a IH]; [reflexivity|]. cbn [app find]. destruct (cov (fst x) && (snd x =? i)); [reflexivity|exact IH].
Qed.
Lemma leader_in : forall l i p, leader l i = Some p -> In (p, i) l /\ cov p = true.
Proof.
  intros l i p H. unfold leader in H. destruct (find _ l) as [[q j]|] eqn:E; [|discriminate]. injection H as <-. apply find_some in E. destruct E as [E F]. cbn in *.
  apply andb_true_iff in F. destruct F as [F1 F2]. apply N.eqb_eq in F2. subst j. auto.
Qed.
Lemma leader_some : forall l i p, In (p, i) l -> cov p = true -> exists q, leader l i = Some q.
Proof.
  intros l i p H C. unfold leader. destruct (find _ l) as [x|] eqn:E; [eexists; reflexivity|]. exfalso. apply (find_none _ _ E) in H. cbn in H. rewrite C, N.eqb_refl in H. discriminate.
Qed.
Definition saved_as (l : list (name * N)) (i : N) : chead :=
  sh (d_inode d i) (match leader l i with Some q => ref_for ref q (d_inode d i) | None => None end).

Definition oent (E : N -> option N) (p : name) (i : N) : lent :=
  if cov p then (match E i with Some e => LMir e | None => LPlain (sh (d_inode d i) (ref_for ref p (d_inode d i))) end) else LIgn.
Definition binv (P : list (name * N)) (E : N -> option N) (s : bst) : Prop :=
  (forall i e, E i = Some e -> e < b_next s) /\ (forall i j e, E i = Some e -> E j = Some e -> i = j) /\
  (forall i, E i <> None <-> 1 < d_nlink d i /\ In i (map snd P)) /\
  (forall i, match b_corres s i with Some (e, k) => E i = Some e /\ k + nb i P = d_nlink d i /\ 0 < k | None => E i = None \/ d_nlink d i <= nb i P end) /\
  b_out s = map (fun x => (fst x, oent E (fst x) (snd x))) P /\
  (forall i e, E i = Some e -> (b_wrote s e = true <-> leader P i <> None) /\ (leader P i <> None -> b_star s e = saved_as P i)) /\
  (forall e, b_next s <= e -> b_wrote s e = false).

Lemma saved_as_app : forall P x i, leader P i <> None -> saved_as (P ++ x) i = saved_as P i.
Proof. intros P x i H. unfold saved_as. rewrite leader_app. destruct (leader P i); [reflexivity|congruence]. Qed.

Lemma save_one_inv : forall P E s p i, binv P E s -> (forall j, nb j (P ++ [(p, i)]) <= d_nlink d j) -> exists E', binv (P ++ [(p, i)]) E' (save_one s (p, i)).
Proof.
  intros P E s p i (I1 & I2 & I3 & I4 & I5 & I6 & I7) Le. unfold LinkModel.save_one. destruct (N.ltb_spec 1 (d_nlink d i)) as [Hl|Hl].
  - (* several links: the etiquette, and the state once it is known *)
    assert (X : exists E' e, fst (see_link d i s) = e /\ E' i = Some e /\ (forall j, j <> i -> E' j = E j) /\ (E i = None \/ E i = Some e) /\
      (forall j e', E' j = Some e' -> e' < b_next (snd (see_link d i s))) /\ (forall j k e', E' j = Some e' -> E' k = Some e' -> j = k) /\
      (forall j, match b_corres (snd (see_link d i s)) j with Some (e', k) => E' j = Some e' /\ k + nb j (P ++ [(p, i)]) = d_nlink d j /\ 0 < k
                 | None => E' j = None \/ d_nlink d j <= nb j (P ++ [(p, i)]) end) /\
      b_star (snd (see_link d i s)) = b_star s /\ b_wrote (snd (see_link d i s)) = b_wrote s /\ b_out (snd (see_link d i s)) = b_out s /\
      (E i = None -> e = b_next s) /\ b_next s <= b_next (snd (see_link d i s))).
    { unfold see_link. assert (Ci := I4 i). destruct (b_corres s i) as [[e k]|] eqn:Ec; cbn [fst snd b_next b_corres b_star b_wrote b_out].
      - destruct Ci as (Ei & Ek & Kp). exists E, e. split; [reflexivity|]. split; [exact Ei|]. split; [reflexivity|]. split; [auto|]. split; [exact I1|]. split; [exact I2|].
        split; [|split; [reflexivity|]; split; [reflexivity|]; split; [reflexivity|]; split; [congruence|lia]].
        intro j. unfold upd. destruct (N.eqb_spec j i) as [->|Hn].
        + rewrite nb_app, nb_one, N.eqb_refl. destruct (N.eqb_spec (k - 1) 0); [right; lia|]. split; [exact Ei|]. lia.
        + specialize (I4 j). rewrite nb_app, nb_one. destruct (N.eqb_spec i j); [congruence|]. rewrite N.add_0_r. exact I4.
      - assert (En : E i = None). { destruct Ci as [Ci|Ci]; [exact Ci|]. specialize (Le i). rewrite nb_app, nb_one, N.eqb_refl in Le. lia. }
        exists (upd E i (Some (b_next s))), (b_next s). split; [reflexivity|]. split; [apply upd_same|]. split; [intros; apply upd_other; assumption|]. split; [auto|].
        split; [|split; [|split; [|split; [reflexivity|]; split; [reflexivity|]; split; [reflexivity|]; split; [reflexivity|lia]]]].
        + intros j e'. unfold upd. destruct (N.eqb_spec j i); intro Q; [injection Q as <-; lia|]. apply I1 in Q. lia.
        + intros j k e'. unfold upd. destruct (N.eqb_spec j i) as [->|Hj], (N.eqb_spec k i) as [->|Hk]; intros A B; try reflexivity.
          * injection A as <-. apply I1 in B. lia. * injection B as <-. apply I1 in A. lia. * eapply I2; eauto.
        + intro j. unfold upd. destruct (N.eqb_spec j i) as [->|Hn].
          * split; [reflexivity|]. rewrite nb_app, nb_one, N.eqb_refl.
            assert (Zero : nb i P = 0). { destruct (N.eq_dec (nb i P) 0) as [Z|Z]; [exact Z|]. exfalso. apply (proj2 (I3 i)); [|exact En]. split; [exact Hl|]. apply nb_in. lia. }
            lia.
          * specialize (I4 j). rewrite nb_app, nb_one. destruct (N.eqb_spec i j); [congruence|]. rewrite N.add_0_r. exact I4. }
    destruct X as (E' & e & Fe & Ei & Eo & Ee & J1 & J2 & J4 & Js & Jw & Jo & Jn & Jm). exists E'.
    destruct (see_link d i s) as [e0 s1]. cbn [fst snd] in *. subst e0.
    assert (Emon : forall j x, In j (map snd P) -> E j = x -> E' j = x).
    { intros j x Hj Hx. destruct (N.eq_dec j i) as [->|Hn]; [|rewrite Eo; auto]. destruct Ee as [Ee|Ee]; [|congruence]. exfalso. apply (proj2 (I3 i)); auto. }
    assert (J3 : forall j, E' j <> None <-> 1 < d_nlink d j /\ In j (map snd (P ++ [(p, i)]))).
    { intro j. rewrite map_app. cbn [map snd]. destruct (N.eq_dec j i) as [->|Hn].
      - split; [intros _; split; [exact Hl|]; apply in_or_app; right; left; reflexivity|intros _; congruence].
      - rewrite Eo by exact Hn. rewrite I3. split; intros [A B]; (split; [exact A|]); [apply in_or_app; auto|]. apply in_app_or in B. destruct B as [B|[B|[]]]; [exact B|congruence]. }
    assert (Jout : b_out s1 = map (fun x => (fst x, oent E' (fst x) (snd x))) P).
    { rewrite Jo, I5. apply map_ext_in. intros [q j] Hq. cbn [fst snd]. unfold oent. destruct (cov q); [|reflexivity].
      rewrite (Emon j (E j)); [reflexivity| |reflexivity]. apply (in_map snd) in Hq. exact Hq. }
    assert (Wro : b_wrote s e = true <-> leader P i <> None).
    { destruct Ee as [Ee|Ee]; [|apply (I6 i e Ee)]. rewrite (Jn Ee). rewrite I7 by lia. split; [discriminate|]. intro Q. exfalso.
      destruct (leader P i) as [q|] eqn:Q'; [|congruence]. apply leader_in in Q'. destruct Q' as [Q' _]. apply (proj2 (I3 i)); [|exact Ee]. split; [exact Hl|]. apply (in_map snd) in Q'. exact Q'. }
    assert (Lo : forall j, j <> i -> leader (P ++ [(p, i)]) j = leader P j).
    { intros j Hj. rewrite leader_app. destruct (leader P j); [reflexivity|]. unfold leader. cbn. destruct (N.eqb_spec i j); [congruence|]. rewrite andb_false_r. reflexivity. }
    assert (So : forall j, j <> i -> saved_as (P ++ [(p, i)]) j = saved_as P j) by (intros j Hj; unfold saved_as; rewrite Lo by exact Hj; reflexivity).
    assert (Dist : forall j e', E' j = Some e' -> j <> i -> e' <> e) by (intros j e' Q Hj ->; apply Hj; eapply J2; eauto).
    destruct (cov p) eqn:Cp.
    + assert (Li : leader (P ++ [(p, i)]) i <> None). { rewrite leader_app. destruct (leader P i); [discriminate|]. unfold leader. cbn. rewrite Cp, N.eqb_refl. discriminate. }
      rewrite Jw. destruct (b_wrote s e) eqn:We.
      * unfold put_out. split; [exact J1|]. split; [exact J2|]. split; [exact J3|]. split; [exact J4|]. cbn [b_out b_wrote b_star b_next]. split; [|split].
        -- rewrite Jout, map_app. cbn [map fst snd]. unfold oent at 3. rewrite Cp, Ei. reflexivity.
        -- intros j e' Q. rewrite Jw, Js. destruct (N.eq_dec j i) as [->|Hj].
           ++ assert (e' = e) by congruence. subst e'. assert (Lp : leader P i <> None) by (apply Wro; reflexivity). split; [split; auto|]. intros _. rewrite saved_as_app by exact Lp.
              destruct Ee as [Ee|Ee]; [exfalso; apply (proj2 (I3 i)); [|exact Ee]; split; [exact Hl|]; destruct (leader P i) as [q|] eqn:Q'; [|congruence]; apply leader_in in Q'; destruct Q' as [Q' _]; apply (in_map snd) in Q'; exact Q'|].
              apply (I6 i e Ee). exact Lp.
           ++ rewrite Lo, So by exact Hj. apply I6. rewrite <- Eo by exact Hj. exact Q.
        -- intros e' He'. rewrite Jw. apply I7. lia.
      * unfold put_out. split; [exact J1|]. split; [exact J2|]. split; [exact J3|]. split; [exact J4|]. cbn [b_out b_wrote b_star b_next]. split; [|split].
        -- rewrite Jout, map_app. cbn [map fst snd]. unfold oent at 3. rewrite Cp, Ei. reflexivity.
        -- intros j e' Q. rewrite Js. destruct (N.eq_dec j i) as [->|Hj].
           ++ assert (e' = e) by congruence. subst e'. rewrite !upd_same. split; [split; auto|]. intros _. unfold saved_as. rewrite leader_app.
              destruct (leader P i) eqn:Lp; [assert (false = true) by (apply Wro; congruence); discriminate|]. unfold leader. cbn. rewrite Cp, N.eqb_refl. reflexivity.
           ++ rewrite !upd_other by (eapply Dist; eauto). rewrite Lo, So by exact Hj. apply I6. rewrite <- Eo by exact Hj. exact Q.
        -- intros e' He'. assert (e < b_next s1) by (eapply J1; exact Ei). rewrite upd_other by lia. apply I7. lia.
    + assert (Li : leader (P ++ [(p, i)]) i = leader P i). { rewrite leader_app. destruct (leader P i); [reflexivity|]. unfold leader. cbn. rewrite Cp. reflexivity. }
      unfold put_out. split; [exact J1|]. split; [exact J2|]. split; [exact J3|]. split; [exact J4|]. cbn [b_out b_wrote b_star b_next]. split; [|split].
      * rewrite Jout, map_app. cbn [map fst snd]. unfold oent at 3. rewrite Cp. reflexivity.
      * intros j e' Q. rewrite Jw, Js. destruct (N.eq_dec j i) as [->|Hj].
        -- assert (e' = e) by congruence. subst e'. rewrite Li. split; [exact Wro|]. intro Lp. rewrite saved_as_app by exact Lp.
           destruct Ee as [Ee|Ee]; [exfalso; apply (proj2 (I3 i)); [|exact Ee]; split; [exact Hl|]; destruct (leader P i) as [q|] eqn:Q'; [|congruence]; apply leader_in in Q'; destruct Q' as [Q' _]; apply (in_map snd) in Q'; exact Q'|].
           apply (I6 i e Ee). exact Lp.
        -- rewrite Lo, So by exact Hj. apply I6. rewrite <- Eo by exact Hj. exact Q.
      * intros e' He'. rewrite Jw. apply I7. lia.
  - (* a single link *)
    exists E. assert (En : E i = None) by (destruct (E i) eqn:Q; [exfalso; assert (E i <> None) by congruence; apply I3 in H; lia|reflexivity]).
    assert (Ne : forall j, E j <> None -> j <> i) by (intros j Q ->; congruence).
    unfold put_out, binv. cbn [b_corres b_next b_star b_wrote b_out]. split; [exact I1|]. split; [exact I2|]. split; [|split; [|split; [|split; [|exact I7]]]].
    + intro j. rewrite I3, map_app. cbn [map snd]. split; intros [A B]; (split; [exact A|]); [apply in_or_app; auto|]. apply in_app_or in B. destruct B as [B|[B|[]]]; [exact B|]. subst j. lia.
    + intro j. specialize (I4 j). rewrite nb_app, nb_one. destruct (b_corres s j) as [[e k]|].
      * destruct I4 as (A & B & C). split; [exact A|]. destruct (N.eqb_spec i j) as [->|]; [congruence|]. lia.
      * destruct I4 as [A|A]; [auto|right; lia].
    + rewrite I5, map_app. cbn [map fst snd]. unfold oent at 3. rewrite En. reflexivity.
    + intros j e Q. assert (Hj : j <> i) by (apply Ne; congruence). assert (Lo : leader (P ++ [(p, i)]) j = leader P j).
      { rewrite leader_app. destruct (leader P j); [reflexivity|]. unfold leader. cbn. destruct (N.eqb_spec i j); [congruence|]. rewrite andb_false_r. reflexivity. }
      unfold saved_as. rewrite Lo. apply I6. exact Q.
Qed.
Lemma save_all_inv : (forall i, nb i (d_names d) <= d_nlink d i) -> exists E, binv (d_names d) E (save_all cap hourshift cov ref d).
Proof.
  intro Le. unfold save_all. set (s0 := BSt _ _ _ _ _).
  assert (G : forall Q P s, (exists E, binv P E s) -> (forall j, nb j (P ++ Q) <= d_nlink d j) -> exists E, binv (P ++ Q) E (fold_left save_one Q s)).
  { induction Q as [|[p i] Q IH]; intros P s [E H] L; [rewrite app_nil_r; eauto|]. cbn [fold_left]. replace (P ++ (p, i) :: Q) with ((P ++ [(p, i)]) ++ Q) in * by (rewrite <- app_assoc; reflexivity).
    apply IH; [|exact L]. eapply save_one_inv; [exact H|]. intro j. specialize (L j). rewrite nb_app in L. lia. }
  apply (G (d_names d) [] s0); [|exact Le]. exists (fun _ => None). unfold binv, s0. cbn. split; [discriminate|]. split; [discriminate|]. split; [intro i; split; [congruence|intros [_ []]]|].
  split; [auto|]. split; [reflexivity|]. split; [discriminate|reflexivity].
Qed.

Definition is_inode (x : lent) : bool := match x with LPlain _ | LMir _ => true | _ => false end.
Lemma gone_all : forall l cur, NoDup (map fst l) -> exists D, fold_left (gone ref) l cur = cur ++ map (fun x => (fst x, LDet (snd x))) D /\ NoDup (map fst D) /\
  (forall n, In n (map fst D) <-> aget n cur = None /\ exists x, aget n l = Some x /\ is_inode x = true).
Proof.
  induction l as [|[m x] l IH]; intros cur Nd.
  - exists []. rewrite app_nil_r. split; [reflexivity|]. split; [constructor|]. intro n. split; [intros []|]. intros (_ & x & Q & _). discriminate.
  - cbn [map fst] in Nd. inversion Nd as [|? ? Hm Nd']. subst. cbn [fold_left].
    assert (Get : forall n y, aget n ((m, x) :: l) = Some y <-> (n = m /\ x = y) \/ (n <> m /\ aget n l = Some y)).
    { intros n y. cbn [aget]. destruct (name_eqb n m) eqn:Q; [apply neqb_spec in Q; subst n|apply neqb_false in Q].
      - split; [intro H; injection H as ->; auto|]. intros [[_ ->]|[H _]]; [reflexivity|congruence].
      - split; [auto|]. intros [[H _]|[_ H]]; [congruence|exact H]. }
    assert (Skip : (aget m cur <> None \/ is_inode x = false) -> gone ref cur (m, x) = cur).
    { intro Q. unfold gone. cbn [fst snd]. destruct x; try reflexivity; (destruct (aget m cur); [reflexivity|]; destruct Q as [Q|Q]; [congruence|discriminate]). }
    destruct (aget m cur) as [y|] eqn:Em; [|destruct (is_inode x) eqn:Ix].
    + rewrite Skip by (left; discriminate). destruct (IH cur Nd') as (D & A & B & C). exists D. split; [exact A|]. split; [exact B|]. intro n. rewrite C. split.
      * intros (Q & z & Z & Iz). split; [exact Q|]. exists z. split; [|exact Iz]. apply Get. right. split; [intros ->; congruence|exact Z].
      * intros (Q & z & Z & Iz). split; [exact Q|]. exists z. split; [|exact Iz]. apply Get in Z. destruct Z as [[-> _]|[_ Z]]; [congruence|exact Z].
    + assert (G : exists k, gone ref cur (m, x) = cur ++ [(m, LDet k)]). { unfold gone. cbn [fst snd]. rewrite Em. destruct x; try discriminate; eauto. }
      destruct G as [k ->]. destruct (IH (cur ++ [(m, LDet k)]) Nd') as (D & A & B & C). exists ((m, k) :: D). split; [rewrite A; rewrite <- app_assoc; reflexivity|].
      assert (Hg : forall n, aget n (cur ++ [(m, LDet k)]) = None <-> aget n cur = None /\ n <> m).
      { intro n. rewrite aget_app. destruct (aget n cur) eqn:Q; [split; [discriminate|intros [? _]; discriminate]|]. cbn. destruct (name_eqb n m) eqn:Z; [apply neqb_spec in Z; split; [discriminate|intros [_ ?]; contradiction]|].
        apply neqb_false in Z. split; auto. }
      split.
      * cbn [map fst]. constructor; [|exact B]. intro Q. apply C in Q. destruct Q as [Q _]. apply Hg in Q. tauto.
      * intro n. cbn [map fst In]. rewrite C, Hg. split.
        -- intros [<-|((Q & Hn) & z & Z & Iz)]; [split; [exact Em|]; exists x; split; [apply Get; auto|exact Ix]|]. split; [exact Q|]. exists z. split; [apply Get; auto|exact Iz].
        -- intros (Q & z & Z & Iz). apply Get in Z. destruct Z as [[-> _]|[Hn Z]]; [auto|]. right. split; [auto|]. eauto.
    + rewrite Skip by auto. destruct (IH cur Nd') as (D & A & B & C). exists D. split; [exact A|]. split; [exact B|]. intro n. rewrite C. split.
      * intros (Q & z & Z & Iz). split; [exact Q|]. exists z. split; [|exact Iz]. apply Get. right. split; [|exact Z]. intros ->. apply aget_in in Z. apply (in_map fst) in Z. exact (Hm Z).
      * intros (Q & z & Z & Iz). split; [exact Q|]. exists z. split; [|exact Iz]. apply Get in Z. destruct Z as [[_ ->]|[_ Z]]; [congruence|exact Z].
Qed.
Lemma two_in : forall (A : Type) (f : A -> bool) l a b, In a l -> In b l -> a <> b -> f a = true -> f b = true -> (2 <= length (filter f l))%nat.
Proof.
  intros A f l a b Ha Hb Hn Fa Fb. apply (@NoDup_incl_length A [a; b] (filter f l)).
  - constructor; [cbn; intuition congruence|]. constructor; [cbn; tauto|constructor].
  - intros x [<-|[<-|[]]]; apply filter_In; auto.
Qed.
Notation Ps := (filter (fun x => cov (fst x)) (d_names d)).
Notation arc := (lbackup cap hourshift cov ref d).
Lemma ref_at_inode : forall n, ref_at ref n <> None <-> exists x, aget n (a_ents ref) = Some x /\ is_inode x = true.
Proof.
  intro n. unfold ref_at. split.
  - intro H. destruct (aget n (a_ents ref)) as [x|]; [|congruence]. exists x. split; [reflexivity|]. destruct x; reflexivity || congruence.
  - intros (x & -> & H). destruct x; discriminate.
Qed.
Lemma lback_spec : disk_ok d -> NoDup (map fst (a_ents ref)) ->
  exists (ent : name -> N -> lent) (E : N -> option N) (D : list (name * fkind)),
    a_ents arc = map (fun x => (fst x, ent (fst x) (snd x))) Ps ++ map (fun x => (fst x, LDet (snd x))) D /\
    (forall p i, In (p, i) Ps -> (ent p i = LPlain (saved_as (d_names d) i) /\ forall q, In (q, i) Ps -> q = p) \/
       exists e, ent p i = LMir e /\ E i = Some e /\ a_star arc e = saved_as (d_names d) i) /\
    (forall i j e, E i = Some e -> E j = Some e -> i = j) /\ NoDup (map fst D) /\
    (forall n, In n (map fst D) <-> ino_of d n = None /\ ref_at ref n <> None).
Proof.
  intros (Nd & Le & _) Nr. destruct (save_all_inv Le) as (E & I1 & I2 & I3 & I4 & I5 & I6 & I7).
  set (s := save_all cap hourshift cov ref d) in *. destruct (gone_all (a_ents ref) (b_out s) Nr) as (D & Eg & ND & HD).
  set (ent := fun p i => dump_one s (map snd (d_names d)) (oent E p i)). exists ent, E, D. unfold lbackup. fold s. cbn [a_ents a_star]. rewrite Eg.
  split; [|split; [|split; [exact I2|split; [exact ND|]]]].
  - rewrite filter_app, map_app. f_equal.
    + rewrite I5. unfold ent. clear. generalize (map snd (d_names d)). intro ii. induction (d_names d) as [|[p i] l IH]; [reflexivity|]. cbn [map filter fst snd]. unfold oent at 1. destruct (cov p) eqn:C.
      * replace (negb (is_ign _)) with true by (destruct (E i); reflexivity). cbn [map fst snd]. rewrite IH. unfold oent. rewrite C. reflexivity.
      * cbn [is_ign negb]. exact IH.
    + clear. induction D as [|[n k] D IH]; [reflexivity|]. cbn. rewrite IH. reflexivity.
  - intros p i Hin. apply filter_In in Hin. destruct Hin as [Hin Cp]. cbn [fst] in Cp. unfold ent, oent. rewrite Cp. destruct (E i) as [e|] eqn:Ei.
    + assert (Lp : leader (d_names d) i <> None) by (destruct (leader_some _ _ _ Hin Cp) as [q ->]; discriminate).
      assert (St : b_star s e = saved_as (d_names d) i) by (apply (I6 i e Ei); exact Lp).
      cbn [dump_one]. destruct (Nat.leb (links_to e (b_out s)) 1 && negb (held (map snd (d_names d)) (b_corres s) e)) eqn:Q; [|right; eauto].
      left. split; [rewrite St; reflexivity|]. intros q Hq. apply filter_In in Hq. destruct Hq as [Hq Cq]. cbn [fst] in Cq.
      destruct (list_eq_dec N.eq_dec q p) as [->|Hn]; [reflexivity|]. exfalso. apply andb_true_iff in Q. destruct Q as [Q _]. apply Nat.leb_le in Q. unfold links_to in Q.
      assert (2 <= length (filter (fun x => match snd x with LMir e' => (e =? e')%N | _ => false end) (b_out s)))%nat; [|lia].
      assert (In' : forall r, In (r, i) (d_names d) -> cov r = true -> In (r, LMir e) (b_out s)).
      { intros r Hr Cr. rewrite I5. apply in_map_iff. exists (r, i). split; [cbn [fst snd]; unfold oent; rewrite Cr, Ei; reflexivity|exact Hr]. }
      apply (two_in _ _ _ (p, LMir e) (q, LMir e)); auto; [congruence| |]; cbn; apply N.eqb_refl.
    + left. assert (U : forall q, In (q, i) (d_names d) -> q = p).
      { intros q Hq. destruct (list_eq_dec N.eq_dec q p) as [->|Hn]; [reflexivity|]. exfalso.
        assert (2 <= length (filter (fun x : name * N => (snd x =? i)%N) (d_names d)))%nat by (apply (two_in _ _ _ (p, i) (q, i)); auto; [congruence| |]; cbn; apply N.eqb_refl).
        assert (Li : nb i (d_names d) <= d_nlink d i) by apply Le. assert (2 <= nb i (d_names d)) by (unfold nb; lia). assert (Z : E i <> None); [|congruence]. apply I3. split; [lia|]. apply (in_map snd) in Hin. exact Hin. }
      split; [|intros q Hq; apply filter_In in Hq; apply U; apply Hq]. cbn [dump_one]. unfold saved_as. destruct (leader_some _ _ _ Hin Cp) as [q Lq]. rewrite Lq. apply leader_in in Lq.
      rewrite (U q) by apply Lq. reflexivity.
  - intro n. rewrite HD, ref_at_inode. split; intros [A B]; (split; [|exact B]).
    + unfold ino_of. rewrite <- aget_named. rewrite I5 in A. clear - A. induction (d_names d) as [|[q j] l IH]; [reflexivity|]. cbn [map aget fst] in *. destruct (name_eqb n q); [discriminate|auto].
    + unfold ino_of in A. rewrite <- aget_named in A. rewrite I5. clear - A. induction (d_names d) as [|[q j] l IH]; [reflexivity|]. cbn [map aget fst] in *. destruct (name_eqb n q); [discriminate|auto].
Qed.
End Backup.
