(** * FilterProof: lemmas about the filters of the command line *)
From Coq Require Import List.
From Verif Require Import Base PathModel PropPath MaskModel PropMask FilterModel FilterSpec.
Local Open Scope nat_scope.

(** ** Masks added at the end *)
Lemma any_snoc x m : forall l b, any_cov x l = Ok b -> any_cov x (l ++ [m]) = if b then Ok true else is_covered m x.
Proof.
  induction l as [|a l IH]; intros b H; cbn [app any_cov] in *.
  - injection H as <-. destruct (is_covered m x) as [[|]|]; reflexivity.
  - destruct (is_covered a x) as [[|]|]; cbn [bind] in *; [injection H as <-; reflexivity| |discriminate]. apply IH, H.
Qed.
Lemma all_snoc x m : forall l b, all_cov x l = Ok b -> all_cov x (l ++ [m]) = if b then is_covered m x else Ok false.
Proof.
  induction l as [|a l IH]; intros b H; cbn [app all_cov] in *.
  - injection H as <-. destruct (is_covered m x) as [[|]|]; reflexivity.
  - destruct (is_covered a x) as [[|]|]; cbn [bind] in *; [apply IH, H|injection H as <-; reflexivity|discriminate].
Qed.
Lemma cov_or' x l : l <> [] -> is_covered (MOr l) x = any_cov x l.
Proof. destruct l; [congruence|]. intros _. apply cov_or. Qed.
Lemma cov_and' x l : l <> [] -> is_covered (MAnd l) x = all_cov x l.
Proof. destruct l; [congruence|]. intros _. apply cov_and. Qed.
Lemma snoc_ne {A} (l : list A) a : l ++ [a] <> [].
Proof. destruct l; discriminate. Qed.

Section generic.
Variable x : subject.
Variables mki mke : pre_mask -> res mask.
Variables inc exc : pre_mask -> Prop.

Definition okm (mk : pre_mask -> res mask) (P : pre_mask -> Prop) (o : pre_mask) : Prop :=
  exists m b, mk o = Ok m /\ is_covered m x = Ok b /\ (b = true <-> P o).
Definition ok (o : pre_mask) : Prop := if included o then okm mki inc o else okm mke exc o.

(** ** Unordered *)
Lemma unordered_loop_ok : forall l li le done, Forall ok l ->
  (exists bi, any_cov x li = Ok bi /\ (bi = true <-> exists o, In o done /\ included o = true /\ inc o)) ->
  (exists be, any_cov x le = Ok be /\ (be = true <-> exists o, In o done /\ included o = false /\ exc o)) ->
  (li = [] <-> forall o, In o done -> included o = false) ->
  exists li' le', unordered_loop mki mke l li le = Ok (li', le') /\
  (exists bi, any_cov x li' = Ok bi /\ (bi = true <-> exists o, In o (done ++ l) /\ included o = true /\ inc o)) /\
  (exists be, any_cov x le' = Ok be /\ (be = true <-> exists o, In o (done ++ l) /\ included o = false /\ exc o)) /\
  (li' = [] <-> forall o, In o (done ++ l) -> included o = false).
Proof.
  induction l as [|o l IH]; intros li le done HF HI HE HN; cbn [unordered_loop].
  - rewrite app_nil_r. eauto 6.
  - inversion HF as [|? ? HO HF']; subst. unfold ok in HO. replace (done ++ o :: l) with ((done ++ [o]) ++ l) by (rewrite <- app_assoc; reflexivity).
    destruct (included o) eqn:IO; destruct HO as (m & b & MK & CV & BP); rewrite MK; cbn [bind]; apply IH; auto.
    + destruct HI as (bi & E & P). rewrite (any_snoc x m li bi E). destruct bi.
      * exists true. split; [reflexivity|]. split; [|reflexivity]. intros _. destruct P as [P _]. destruct (P eq_refl) as (o' & A & B). exists o'. rewrite in_app_iff. auto.
      * exists b. split; [exact CV|]. rewrite BP. split.
        -- intro Q. exists o. rewrite in_app_iff. cbn. auto.
        -- intros (o' & A & B & D). apply in_app_iff in A. destruct A as [A|[<-|[]]]; [|exact D]. assert (false = true) by (apply P; eauto). discriminate.
    + destruct HE as (be & E & P). exists be. split; [exact E|]. rewrite P. split; intros (o' & A & B & D); exists o'.
      * rewrite in_app_iff. auto.
      * apply in_app_iff in A. destruct A as [A|[<-|[]]]; [auto|congruence].
    + split; [intro Q; now apply snoc_ne in Q|]. intro Q. specialize (Q o). rewrite in_app_iff in Q. cbn in Q. rewrite IO in Q. discriminate Q. auto.
    + destruct HI as (be & E & P). exists be. split; [exact E|]. rewrite P. split; intros (o' & A & B & D); exists o'.
      * rewrite in_app_iff. auto.
      * apply in_app_iff in A. destruct A as [A|[<-|[]]]; [auto|congruence].
    + destruct HE as (bi & E & P). rewrite (any_snoc x m le bi E). destruct bi.
      * exists true. split; [reflexivity|]. split; [|reflexivity]. intros _. destruct P as [P _]. destruct (P eq_refl) as (o' & A & B). exists o'. rewrite in_app_iff. auto.
      * exists b. split; [exact CV|]. rewrite BP. split.
        -- intro Q. exists o. rewrite in_app_iff. cbn. auto.
        -- intros (o' & A & B & D). apply in_app_iff in A. destruct A as [A|[<-|[]]]; [|exact D]. assert (false = true) by (apply P; eauto). discriminate.
    + rewrite HN. split; intros Q o' A; [apply in_app_iff in A; destruct A as [A|[<-|[]]]; auto|apply Q; rewrite in_app_iff; auto].
Qed.

Lemma unordered_ok l (mi me : path -> pre_mask -> res mask) prefix : Forall ok l -> mi prefix = mki -> me prefix = mke ->
  exists m b, make_unordered_mask l mi me prefix = Ok m /\ is_covered m x = Ok b /\ (b = true <-> by_normal_method inc exc l).
Proof.
  intros HF E1 E2. unfold make_unordered_mask. rewrite E1, E2.
  destruct (unordered_loop_ok l [] [] [] HF) as (li & le & E & (bi & CI & PI) & (be & CE & PE) & HN).
  - exists false. split; [reflexivity|]. split; [discriminate|intros (o & [] & _)].
  - exists false. split; [reflexivity|]. split; [discriminate|intros (o & [] & _)].
  - split; [intros _ o []|reflexivity].
  - rewrite E. cbn [bind app] in *. eexists _, ((match li with [] => true | _ => bi end) && negb be). split; [reflexivity|].
    assert (F : is_covered match li with [] => MBool true | _ => MOr li end x = Ok (match li with [] => true | _ => bi end)).
    { destruct li; [reflexivity|]. rewrite cov_or' by discriminate. exact CI. }
    assert (FP : (match li with [] => true | _ => bi end = true) <-> ((forall o, In o l -> included o = false) \/ (exists o, In o l /\ included o = true /\ inc o))).
    { destruct li as [|m li].
      - split; [|reflexivity]. intros _. left. apply HN. reflexivity.
      - rewrite PI. split; [auto|]. intros [Q|Q]; [|exact Q]. apply HN in Q. discriminate. }
    assert (EP : be = false <-> forall o, In o l -> included o = false -> ~ exc o).
    { rewrite <- not_true_iff_false, PE. split; [intros Q o A B D; apply Q; eauto|]. intros Q (o & A & B & D). exact (Q o A B D). }
    rewrite cov_and. cbn [all_cov]. rewrite F. cbn [bind]. unfold by_normal_method. rewrite <- FP, <- EP.
    destruct le as [|m le].
    + cbn [all_cov any_cov] in *. injection CE as <-. destruct (match li with [] => true | _ => bi end); (split; [reflexivity|]); cbn [negb andb]; intuition.
    + cbn [all_cov]. set (orl := MOr (m :: le)). assert (CO : is_covered (MNot orl) x = Ok (negb be)).
      { unfold orl. change (is_covered (MNot (MOr (m :: le))) x) with (let* b := is_covered (MOr (m :: le)) x in Ok (negb b)). rewrite cov_or' by discriminate. rewrite CE. reflexivity. }
      rewrite CO. cbn [bind]. destruct (match li with [] => true | _ => bi end), be; (split; [reflexivity|]); cbn [negb andb]; intuition discriminate.
Qed.

(** ** Ordered *)
Notation chosen := (by_ordered_method inc exc).
Lemma split_snoc {A} (l l1 l2 : list A) o o' : l ++ [o] = l1 ++ o' :: l2 -> (l2 = [] /\ l = l1 /\ o = o') \/ exists l3, l2 = l3 ++ [o] /\ l = l1 ++ o' :: l3.
Proof.
  destruct (exists_last (l := o' :: l2)) as (y & z & E); [discriminate|]. intro H. rewrite E, app_assoc in H. apply app_inj_tail in H. destruct H as [H ->].
  destruct y as [|y0 y]; cbn in E; injection E as -> E.
  - left. rewrite app_nil_r in H. auto.
  - right. exists y. auto.
Qed.
Lemma chosen_inc l o : l <> [] -> included o = true -> (chosen (l ++ [o]) <-> chosen l \/ inc o).
Proof.
  intros Hl IO. split.
  - intros [(l1 & o' & l2 & E & I & M & X)|(X & [E|(o' & l' & E & I)])].
    + apply split_snoc in E. destruct E as [(-> & -> & <-)|(l3 & -> & ->)]; [auto|]. left. left. exists l1, o', l3. repeat split; auto.
      intros p Hp. apply X. rewrite in_app_iff. auto.
    + now apply snoc_ne in E.
    + left. right. split; [intros p Hp; apply X; rewrite in_app_iff; auto|]. right. destruct l as [|p l]; [congruence|]. injection E as -> E. eauto.
  - intros [[(l1 & o' & l2 & -> & I & M & X)|(X & E)]|M].
    + left. exists l1, o', (l2 ++ [o]). rewrite <- app_assoc. repeat split; auto. intros p Hp. apply in_app_iff in Hp. destruct Hp as [Hp|[<-|[]]]; [auto|congruence].
    + right. split.
      * intros p Hp. apply in_app_iff in Hp. destruct Hp as [Hp|[<-|[]]]; [auto|congruence].
      * right. destruct E as [E|(p & l' & -> & I)]; [congruence|]. exists p, (l' ++ [o]). auto.
    + left. exists l, o, []. repeat split; auto.
Qed.
Lemma chosen_exc l o : l <> [] -> included o = false -> (chosen (l ++ [o]) <-> chosen l /\ ~ exc o).
Proof.
  intros Hl IO. split.
  - intros [(l1 & o' & l2 & E & I & M & X)|(X & [E|(o' & l' & E & I)])].
    + apply split_snoc in E. destruct E as [(-> & -> & <-)|(l3 & -> & ->)]; [congruence|]. split.
      * left. exists l1, o', l3. repeat split; auto. intros p Hp. apply X. rewrite in_app_iff. auto.
      * apply X; auto. rewrite in_app_iff. cbn. auto.
    + now apply snoc_ne in E.
    + split; [|apply X; auto; rewrite in_app_iff; cbn; auto].
      right. split; [intros p Hp; apply X; rewrite in_app_iff; auto|]. right. destruct l as [|p l]; [congruence|]. injection E as -> E. eauto.
  - intros [[(l1 & o' & l2 & -> & I & M & X)|(X & E)] NE].
    + left. exists l1, o', (l2 ++ [o]). rewrite <- app_assoc. repeat split; auto. intros p Hp. apply in_app_iff in Hp. destruct Hp as [Hp|[<-|[]]]; auto.
    + right. split.
      * intros p Hp. apply in_app_iff in Hp. destruct Hp as [Hp|[<-|[]]]; auto.
      * right. destruct E as [E|(p & l' & -> & I)]; [congruence|]. exists p, (l' ++ [o]). auto.
Qed.
Lemma chosen_inc1 o : included o = true -> (chosen [o] <-> inc o).
Proof.
  intro IO. split.
  - intros [(l1 & o' & l2 & E & I & M & X)|(X & [E|(o' & l' & E & I)])]; try discriminate.
    + destruct l1 as [|a l1]; cbn in E; [injection E as <- <-; auto|injection E as _ E; now destruct l1].
    + injection E as <- <-. congruence.
  - intro M. left. exists [], o, []. repeat split; auto.
Qed.
Lemma chosen_exc1 o : included o = false -> (chosen [o] <-> ~ exc o).
Proof.
  intro IO. split.
  - intros [(l1 & o' & l2 & E & I & M & X)|(X & _)].
    + destruct l1 as [|a l1]; cbn in E; [injection E as <- <-; congruence|injection E as _ E; now destruct l1].
    + apply X; cbn; auto.
  - intro M. right. split; [intros p [<-|[]]; auto|]. right. eauto.
Qed.

Definition inv (b : building) (done : list pre_mask) : Prop :=
  match ret_mask b with
  | None => done = [] /\ tmp_mask b = TNone
  | Some r => done <> [] /\ (exists c, is_covered r x = Ok c /\ (c = true <-> chosen done)) /\
      match tmp_mask b with TNone => True | TOu l => l <> [] /\ r = MOr l | TEt l => l <> [] /\ r = MAnd l end
  end.

Lemma inv_include b done o m c : inv b done -> included o = true -> is_covered m x = Ok c -> (c = true <-> inc o) -> inv (add_include b m) (done ++ [o]).
Proof.
  intros HI IO CV CP. unfold inv, add_include in *. destruct (ret_mask b) as [r|].
  - destruct HI as (ND & (cr & CR & CRP) & T).
    assert (GEN : forall mm, is_covered mm x = (if cr then Ok true else Ok c) -> exists c0, is_covered mm x = Ok c0 /\ (c0 = true <-> chosen (done ++ [o]))).
    { intros mm E. pose proof (chosen_inc _ _ ND IO) as Q. destruct cr; [exists true|exists c]; (split; [exact E|]); rewrite Q, <- CRP, <- CP; intuition discriminate. }
    assert (TWO : any_cov x [r; m] = if cr then Ok true else Ok c).
    { cbn [any_cov]. rewrite CR. cbn [bind]. destruct cr; [reflexivity|]. rewrite CV. destruct c; reflexivity. }
    destruct (tmp_mask b) as [|l|l]; cbn [ret_mask tmp_mask].
    + split; [apply snoc_ne|]. split; [apply GEN; rewrite cov_or'; [exact TWO|discriminate]|]. split; [discriminate|reflexivity].
    + destruct T as [Nl ->]. split; [apply snoc_ne|]. split; [|split; [apply snoc_ne|reflexivity]]. apply GEN. rewrite cov_or' by apply snoc_ne.
      rewrite cov_or' in CR by exact Nl. rewrite (any_snoc x m l cr CR), CV. reflexivity.
    + split; [apply snoc_ne|]. split; [apply GEN; rewrite cov_or'; [exact TWO|discriminate]|]. split; [discriminate|reflexivity].
  - destruct HI as [-> ->]. cbn [ret_mask tmp_mask app]. split; [discriminate|]. split; [|exact I]. exists c. split; [exact CV|]. rewrite chosen_inc1 by exact IO. exact CP.
Qed.
Lemma inv_exclude b done o m c : inv b done -> included o = false -> is_covered m x = Ok c -> (c = true <-> exc o) -> inv (add_exclude b m) (done ++ [o]).
Proof.
  intros HI IO CV CP. assert (CN : is_covered (MNot m) x = Ok (negb c)) by (cbn [is_covered]; rewrite CV; reflexivity).
  assert (CE : c = false <-> ~ exc o) by (rewrite <- CP; destruct c; intuition discriminate).
  unfold inv, add_exclude in *. destruct (ret_mask b) as [r|].
  - destruct HI as (ND & (cr & CR & CRP) & T).
    assert (GEN : forall mm, is_covered mm x = (if cr then Ok (negb c) else Ok false) -> exists c0, is_covered mm x = Ok c0 /\ (c0 = true <-> chosen (done ++ [o]))).
    { intros mm E. pose proof (chosen_exc _ _ ND IO) as Q. destruct cr; [exists (negb c)|exists false]; (split; [exact E|]); rewrite Q, <- CRP, <- CE; destruct c; cbn [negb]; intuition discriminate. }
    assert (TWO : all_cov x [r; MNot m] = if cr then Ok (negb c) else Ok false).
    { cbn [all_cov]. rewrite CR. cbn [bind]. destruct cr; [|reflexivity]. rewrite CN. destruct c; reflexivity. }
    destruct (tmp_mask b) as [|l|l]; cbn [ret_mask tmp_mask].
    + split; [apply snoc_ne|]. split; [apply GEN; rewrite cov_and'; [exact TWO|discriminate]|]. split; [discriminate|reflexivity].
    + split; [apply snoc_ne|]. split; [apply GEN; rewrite cov_and'; [exact TWO|discriminate]|]. split; [discriminate|reflexivity].
    + destruct T as [Nl ->]. split; [apply snoc_ne|]. split; [|split; [apply snoc_ne|reflexivity]]. apply GEN. rewrite cov_and' by apply snoc_ne.
      rewrite cov_and' in CR by exact Nl. rewrite (all_snoc x (MNot m) l cr CR), CN. reflexivity.
  - destruct HI as [-> ->]. cbn [ret_mask tmp_mask app]. split; [discriminate|]. split; [|exact I]. exists (negb c). split; [exact CN|]. rewrite chosen_exc1, <- CE by exact IO. destruct c; cbn; intuition discriminate.
Qed.

Lemma ordered_loop_ok : forall l b done, Forall ok l -> inv b done -> exists b', ordered_loop mki mke l b = Ok b' /\ inv b' (done ++ l).
Proof.
  induction l as [|o l IH]; intros b done HF HI; cbn [ordered_loop]; [rewrite app_nil_r; eauto|].
  inversion HF as [|? ? HO HF']; subst. unfold ok in HO. replace (done ++ o :: l) with ((done ++ [o]) ++ l) by (rewrite <- app_assoc; reflexivity).
  destruct (included o) eqn:IO; destruct HO as (m & c & MK & CV & CP); rewrite MK; cbn [bind]; apply IH; auto.
  - eapply inv_include; eauto.
  - eapply inv_exclude; eauto.
Qed.

Lemma ordered_ok l (mi me : path -> pre_mask -> res mask) prefix : Forall ok l -> mi prefix = mki -> me prefix = mke ->
  exists m b, make_ordered_mask l mi me prefix = Ok m /\ is_covered m x = Ok b /\ (b = true <-> chosen l).
Proof.
  intros HF E1 E2. unfold make_ordered_mask. rewrite E1, E2.
  destruct (ordered_loop_ok l {| ret_mask := None; tmp_mask := TNone |} [] HF) as (b & E & HI); [split; reflexivity|].
  rewrite E. cbn [bind app] in *. unfold inv in HI. destruct (ret_mask b) as [r|].
  - destruct HI as (_ & (c & C & P) & _). exists r, c. auto.
  - destruct HI as [-> _]. exists (MBool true), true. split; [reflexivity|]. split; [reflexivity|]. split; [|reflexivity]. intros _. right. split; [intros o []|auto].
Qed.
End generic.
