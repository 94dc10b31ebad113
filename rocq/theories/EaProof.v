(** * EaProof: lemmas for C62 *)
From Coq Require Import List Sorted.
From Verif Require Import Base InfinintModel InfinintProof2 HeaderModel HeaderProof2 HeaderProof3 ReadStable CatProof EaModel EaSpec.
Open Scope N_scope.

Lemma lt_irrefl : forall a, str_lt a a = false.
Proof. induction a as [|x a IH]; cbn; [reflexivity|]. rewrite N.ltb_irrefl. exact IH. Qed.
Lemma lt_total : forall a b, str_lt a b = false -> str_lt b a = false -> a = b.
Proof.
  induction a as [|x a IH]; intros [|y b] H H'; cbn in H, H'; try discriminate; [reflexivity|].
  destruct (N.ltb_spec x y); [discriminate|]. destruct (N.ltb_spec y x); [discriminate|].
  replace y with x by lia. f_equal. apply IH; assumption.
Qed.
Lemma lt_trans : forall a b c, str_lt a b = true -> str_lt b c = true -> str_lt a c = true.
Proof.
  induction a as [|x a IH]; intros [|y b] [|z c] H H'; cbn in *; try discriminate; try reflexivity.
  destruct (N.ltb_spec x y), (N.ltb_spec y x), (N.ltb_spec y z), (N.ltb_spec z y), (N.ltb_spec x z), (N.ltb_spec z x); try discriminate; try reflexivity; try lia.
  eapply IH; eassumption.
Qed.
Lemma lt_asym : forall a b, str_lt a b = true -> str_lt b a = false.
Proof. intros a b H. destruct (str_lt b a) eqn:E; [|reflexivity]. pose proof (lt_trans _ _ _ H E) as Q. rewrite lt_irrefl in Q. discriminate. Qed.
Lemma lt_before : forall a b, str_lt a b = true <-> before a b.
Proof.
  split.
  - revert b. induction a as [|x a IH]; intros [|y b] H; cbn in H; try discriminate.
    + apply (bf_shorter []).
    + destruct (N.ltb_spec x y) as [L|L]; [apply (bf_smaller []); exact L|]. destruct (N.ltb_spec y x); [discriminate|].
      replace y with x by lia. destruct (IH b H) as [p c r|p c d r s L'].
      * apply (bf_shorter (x :: p)).
      * apply (bf_smaller (x :: p)). exact L'.
  - intros [p c r|p c d r s L]; induction p as [|y p IH]; cbn; rewrite ?N.ltb_irrefl; try assumption; [reflexivity|].
    destruct (N.ltb_spec c d); [reflexivity|lia].
Qed.
Lemma lt_cases : forall a b, (str_lt a b = true /\ str_lt b a = false /\ a <> b) \/ (str_lt a b = false /\ str_lt b a = true /\ a <> b) \/ (a = b /\ str_lt a b = false /\ str_lt b a = false).
Proof.
  intros a b. destruct (str_lt a b) eqn:E, (str_lt b a) eqn:E'.
  - rewrite (lt_asym _ _ E) in E'. discriminate.
  - left. repeat split; auto. intros ->. rewrite lt_irrefl in E. discriminate.
  - right. left. repeat split; auto. intros ->. rewrite lt_irrefl in E'. discriminate.
  - right. right. split; [apply lt_total; assumption|auto].
Qed.

Definition klt (a b : str * str) : Prop := str_lt (fst a) (fst b) = true.
Definition sorted (l : list (str * str)) : Prop := StronglySorted klt l.
Lemma put_in : forall l k v x, In x (put k v l) -> x = (k, v) \/ In x l.
Proof.
  induction l as [|[k' v'] l IH]; intros k v x H; cbn [put] in H; [destruct H as [H|[]]; auto|].
  destruct (lt_cases k' k) as [(E & E' & _)|[(E & E' & _)|(-> & E & E')]]; rewrite E, ?E' in H; cbn [In] in H |- *; try tauto.
  - destruct H as [H|H]; [auto|]. apply IH in H. tauto.
  - destruct H as [H|H]; [left; symmetry; exact H|]. tauto.
  - destruct H as [H|H]; [left; symmetry; exact H|]. tauto.
Qed.
Lemma put_sorted : forall l k v, sorted l -> sorted (put k v l).
Proof.
  induction l as [|[k' v'] l IH]; intros k v S; cbn [put]; [repeat constructor|]. inversion S as [|? ? S' F]; subst.
  destruct (lt_cases k' k) as [(E & E' & _)|[(E & E' & _)|(-> & E & E')]]; rewrite E, ?E'.
  - constructor; [apply IH, S'|]. apply Forall_forall. intros x Hx. apply put_in in Hx as [->|Hx]; [exact E|]. rewrite Forall_forall in F. apply F, Hx.
  - constructor; [exact S|]. constructor; [exact E'|]. eapply Forall_impl; [|exact F]. intros x Hx. eapply lt_trans; eassumption.
  - constructor; [exact S'|exact F].
Qed.
Lemma get_put : forall l k v x, sorted l -> get x (put k v l) = if s_eqb x k then Some v else get x l.
Proof.
  assert (Q : forall a b, s_eqb a b = true <-> a = b).
  { induction a as [|x a IH]; intros [|y b]; cbn; split; try congruence. intro H. apply andb_prop in H as [H1 H2]. apply N.eqb_eq in H1. apply IH in H2. congruence.
    intro H. injection H as -> ->. rewrite N.eqb_refl. apply IH. reflexivity. }
  assert (R : forall a b, a <> b -> s_eqb a b = false) by (intros a b N; destruct (s_eqb a b) eqn:E; [apply Q in E; contradiction|reflexivity]).
  induction l as [|[k' v'] l IH]; intros k v x S; cbn [put].
  - cbn [get]. destruct (lt_cases k x) as [(E & E' & Ne)|[(E & E' & Ne)|(<- & E & E')]]; rewrite E, ?E'.
    + rewrite R by congruence. reflexivity.
    + rewrite R by congruence. reflexivity.
    + rewrite (proj2 (Q k k)) by reflexivity. reflexivity.
  - inversion S as [|? ? S' F]; subst. specialize (IH k v x S').
    destruct (lt_cases k' k) as [(E & E' & Ne)|[(E & E' & Ne)|(<- & E & E')]]; rewrite E, ?E'; cbn [get].
    + rewrite IH. destruct (lt_cases k' x) as [(G & G' & _)|[(G & G' & _)|(<- & G & G')]]; rewrite G, ?G'; [reflexivity| |rewrite R by assumption; reflexivity].
      rewrite R; [reflexivity|]. intros ->. rewrite G in E. discriminate.
    + destruct (lt_cases k x) as [(G & G' & Nx)|[(G & G' & Nx)|(<- & G & G')]]; rewrite G, ?G'.
      * rewrite R by congruence. reflexivity.
      * rewrite R by congruence. rewrite (lt_asym _ _ (lt_trans _ _ _ G' E')). rewrite (lt_trans _ _ _ G' E'). reflexivity.
      * rewrite (proj2 (Q k k)) by reflexivity. reflexivity.
    + destruct (lt_cases k' x) as [(G & G' & Nx)|[(G & G' & Nx)|(<- & G & G')]]; rewrite G, ?G'.
      * rewrite R by congruence. reflexivity.
      * rewrite R by congruence. reflexivity.
      * rewrite (proj2 (Q k' k')) by reflexivity. reflexivity.
Qed.
Lemma s_eqb_eq : forall a b, s_eqb a b = true <-> a = b.
Proof.
  induction a as [|x a IH]; intros [|y b]; cbn; split; try congruence.
  - intro H. apply andb_prop in H as [H1 H2]. apply N.eqb_eq in H1. apply IH in H2. congruence.
  - intro H. injection H as -> ->. rewrite N.eqb_refl. apply IH. reflexivity.
Qed.
Lemma s_eqb_neq : forall a b, s_eqb a b = false <-> a <> b.
Proof. intros a b. rewrite <- (s_eqb_eq a b). destruct (s_eqb a b); split; congruence. Qed.
Lemma m_eqb_eq : forall a b, m_eqb a b = true <-> a = b.
Proof.
  induction a as [|[k v] a IH]; intros [|[k' v'] b]; cbn; split; try congruence.
  - intro H. apply andb_prop in H as [H1 H2]. apply andb_prop in H1 as [H0 H1]. apply s_eqb_eq in H0, H1. apply IH in H2. congruence.
  - intro H. injection H as -> -> ->. rewrite !(proj2 (s_eqb_eq _ _)) by reflexivity. apply IH. reflexivity.
Qed.
Lemma get_in : forall l k v, sorted l -> (get k l = Some v <-> In (k, v) l).
Proof.
  induction l as [|[k' v'] l IH]; intros k v S; cbn [get In]; [split; [discriminate|contradiction]|]. inversion S as [|? ? S' F]; subst. rewrite Forall_forall in F.
  destruct (lt_cases k' k) as [(E & E' & Ne)|[(E & E' & Ne)|(<- & E & E')]]; rewrite E, ?E'.
  - rewrite IH by exact S'. split; [auto|]. intros [H|H]; [congruence|exact H].
  - split; [discriminate|]. intros [H|H]; [congruence|]. apply F in H. unfold klt in H. cbn in H. pose proof (lt_trans _ _ _ H E') as Q. rewrite lt_irrefl in Q. discriminate.
  - split; [intro H; injection H as ->; auto|]. intros [H|H]; [congruence|]. apply F in H. unfold klt in H. cbn in H. rewrite lt_irrefl in H. discriminate.
Qed.
(** two sorted sequences with the same contents are equal *)
Lemma sorted_ext : forall a b, sorted a -> sorted b -> (forall k, get k a = get k b) -> a = b.
Proof.
  induction a as [|[k v] a IH]; intros [|[k' v'] b] S S' H.
  - reflexivity.
  - specialize (H k'). cbn in H. rewrite lt_irrefl in H. discriminate.
  - specialize (H k). cbn in H. rewrite lt_irrefl in H. discriminate.
  - assert (Sa := S). assert (Sb := S'). inversion S as [|? ? S1 F]; subst. inversion S' as [|? ? S2 F']; subst.
    assert (K : k = k').
    { destruct (lt_cases k k') as [(E & E' & _)|[(E & E' & _)|(? & _)]]; [| |assumption]; exfalso.
      - pose proof (H k) as Hk. cbn in Hk. rewrite lt_irrefl, E', E in Hk. discriminate.
      - pose proof (H k') as Hk. cbn in Hk. rewrite lt_irrefl, E, E' in Hk. discriminate. }
    subst k'. assert (V : v = v') by (pose proof (H k) as Hk; cbn in Hk; rewrite !lt_irrefl in Hk; congruence). subst v'. f_equal.
    apply IH; [assumption|assumption|]. intro x. pose proof (H x) as Hx. cbn in Hx.
    destruct (lt_cases k x) as [(E & E' & _)|[(E & E' & _)|(<- & E & E')]]; rewrite E, ?E' in Hx; [exact Hx| |].
    + assert (N : forall l, sorted l -> Forall (klt (k, v)) l -> get x l = None).
      { intros [|[y w] l] Sl Fl; [reflexivity|]. cbn. inversion Fl as [|? ? Q _]; subst. unfold klt in Q. cbn in Q.
        rewrite (lt_asym _ _ (lt_trans _ _ _ E' Q)), (lt_trans _ _ _ E' Q). reflexivity. }
      rewrite !N; auto.
    + assert (N : forall l, sorted l -> Forall (klt (k, v)) l -> get k l = None).
      { intros [|[y w] l] Sl Fl; [reflexivity|]. cbn. inversion Fl as [|? ? Q _]; subst. unfold klt in Q. cbn in Q.
        rewrite (lt_asym _ _ Q), Q. reflexivity. }
      rewrite !N; auto.
Qed.
Lemma sorted_nodup : forall l, sorted l -> NoDup (map fst l).
Proof.
  induction 1 as [|[k v] l S IH F]; cbn [map]; constructor; [|exact IH]. intro H. apply in_map_iff in H as ([k' v'] & E & Hin). cbn in E. subst k'.
  rewrite Forall_forall in F. apply F in Hin. unfold klt in Hin. cbn in Hin. rewrite lt_irrefl in Hin. discriminate.
Qed.

(** ** objects *)
Definition valid (o : ea) : Prop := sorted (attr o) /\ forall k, alire o = Some k -> exists v, In (k, v) (attr o).
Lemma begin_in : forall l k, begin l = Some k -> exists v, In (k, v) l.
Proof. intros [|[k' v] l] k H; cbn in H; [discriminate|]. injection H as ->. exists v. left. reflexivity. Qed.
Lemma after_in : forall l k k', after k l = Some k' -> exists v, In (k', v) l.
Proof.
  induction l as [|[x v] l IH]; intros k k' H; cbn in H; [discriminate|]. destruct (str_lt k x).
  - injection H as ->. exists v. left. reflexivity.
  - apply IH in H as (w & H). exists w. right. exact H.
Qed.
Lemma put_keeps : forall l k v x w, sorted l -> In (x, w) l -> exists w', In (x, w') (put k v l).
Proof.
  intros l k v x w S H. apply get_in in H; [|exact S]. pose proof (get_put l k v x S) as G. rewrite H in G.
  destruct (s_eqb x k); [exists v|exists w]; apply get_in; auto using put_sorted.
Qed.
Lemma valid_add : forall o k v, valid o -> valid (add k v o).
Proof.
  intros o k v [S A]. split; [apply put_sorted, S|]. intros x Hx. apply A in Hx as (w & Hx). eapply put_keeps; eassumption.
Qed.
Lemma valid_reset : forall o, valid o -> valid (reset_read o).
Proof. intros o [S A]. split; [exact S|]. intros k H. apply begin_in, H. Qed.
Lemma read_attr : forall o, attr (snd (read o)) = attr o.
Proof. intro o. unfold read. destruct (alire o) as [k|]; [|reflexivity]. destruct (get k (attr o)); reflexivity. Qed.
Lemma valid_read : forall o, valid o -> valid (snd (read o)).
Proof.
  intros o [S A]. split; [rewrite read_attr; exact S|]. unfold read. destruct (alire o) as [k|] eqn:E; [|intros x H; cbn in *; congruence].
  destruct (get k (attr o)) as [v|]; cbn [snd alire attr]; [intros x H; eapply after_in, H|]. intros x H. apply A. congruence.
Qed.
Lemma diff_attr : forall fuel cov o other, attr (snd (diff_loop fuel cov o other)) = attr o /\ (valid o -> valid (snd (diff_loop fuel cov o other))).
Proof.
  induction fuel as [|fuel IH]; intros cov o other; cbn [diff_loop]; [auto|].
  pose proof (read_attr o) as RA. pose proof (valid_read o) as V. destruct (read o) as [[[k v]|] o']; cbn [snd] in *; [|auto].
  destruct (_ && _); cbn [snd]; [auto|]. destruct (IH cov o' other) as (E & W). rewrite E. split; [exact RA|auto].
Qed.
Lemma plus_valid : forall fuel ret arg, valid ret -> valid arg -> valid (fst (plus_loop fuel ret arg)) /\ valid (snd (plus_loop fuel ret arg)) /\ attr (snd (plus_loop fuel ret arg)) = attr arg.
Proof.
  induction fuel as [|fuel IH]; intros ret arg V V'; cbn [plus_loop]; [auto|].
  pose proof (read_attr arg) as RA. pose proof (valid_read arg V') as W. destruct (read arg) as [[[k v]|] a']; cbn [snd fst] in *; [|auto].
  destruct (IH (add k v ret) a' (valid_add _ k v V) W) as (X & Y & Z). rewrite Z. auto.
Qed.
Lemma pairs_sorted : forall fuel ver t t2 m f m' r, sorted m -> pairs fuel ver t t2 m f = Ok (m', r) -> sorted m'.
Proof.
  induction fuel as [|fuel IH]; intros ver t t2 m f m' r S H; cbn [pairs] in H; [discriminate|]. destruct (0 <? t2).
  - apply bind_ok_inv in H as ([[k v] f1] & _ & H). eapply IH; [|exact H]. apply put_sorted, S.
  - destruct (0 <? N.min t (2 ^ 32 - 1)); [eapply IH; eassumption|]. injection H as <- <-. exact S.
Qed.
Lemma built_valid : forall o, built o -> valid o.
Proof.
  induction 1 as [|o H IH|o k v H IH|o H IH|o H IH|o H IH|o other cov H IH H' IH'|o arg H IH H' IH'|o arg H IH H' IH'|ver f o r H].
  - split; [constructor|discriminate].
  - apply (valid_reset o IH).
  - apply valid_add, IH.
  - apply valid_reset, IH.
  - apply valid_read, IH.
  - split; [constructor|discriminate].
  - apply diff_attr, valid_reset, IH.
  - apply plus_valid; [apply (valid_reset o IH)|apply valid_reset, IH'].
  - apply plus_valid; [apply (valid_reset o IH)|apply valid_reset, IH'].
  - unfold construct in H. apply bind_ok_inv in H as ([t f1] & _ & H). cbv zeta in H. apply bind_ok_inv in H as ([m f2] & E & H). injection H as <- <-.
    split; [eapply pairs_sorted; [|exact E]; constructor|]. intros k K. apply begin_in, K.
Qed.

(** ** reading *)
Definition rest_from (o : ea) : list (str * str) :=
  match alire o with None => [] | Some k => filter (fun p => negb (str_lt (fst p) k)) (attr o) end.
Lemma filter_none : forall A (f : A -> bool) l, Forall (fun x => f x = true) l -> filter f l = l.
Proof. intros A f l H. induction H as [|x l E F IH]; cbn; [reflexivity|]. rewrite E, IH. reflexivity. Qed.
Lemma split_at : forall l k v, sorted l -> get k l = Some v ->
  filter (fun p => negb (str_lt (fst p) k)) l = (k, v) :: match after k l with None => [] | Some k' => filter (fun p => negb (str_lt (fst p) k')) l end.
Proof.
  induction l as [|[x w] l IH]; intros k v S H; cbn [get] in H; [discriminate|]. inversion S as [|? ? S' F]; subst.
  cbn [filter fst after]. destruct (lt_cases x k) as [(E & E' & Ne)|[(E & E' & Ne)|(<- & E & E')]]; rewrite E, ?E' in *; cbn [negb].
  - rewrite (IH k v S' H). f_equal. destruct (after k l) as [k'|] eqn:A; [|reflexivity]. cbn [filter fst].
    apply after_in in A as (w' & A). rewrite Forall_forall in F. apply F in A. unfold klt in A. cbn in A. rewrite A. reflexivity.
  - discriminate.
  - injection H as ->. f_equal.
    rewrite (filter_none _ _ l).
    + destruct l as [|[y z] l]; cbn [after]; [reflexivity|]. inversion F as [|? ? Q F']; subst. unfold klt in Q. cbn in Q. rewrite Q.
      cbn [filter fst]. rewrite Q. cbn [negb]. rewrite lt_irrefl. cbn [negb]. f_equal. symmetry. apply filter_none.
      inversion S' as [|? ? S'' F'']; subst. eapply Forall_impl; [|exact F'']. intros p Hp. unfold klt in Hp. cbn in Hp. rewrite (lt_asym _ _ Hp). reflexivity.
    + eapply Forall_impl; [|exact F]. intros p Hp. unfold klt in Hp. cbn in Hp. rewrite (lt_asym _ _ Hp). reflexivity.
Qed.
Lemma read_rest : forall o, valid o -> match rest_from o with
  | [] => read o = (None, o)
  | p :: l => exists o', read o = (Some p, o') /\ attr o' = attr o /\ rest_from o' = l end.
Proof.
  intros o [S A]. unfold rest_from, read. destruct (alire o) as [k|]; [|reflexivity]. destruct (A k eq_refl) as (v & H). apply get_in in H; [|exact S].
  rewrite (split_at _ _ _ S H), H. eexists. split; [reflexivity|]. split; reflexivity.
Qed.
Lemma reads_rest : forall l o, valid o -> rest_from o = l -> exists o', reads o l o' /\ attr o' = attr o.
Proof.
  induction l as [|p l IH]; intros o V E; pose proof (read_rest o V) as R; rewrite E in R.
  - exists o. split; [apply rd_end, R|reflexivity].
  - destruct R as (o1 & R & Ea & E1). pose proof (valid_read o V) as V1. rewrite R in V1. destruct (IH o1 V1 E1) as (o' & H & Ea').
    exists o'. split; [eapply rd_more; eassumption|congruence].
Qed.
Lemma reset_rest : forall o, valid o -> rest_from (reset_read o) = attr o.
Proof.
  intros o [S _]. unfold rest_from, reset_read. cbn [alire attr]. destruct (attr o) as [|[k v] l]; cbn [begin]; [reflexivity|]. inversion S as [|? ? S' F]; subst.
  apply filter_none. constructor; [cbn; rewrite lt_irrefl; reflexivity|]. eapply Forall_impl; [|exact F]. intros p Hp. unfold klt in Hp. cbn in Hp. rewrite (lt_asym _ _ Hp). reflexivity.
Qed.
Lemma reads_fun : forall o l o', reads o l o' -> forall l2 o2, reads o l2 o2 -> l = l2.
Proof.
  induction 1 as [o o' E|o kv o1 l o' E R IH]; intros l2 o2 H; inversion H; subst; try congruence. assert (kv0 = kv) as -> by congruence. f_equal. eapply IH. replace o1 with o3 by congruence. eassumption.
Qed.

(** ** diff *)
Definition differs (cov : str -> bool) (other : ea) (p : str * str) : bool :=
  cov (fst p) && match find (fst p) other with None => true | Some v' => negb (s_eqb v' (snd p)) end.
Lemma diff_ok : forall fuel cov o other, valid o -> (length (rest_from o) < fuel)%nat -> fst (diff_loop fuel cov o other) = existsb (differs cov other) (rest_from o).
Proof.
  induction fuel as [|fuel IH]; intros cov o other V L; [lia|]. cbn [diff_loop]. pose proof (read_rest o V) as R. pose proof (valid_read o V) as V1. destruct (rest_from o) as [|[k v] l].
  - rewrite R. reflexivity.
  - destruct R as (o' & R & _ & E). rewrite R in *. cbn [snd] in V1. cbn [existsb]. unfold differs at 1. cbn [fst snd]. destruct (cov k && _); [reflexivity|]. cbn [orb].
    rewrite IH; [rewrite E; reflexivity|exact V1|]. rewrite E. cbn in L. lia.
Qed.
(** ** plus *)
Lemma plus_ok : forall fuel ret arg, valid arg -> (length (rest_from arg) < fuel)%nat ->
  attr (fst (plus_loop fuel ret arg)) = fold_left (fun m p => put (fst p) (snd p) m) (rest_from arg) (attr ret).
Proof.
  induction fuel as [|fuel IH]; intros ret arg V L; [lia|]. cbn [plus_loop]. pose proof (read_rest arg V) as R. pose proof (valid_read arg V) as V1. destruct (rest_from arg) as [|[k v] l].
  - rewrite R. reflexivity.
  - destruct R as (o' & R & _ & E). rewrite R in *. cbn [snd] in V1. rewrite IH; [rewrite E; reflexivity|exact V1|]. rewrite E. cbn in L. lia.
Qed.
Lemma fold_put : forall l m k, sorted l -> sorted m -> get k (fold_left (fun m p => put (fst p) (snd p) m) l m) = match get k l with Some v => Some v | None => get k m end.
Proof.
  induction l as [|[x v] l IH]; intros m k S S'; [reflexivity|]. inversion S as [|? ? S1 F]; subst. cbn [fold_left fst snd get].
  rewrite IH by auto using put_sorted. rewrite get_put by exact S'.
  assert (NI : get x l = None).
  { destruct (get x l) as [w|] eqn:G; [|reflexivity]. apply get_in in G; [|exact S1]. rewrite Forall_forall in F. apply F in G. unfold klt in G. cbn in G. rewrite lt_irrefl in G. discriminate. }
  destruct (lt_cases x k) as [(E & E' & Ne)|[(E & E' & Ne)|(<- & E & E')]]; rewrite E, ?E'.
  - rewrite (proj2 (s_eqb_neq k x)) by congruence. reflexivity.
  - rewrite (proj2 (s_eqb_neq k x)) by congruence.
    assert (G : get k l = None).
    { destruct (get k l) as [w|] eqn:G; [|reflexivity]. apply get_in in G; [|exact S1]. rewrite Forall_forall in F. apply F in G. unfold klt in G. cbn in G.
      pose proof (lt_trans _ _ _ G E') as Q. rewrite lt_irrefl in Q. discriminate. }
    rewrite G. reflexivity.
  - rewrite NI, (proj2 (s_eqb_eq x x)) by reflexivity. reflexivity.
Qed.
Lemma fold_put_sorted : forall l m, sorted m -> sorted (fold_left (fun m p => put (fst p) (snd p) m) l m).
Proof. induction l as [|p l IH]; intros m S; cbn; [exact S|]. apply IH, put_sorted, S. Qed.
