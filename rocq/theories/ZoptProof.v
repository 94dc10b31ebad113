(** * ZoptProof: lemmas for C63 *)
From Coq Require Import List String.
From Verif Require Import Base InfinintModel DeciModel DeciProof HeaderModel ReadStable ArgModel ArgSpec ArgProof ZoptModel ZoptSpec.
Open Scope N_scope.

Lemma is_space_ok : forall c, is_space c = true <-> space c.
Proof. intro c. unfold is_space, space. lia. Qed.
Lemma value_ok : forall ds, value_of ds = number 10 ds.
Proof. intro ds. unfold value_of. rewrite fold_number. lia. Qed.
Lemma skip_split : forall s, exists sp, Forall space sp /\ s = sp ++ skip_ws s /\ match skip_ws s with [] => True | c :: _ => ~ space c end.
Proof.
  induction s as [|c s (sp & F & E & H)]; [exists []; cbn; auto|]. cbn [skip_ws]. destruct (is_space c) eqn:S.
  - exists (c :: sp). split; [constructor; [apply is_space_ok, S|exact F]|]. split; [cbn; congruence|exact H].
  - exists []. split; [constructor|]. split; [reflexivity|]. rewrite <- is_space_ok. congruence.
Qed.
Lemma skip_app : forall sp s, Forall space sp -> skip_ws (sp ++ s) = skip_ws s.
Proof. induction sp as [|c sp IH]; intros s F; [reflexivity|]. inversion F as [|? ? H F']; subst. cbn [app skip_ws]. rewrite (proj2 (is_space_ok c)) by exact H. apply IH, F'. Qed.
Lemma skip_nothing : forall s, match s with [] => True | c :: _ => ~ space c end -> skip_ws s = s.
Proof. intros [|c s] H; [reflexivity|]. cbn [skip_ws]. destruct (is_space c) eqn:S; [apply is_space_ok in S; contradiction|reflexivity]. Qed.
Definition not_digit (s : list N) : Prop := match s with [] => True | c :: _ => ~ (48 <= c < 58) end.
Lemma run_ok : forall s, let '(ds, t) := run s in s = ds ++ t /\ digits 10 ds /\ not_digit t.
Proof.
  induction s as [|c s IH]; cbn [run]; [repeat split; constructor|]. destruct (run s) as [ds t]. destruct IH as (E & D & T).
  destruct ((48 <=? c) && (c <=? 57)) eqn:K.
  - split; [cbn; congruence|]. split; [constructor; [lia|exact D]|exact T].
  - split; [reflexivity|]. split; [constructor|]. cbn. lia.
Qed.
Lemma run_app : forall ds t, digits 10 ds -> not_digit t -> run (ds ++ t) = (ds, t).
Proof.
  induction ds as [|c ds IH]; intros t D T; cbn [app].
  - destruct t as [|c t]; [reflexivity|]. cbn [run]. cbn in T. replace ((48 <=? c) && (c <=? 57)) with false by lia. reflexivity.
  - inversion D as [|? ? H D']; subst. cbn [run]. replace ((48 <=? c) && (c <=? 57)) with true by lia. rewrite IH by assumption. reflexivity.
Qed.
Lemma not_digit_spaces : forall sp, Forall space sp -> not_digit sp.
Proof. intros [|c sp] F; [exact I|]. inversion F as [|? ? H _]; subst. cbn. unfold space in H. lia. Qed.
Definition sign_of (s : list N) : bool * list N := match s with 45 :: r => (true, r) | 43 :: r => (false, r) | _ => (false, s) end.
Lemma sign_cases : forall s, (exists r, s = 45 :: r /\ sign_of s = (true, r)) \/ (exists r, s = 43 :: r /\ sign_of s = (false, r)) \/ (sign_of s = (false, s) /\ match s with [] => True | c :: _ => c <> 43 /\ c <> 45 end).
Proof.
  intros [|c r]; [right; right; split; [reflexivity|exact I]|]. destruct (N.eq_dec c 45) as [->|N1]; [left; eauto|]. destruct (N.eq_dec c 43) as [->|N2]; [right; left; eauto|].
  right; right. split; [|auto]. unfold sign_of. repeat match goal with |- context[match ?x with _ => _ end] => is_var x; destruct x; try reflexivity; try congruence end.
Qed.
Lemma str2int_unfold : forall w s, str2int w s =
  let '(neg, s2) := sign_of (skip_ws s) in let '(ds, rest) := run s2 in
  match ds with
  | [] => Err Erange
  | _ :: _ => if 2 ^ w <=? value_of ds then Err Erange else
    match skip_ws rest with [] => Ok (if neg then (2 ^ w - value_of ds) mod 2 ^ w else value_of ds) | _ => Err Erange end
  end.
Proof. reflexivity. Qed.
Lemma str2int_ok : forall w s v, str2int w s = Ok v <-> integer w s v.
Proof.
  intros w s v. rewrite str2int_unfold. split.
  - intro H. destruct (skip_split s) as (sp & F & E & _). set (s1 := skip_ws s) in *.
    assert (G : exists sign, s1 = sign ++ snd (sign_of s1) /\ ((fst (sign_of s1) = false /\ (sign = [] \/ sign = [43])) \/ (fst (sign_of s1) = true /\ sign = [45]))).
    { destruct (sign_cases s1) as [(r & E1 & E2)|[(r & E1 & E2)|(E2 & _)]]; rewrite E2; cbn [fst snd]; [exists [45]|exists [43]|exists []]; cbn; auto. }
    destruct G as (sign & E1 & G). destruct (sign_of s1) as [neg s2]. cbn [fst snd] in *. pose proof (run_ok s2) as R. destruct (run s2) as [ds t]. destruct R as (E2 & D & _).
    destruct ds as [|d ds]; [discriminate|]. destruct (N.leb_spec (2 ^ w) (value_of (d :: ds))) as [|L]; [discriminate|].
    destruct (skip_split t) as (sp' & F' & E3 & _). destruct (skip_ws t); [|discriminate]. rewrite app_nil_r in E3. rewrite value_ok in *. injection H as <-.
    exists sp, sign, (d :: ds), sp'. split; [rewrite E, E1, E2, E3; reflexivity|]. split; [exact F|]. split; [exact F'|]. split; [discriminate|]. split; [exact D|]. split; [exact L|].
    destruct G as [[-> G]|[-> G]]; auto.
  - intros (sp & sign & ds & sp' & -> & F & F' & Ne & D & L & G). rewrite skip_app by exact F. destruct ds as [|d ds]; [congruence|]. inversion D as [|? ? Hd D']; subst.
    assert (S : sign_of (skip_ws (sign ++ (d :: ds) ++ sp')) = ((match sign with [45] => true | _ => false end), (d :: ds) ++ sp')).
    { destruct G as [[[-> | ->] _]|[-> _]].
      - cbn [app]. rewrite skip_nothing by (unfold space; lia). destruct (sign_cases (d :: ds ++ sp')) as [(r & E1 & _)|[(r & E1 & _)|(E2 & _)]]; [injection E1 as -> _; lia|injection E1 as -> _; lia|exact E2].
      - reflexivity.
      - reflexivity. }
    rewrite S, run_app; [|exact D|apply not_digit_spaces, F']. rewrite value_ok. destruct (N.leb_spec (2 ^ w) (number 10 (d :: ds))); [lia|].
    rewrite <- (app_nil_r sp'), skip_app by exact F'. cbn [skip_ws]. destruct G as [[[-> | ->] ->]|[-> ->]]; reflexivity.
Qed.
Lemma str2int_err : forall w s e, str2int w s = Err e -> e = Erange.
Proof.
  intros w s e. rewrite str2int_unfold. destruct (sign_of _) as [neg s2]. destruct (run s2) as [[|d ds] t]; [congruence|]. destruct (_ <=? _); [congruence|]. destruct (skip_ws t); congruence.
Qed.

(** ** names *)
Lemma t_eqb_eq : forall a b, t_eqb a b = true <-> a = b.
Proof.
  induction a as [|x a IH]; intros [|y b]; cbn; split; try congruence.
  - intro H. apply andb_prop in H as [H1 H2]. apply N.eqb_eq in H1. apply IH in H2. congruence.
  - intro H. injection H as -> ->. rewrite N.eqb_refl. apply IH. reflexivity.
Qed.
Lemma is_ok : forall a s, is a s = true <-> a = str s. Proof. intros. apply t_eqb_eq. Qed.
Lemma named_ok : forall a c, string2compression a = Ok c <-> named a c.
Proof.
  intros a c. split.
  - unfold string2compression, named. intro H.
    repeat match type of H with (if ?b then _ else _) = _ => let E := fresh in destruct b eqn:E;
      [injection H as <-; repeat (apply orb_prop in E as [E|E]); apply is_ok in E; (eexists; split; [|exact E]); cbn; tauto|clear E] end.
    discriminate.
  - intros (n & I & ->). cbn [algorithms In] in I. repeat (destruct I as [I|I]; [injection I as <- <-; reflexivity|]). contradiction.
Qed.
Lemma named_err : forall a e, string2compression a = Err e -> e = Erange.
Proof. intros a e. unfold string2compression. repeat match goal with |- context[if ?b then _ else _] => destruct b end; congruence. Qed.
Lemma algo_ok : forall a c, algo_field a = Ok c <-> algo_or_default a c.
Proof.
  intros a c. unfold algo_or_default. destruct a as [|x a]; cbn [algo_field].
  - split; [intro H; injection H as <-; auto|]. intros [[_ ->]|(n & I & E)]; [reflexivity|]. cbn [algorithms In] in I. repeat (destruct I as [I|I]; [injection I as <- <-; discriminate|]). contradiction.
  - rewrite named_ok. split; [auto|]. intros [[H _]|H]; [discriminate|exact H].
Qed.
Lemma level_ok : forall w l c n, level_field w l c = Ok n <-> level_or_default w l c n.
Proof.
  intros w l c n. unfold level_or_default. destruct l as [|x l]; cbn [level_field].
  - split; [intro H; injection H as <-; auto|]. intros [[_ ->]|[H _]]; [reflexivity|congruence].
  - assert (Z : is_zstd c = true <-> c = Czstd) by (destruct c; cbn; split; congruence). split.
    + intro H. right. split; [discriminate|]. destruct (str2int w (x :: l)) as [v|] eqn:E; [|discriminate]. apply str2int_ok in E.
      destruct (is_zstd c) eqn:Q; destruct (N.ltb_spec 9 v), (N.ltb_spec v 1); cbn in H; try discriminate; injection H as <-; (split; [exact E|]); (split; [lia|]); (left; lia) || (right; apply Z; reflexivity).
    + intros [[H _]|(_ & E & L & R)]; [discriminate|]. apply str2int_ok in E. rewrite E.
      destruct (is_zstd c) eqn:Q; destruct (N.ltb_spec 9 n), (N.ltb_spec n 1); cbn; try reflexivity; try lia. destruct R as [R|R]; [lia|]. apply Z in R. congruence.
Qed.
Lemma level_err : forall w l c e, level_field w l c = Err e -> e = Erange.
Proof. intros w [|x l] c e H; cbn [level_field] in H; [discriminate|]. destruct (str2int w (x :: l)) as [v|e'] eqn:E; [destruct (_ || _); congruence|apply str2int_err in E; congruence]. Qed.

(** ** one field *)
Lemma split_one : forall s, s <> [] -> ~ In 58 s -> split 58 s = [s].
Proof.
  intros s Ne NI. apply split_spec. split; [constructor; [exact NI|constructor]|]. right. exists [], s. split; [reflexivity|]. split; [exact Ne|reflexivity].
Qed.
Lemma integer_text : forall w s v, integer w s v -> s <> [] /\ ~ In 58 s.
Proof.
  intros w s v (sp & sign & ds & sp' & -> & F & F' & Ne & D & _ & G). split.
  - destruct ds; [congruence|]. destruct sp; [|discriminate]. destruct sign; discriminate.
  - unfold digits in D. rewrite Forall_forall in F, F', D. intro H. apply in_app_or in H as [H|H]; [apply F in H; unfold space in H; lia|]. apply in_app_or in H as [H|H].
    + destruct G as [[[-> | ->] _]|[-> _]]; cbn in H; [contradiction| |]; destruct H as [H|[]]; discriminate.
    + apply in_app_or in H as [H|H]; [apply D in H; lia|apply F' in H; unfold space in H; lia].
Qed.
Lemma named_text : forall s c, named s c -> s <> [] /\ ~ In 58 s.
Proof.
  intros s c (n & I & ->). cbn [algorithms In] in I. repeat (destruct I as [I|I]; [injection I as <- <-; split; [discriminate|]; cbn; intro H; repeat (destruct H as [H|H]; [discriminate|]); exact H|]). contradiction.
Qed.
Lemma not_both : forall w s c v, named s c -> integer w s v -> False.
Proof.
  intros w s c v (n & I & E) H. apply str2int_ok in H. subst s. cbn [algorithms In] in I.
  repeat (destruct I as [I|I]; [injection I as <- <-; rewrite str2int_unfold in H; cbn in H; discriminate|]). contradiction.
Qed.
Lemma sti_err : forall s e, string_to_int s = Err e -> e = Erange \/ e = Edeci.
Proof.
  intros s e H. destruct s as [|c s]; [left; cbn in H; congruence|]. assert (NE : c :: s <> []) by discriminate.
  assert (DD : forall x, {is_digit x} + {~ is_digit x}).
  { intro x. unfold is_digit. destruct (48 <=? x) eqn:E1; [apply N.leb_le in E1; destruct (x <=? 57) eqn:E2; [apply N.leb_le in E2; left; auto|apply N.leb_gt in E2; right; lia]|apply N.leb_gt in E1; right; lia]. }
  destruct (Forall_dec is_digit DD (c :: s)) as [D|D].
  - apply digits_is in D. rewrite (sti_ok _ NE D) in H. discriminate.
  - unfold string_to_int in H. rewrite (deci_of_string_err _ NE D) in H. cbn in H. right. congruence.
Qed.
