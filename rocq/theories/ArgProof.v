(** * ArgProof: lemmas about what a user may write *)
From Coq Require Import List String Ascii.
From Verif Require Import Base InfinintModel DeciModel DeciProof ArgModel ArgSpec.
Open Scope N_scope.

(** ** numbers *)
Lemma fold_number : forall b s a, (fold_left (fun a c => a * b + (c - 48)) s a) = a * b ^ N.of_nat (List.length s) + number b s.
Proof.
  intros b s. induction s as [|c s IH]; intro a; cbn [fold_left number List.length]; [rewrite N.pow_0_r; lia|].
  rewrite IH, Nat2N.inj_succ, N.pow_succ_r', N.mul_add_distr_r. rewrite <- N.mul_assoc. lia.
Qed.
Lemma str_value_number s : str_value s = number 10 s. Proof. unfold str_value. rewrite fold_number. lia. Qed.
Lemma digits_is s : digits 10 s <-> Forall is_digit s.
Proof. unfold digits, is_digit. rewrite !Forall_forall. split; intros H x I; specialize (H x I); lia. Qed.
Lemma sti_ok s : s <> [] -> digits 10 s -> string_to_int s = Ok (number 10 s).
Proof. intros N D. rewrite string_to_int_spec; [rewrite str_value_number; reflexivity|exact N|apply digits_is, D]. Qed.
Lemma sti_inv s v : string_to_int s = Ok v -> s <> [] /\ digits 10 s /\ v = number 10 s.
Proof.
  intro H. destruct s as [|c s]; [discriminate|]. assert (NE : c :: s <> []) by discriminate. split; [exact NE|].
  assert (DD : forall x, {is_digit x} + {~ is_digit x}).
  { intro x. unfold is_digit. destruct (48 <=? x) eqn:E1; [apply N.leb_le in E1; destruct (x <=? 57) eqn:E2; [apply N.leb_le in E2; left; auto|apply N.leb_gt in E2; right; lia]|apply N.leb_gt in E1; right; lia]. }
  destruct (Forall_dec is_digit DD (c :: s)) as [D|D].
  - apply digits_is in D. rewrite (sti_ok _ NE D) in H. injection H as <-. auto.
  - exfalso. unfold string_to_int in H. rewrite (deci_of_string_err _ NE D) in H. discriminate.
Qed.
Lemma unit_suffix c k : unit_power c k -> suffix c = Some (N.of_nat k) /\ (0 < k)%nat.
Proof.
  intros [(H & P)|(-> & ->)]; [|split; [reflexivity|lia]]. split; [|exact P]. destruct k as [|k]; [lia|]. cbn [Nat.sub] in H. rewrite Nat.sub_0_r in H.
  do 10 (destruct k as [|k]; [cbn in H; injection H as <-; reflexivity|]). cbn in H. destruct k; discriminate.
Qed.
Lemma suffix_cases c k : suffix c = Some k -> (k = 0 /\ 48 <= c <= 57) \/ unit_power c (N.to_nat k).
Proof.
  unfold suffix. intro H.
  destruct (N.eqb_spec c 75) as [->|_]; [injection H as <-; right; right; split; reflexivity|].
  destruct (N.eqb_spec c 107) as [->|_]; [injection H as <-; right; left; split; [reflexivity|cbn; lia]|]. cbn [orb] in H.
  destruct (N.eqb_spec c 77) as [->|_]; [injection H as <-; right; left; split; [reflexivity|cbn; lia]|].
  destruct (N.eqb_spec c 71) as [->|_]; [injection H as <-; right; left; split; [reflexivity|cbn; lia]|].
  destruct (N.eqb_spec c 84) as [->|_]; [injection H as <-; right; left; split; [reflexivity|cbn; lia]|].
  destruct (N.eqb_spec c 80) as [->|_]; [injection H as <-; right; left; split; [reflexivity|cbn; lia]|].
  destruct (N.eqb_spec c 69) as [->|_]; [injection H as <-; right; left; split; [reflexivity|cbn; lia]|].
  destruct (N.eqb_spec c 90) as [->|_]; [injection H as <-; right; left; split; [reflexivity|cbn; lia]|].
  destruct (N.eqb_spec c 89) as [->|_]; [injection H as <-; right; left; split; [reflexivity|cbn; lia]|].
  destruct (N.eqb_spec c 82) as [->|_]; [injection H as <-; right; left; split; [reflexivity|cbn; lia]|].
  destruct (N.eqb_spec c 81) as [->|_]; [injection H as <-; right; left; split; [reflexivity|cbn; lia]|].
  destruct (N.leb_spec 48 c); [|discriminate]. destruct (N.leb_spec c 57); [|discriminate]. injection H as <-. left. split; [reflexivity|lia].
Qed.
Lemma pow_big b k : 1 < b -> 0 < k -> (b ^ k =? 1) = false.
Proof. intros B K. apply N.eqb_neq. pose proof (N.pow_gt_1 b k B). lia. Qed.
Lemma last_split {A} (s : list A) : s <> [] -> exists r c, s = r ++ [c].
Proof. intro H. destruct (exists_last H) as (r & c & ->). eauto. Qed.
Lemma suffix_digit c : 48 <= c <= 57 -> suffix c = Some 0.
Proof.
  intro H. unfold suffix. repeat match goal with |- context [N.eqb c ?x] => destruct (N.eqb_spec c x); [exfalso; lia|] end. cbn [orb].
  destruct (N.leb_spec 48 c); [|lia]. destruct (N.leb_spec c 57); [reflexivity|lia].
Qed.
Lemma ext_size_ok base s v : 1 < base -> (ext_size base s = Ok v <-> (s = [] /\ v = 0) \/ size_of base s v).
Proof.
  intro B. unfold ext_size. destruct s as [|x s0] eqn:Es.
  - cbn. split; [intro H; injection H as <-; auto|]. intros [(_ & ->)|S]; [reflexivity|]. inversion S as [ds NE D E1 E2|ds c k NE D U E1 E2]; [congruence|destruct ds; discriminate].
  - rewrite <- Es. destruct (last_split s) as (r & c & Er); [rewrite Es; discriminate|]. clear Es. rewrite Er, rev_app_distr. cbn [rev app]. rewrite rev_involutive. split.
    + intro H. right. destruct (suffix c) as [k|] eqn:SF; [|discriminate]. destruct (suffix_cases c k SF) as [(-> & C)|U].
      * change (base ^ 0 =? 1) with true in H. cbn [negb] in H. destruct (string_to_int (r ++ [c])) as [n|] eqn:E; [|discriminate]. cbn [bind] in H. assert (HV : v = base ^ 0 * n) by congruence. subst v. destruct (sti_inv _ _ E) as (NE & D & ->).
        rewrite N.pow_0_r, N.mul_1_l. apply so_plain; assumption.
      * assert (K : 0 < k). { destruct (unit_suffix _ _ U) as (_ & P). lia. } rewrite pow_big in H by assumption. cbn [negb] in H.
        destruct (string_to_int r) as [n|] eqn:E; [|discriminate]. cbn [bind] in H. assert (HV : v = base ^ k * n) by congruence. subst v. destruct (sti_inv _ _ E) as (NE & D & ->). rewrite N.mul_comm. rewrite <- (N2Nat.id k). apply so_unit; assumption.
    + intros [(E & _)|S]; [destruct r; discriminate|]. inversion S as [ds NE D E1 E2|ds c' k NE D U E1 E2]; subst.
      * assert (C : 48 <= c <= 57) by (apply Forall_app in D; destruct D as (_ & D); apply Forall_inv in D; lia). rewrite (suffix_digit c C). change (base ^ 0 =? 1) with true. cbn [negb].
        rewrite sti_ok by assumption. cbn [bind]. rewrite N.pow_0_r, N.mul_1_l. reflexivity.
      * apply app_inj_tail in E1. destruct E1 as (<- & <-). destruct (unit_suffix _ _ U) as (-> & P). rewrite pow_big by lia. cbn [negb]. rewrite sti_ok by assumption. cbn [bind]. rewrite N.mul_comm. reflexivity.
Qed.

(** ** templates *)
Lemma sub_acc corres : forall n hook ret, (List.length hook <= n)%nat -> sub_loop corres hook ret = option_map (app ret) (sub_loop corres hook []).
Proof.
  induction n as [|n IH]; intros hook ret L; (destruct hook as [|c r]; [cbn; rewrite app_nil_r; reflexivity|]); [cbn in L; lia|]. cbn in L. cbn [sub_loop]. destruct (c =? 37).
  - destruct r as [|d r']; [reflexivity|]. destruct (corres d) as [v|]; [|reflexivity]. cbn in L. rewrite IH by lia. rewrite (IH r' ([] ++ v)) by lia. destruct (sub_loop corres r' []); [|reflexivity]. cbn. rewrite app_assoc. reflexivity.
  - rewrite IH by lia. rewrite (IH r ([] ++ [c])) by lia. destruct (sub_loop corres r []); [|reflexivity]. cbn. rewrite <- app_assoc. reflexivity.
Qed.
Lemma substitute_ok corres : forall n hook r, (List.length hook <= n)%nat -> (substitute corres hook = Some r <-> expands corres hook r).
Proof.
  unfold substitute. induction n as [|n IH]; intros hook r L; (destruct hook as [|c h]; [cbn; split; [intro H; injection H as <-; exists []; auto|intros (ts & F & E & ->); destruct ts as [|[a|a w] ts]; [reflexivity|discriminate|discriminate]]|]); [cbn in L; lia|].
  cbn in L. cbn [sub_loop]. destruct (N.eqb_spec c 37) as [->|NC].
  - destruct h as [|d h']; [split; [discriminate|]; intros (ts & F & E & _); destruct ts as [|[a|a w] ts]; cbn in E; try discriminate; injection E as E1 E2; subst; inversion F as [|? ? T _]; subst; cbn in T; congruence|].
    cbn in L. destruct (corres d) as [v|] eqn:CD.
    + rewrite (sub_acc corres (List.length h')) by lia. specialize (IH h'). split.
      * intro H. destruct (sub_loop corres h' []) as [y|] eqn:E; [|discriminate]. cbn in H. injection H as <-. destruct (proj1 (IH y ltac:(lia)) eq_refl) as (ts & F & E1 & E2). exists (Pct d v :: ts). cbn. rewrite <- E1, <- E2. split; [constructor; [exact CD|exact F]|auto].
      * intros (ts & F & E1 & ->). destruct ts as [|[a|a w] ts]; [discriminate| |]; inversion F as [|? ? T F']; subst; cbn in E1, T.
        -- injection E1 as E1 _. congruence.
        -- injection E1 as <- E1. rewrite CD in T. injection T as <-. rewrite (proj2 (IH (flat_map meant ts) ltac:(lia))); [reflexivity|]. exists ts. auto.
    + split; [discriminate|]. intros (ts & F & E1 & _). destruct ts as [|[a|a w] ts]; [discriminate| |]; inversion F as [|? ? T F']; subst; cbn in E1, T; injection E1 as E1 E2; [congruence|]. subst. congruence.
  - rewrite (sub_acc corres (List.length h)) by lia. specialize (IH h). split.
    + intro H. destruct (sub_loop corres h []) as [y|] eqn:E; [|discriminate]. cbn in H. injection H as <-. destruct (proj1 (IH y ltac:(lia)) eq_refl) as (ts & F & E1 & E2). exists (Lit c :: ts). cbn. rewrite <- E1, <- E2. split; [constructor; [exact NC|exact F]|auto].
    + intros (ts & F & E1 & ->). destruct ts as [|[a|a w] ts]; [discriminate| |]; inversion F as [|? ? T F']; subst; cbn in E1, T; injection E1 as E1 E2; [|congruence]. subst c.
      rewrite (proj2 (IH (flat_map meant ts) ltac:(lia))); [reflexivity|]. exists ts. auto.
Qed.
Lemma protected_expands corres t : corres 37 = Some [37] -> expands corres (protected t) t.
Proof.
  intro C. exists (map (fun c => if c =? 37 then Pct 37 [37] else Lit c) t). induction t as [|c t (F & E1 & E2)]; [split; [constructor|split; reflexivity]|]. cbn [map flat_map protected]. fold (protected t). rewrite E1 at 1. rewrite <- E2. destruct (N.eqb_spec c 37) as [->|NC]; cbn; auto.
Qed.

(** ** XML *)
Lemma xml_acc : forall src ret, xml_loop src ret = ret ++ xml_loop src [].
Proof. induction src as [|c r IH]; intro ret; cbn [xml_loop]; [rewrite app_nil_r; reflexivity|]. rewrite IH, (IH ([] ++ _)), app_assoc. reflexivity. Qed.
Lemma xml_read_ok : forall src, xml_read (output2xml src) = Some src.
Proof.
  unfold output2xml. induction src as [|c r IH]; [reflexivity|]. cbn [xml_loop]. rewrite xml_acc. cbn [app].
  destruct (N.eqb_spec c 60) as [->|N1]; [cbn; rewrite IH; reflexivity|]. destruct (N.eqb_spec c 62) as [->|N2]; [cbn; rewrite IH; reflexivity|].
  destruct (N.eqb_spec c 38) as [->|N3]; [cbn; rewrite IH; reflexivity|]. destruct (N.eqb_spec c 39) as [->|N4]; [cbn; rewrite IH; reflexivity|].
  destruct (N.eqb_spec c 34) as [->|N5]; [cbn; rewrite IH; reflexivity|]. cbn [app].
  assert (E : forall t, xml_read (c :: t) = option_map (cons c) (xml_read t)).
  { intro t. assert (D : (if (c =? 38) || (c =? 60) || (c =? 62) || (c =? 34) || (c =? 39) then None else option_map (cons c) (xml_read t)) = option_map (cons c) (xml_read t)).
    { apply N.eqb_neq in N1, N2, N3, N4, N5. rewrite N1, N2, N3, N4, N5. reflexivity. }
    rewrite <- D at 1. clear D. cbn [xml_read]. destruct c as [|p]; [reflexivity|]. do 6 (destruct p as [p|p|]; try reflexivity). exfalso. apply N3. reflexivity. }
  rewrite E, IH. reflexivity.
Qed.

(** ** octal numbers *)
Lemma oct_error w p ret : oct_loop w p o_error ret = Err Erange. Proof. destruct p; reflexivity. Qed.
Lemma oct_trail w ret v : forall p, oct_loop w p o_trail ret = Ok v <-> Forall (eq 32) p /\ v = ret.
Proof.
  induction p as [|c p IH]; cbn [oct_loop].
  - split; [intro H; injection H as ->; auto|intros (_ & ->); reflexivity].
  - destruct (N.eqb_spec c 32) as [->|NC]; cbn [negb].
    + rewrite IH. split; [intros (F & ->); auto|intros (F & ->); inversion F; auto].
    + rewrite oct_error. split; [discriminate|]. intros (F & _). inversion F; congruence.
Qed.
Lemma oct_step M ret d l n : M <> 0 -> ((ret * 8 + d) mod M * 8 ^ l + n) mod M = (ret * 8 ^ N.succ l + (d * 8 ^ l + n)) mod M.
Proof.
  intro NM. rewrite <- N.add_mod_idemp_l by exact NM. rewrite N.mul_mod_idemp_l by exact NM. rewrite N.add_mod_idemp_l by exact NM. f_equal. rewrite N.pow_succ_r'. lia.
Qed.
Lemma oct_octal w v : forall p ret, ret < 2 ^ w -> (oct_loop w p o_octal ret = Ok v <->
  exists ds sp', p = ds ++ sp' /\ digits 8 ds /\ Forall (eq 32) sp' /\ v = (ret * 8 ^ N.of_nat (List.length ds) + number 8 ds) mod 2 ^ w).
Proof.
  assert (NM : 2 ^ w <> 0) by (apply N.pow_nonzero; discriminate).
  induction p as [|c p IH]; intros ret L; cbn [oct_loop].
  - split.
    + intro H. injection H as <-. exists [], []. cbn [app List.length number]. split; [reflexivity|]. split; [constructor|]. split; [constructor|]. change (8 ^ N.of_nat 0) with 1. rewrite N.mul_1_r, N.add_0_r, N.mod_small by exact L. reflexivity.
    + intros (ds & sp' & E & _ & _ & ->). destruct ds; [|discriminate]. cbn [List.length number]. change (8 ^ N.of_nat 0) with 1. rewrite N.mul_1_r, N.add_0_r, N.mod_small by exact L. reflexivity.
  - destruct (N.eqb_spec c 32) as [->|NC].
    + rewrite oct_trail. split.
      * intros (F & ->). exists [], (32 :: p). split; [reflexivity|]. split; [constructor|]. split; [constructor; auto|]. cbn [List.length number]. change (8 ^ N.of_nat 0) with 1. rewrite N.mul_1_r, N.add_0_r, N.mod_small by exact L. reflexivity.
      * intros (ds & sp' & E & D & F & ->). destruct ds as [|d ds]; cbn in E.
        -- subst sp'. inversion F; subst. split; [assumption|]. cbn [List.length number]. change (8 ^ N.of_nat 0) with 1. rewrite N.mul_1_r, N.add_0_r, N.mod_small by exact L. reflexivity.
        -- injection E as <- E. apply Forall_inv in D. lia.
    + destruct (N.leb_spec 48 c) as [C1|C1]; [destruct (N.leb_spec c 55) as [C2|C2]|]; cbn [andb].
      * rewrite IH by (apply N.mod_lt, NM). replace (ret * 8 + c - 48) with (ret * 8 + (c - 48)) by lia. split.
        -- intros (ds & sp' & -> & D & F & ->). exists (c :: ds), sp'. split; [reflexivity|]. split; [constructor; [lia|exact D]|]. split; [exact F|]. cbn [List.length number]. rewrite Nat2N.inj_succ. apply oct_step, NM.
        -- intros (ds & sp' & E & D & F & ->). destruct ds as [|d ds]; cbn in E; [subst sp'; inversion F; congruence|]. injection E as <- ->. exists ds, sp'. split; [reflexivity|]. split; [inversion D; assumption|]. split; [exact F|].
           cbn [List.length number]. rewrite Nat2N.inj_succ. symmetry. apply oct_step, NM.
      * rewrite oct_error. split; [discriminate|]. intros (ds & sp' & E & D & F & _). destruct ds as [|d ds]; cbn in E; [subst sp'; inversion F; congruence|]. injection E as <- _. apply Forall_inv in D. lia.
      * rewrite oct_error. split; [discriminate|]. intros (ds & sp' & E & D & F & _). destruct ds as [|d ds]; cbn in E; [subst sp'; inversion F; congruence|]. injection E as <- _. apply Forall_inv in D. lia.
Qed.
Lemma oct_init w v : forall p, oct_loop w p o_init 0 = Ok v <->
  exists sp ds sp', p = sp ++ [48] ++ ds ++ sp' /\ Forall (fun c => In c [32; 9; 10; 13]) sp /\ digits 8 ds /\ Forall (eq 32) sp' /\ v = number 8 ds mod 2 ^ w.
Proof.
  assert (P : 0 < 2 ^ w) by (apply N.neq_0_lt_0, N.pow_nonzero; discriminate).
  induction p as [|c p IH]; cbn [oct_loop]; [split; [discriminate|intros (sp & ds & sp' & E & _); destruct sp; discriminate]|].
  destruct ((c =? 32) || (c =? 9) || (c =? 10) || (c =? 13)) eqn:SP.
  - assert (I : In c [32; 9; 10; 13]). { repeat rewrite orb_true_iff in SP. rewrite !N.eqb_eq in SP. cbn. intuition. }
    rewrite IH. split.
    + intros (sp & ds & sp' & -> & F & K). exists (c :: sp), ds, sp'. split; [reflexivity|]. split; [constructor; assumption|exact K].
    + intros (sp & ds & sp' & E & F & K). destruct sp as [|d sp]; cbn in E; injection E as E1 E2; [subst c; discriminate|]. exists sp, ds, sp'. split; [exact E2|]. split; [inversion F; assumption|exact K].
  - assert (NI : ~ In c [32; 9; 10; 13]). { intro I. repeat rewrite orb_false_iff in SP. rewrite !N.eqb_neq in SP. cbn in I. intuition. }
    destruct (N.eqb_spec c 48) as [->|NC].
    + rewrite (oct_octal w v p 0) by lia. split.
      * intros (ds & sp' & -> & D & F & ->). exists [], ds, sp'. split; [reflexivity|]. split; [constructor|]. auto.
      * intros (sp & ds & sp' & E & S & D & F & ->). destruct sp as [|d sp]; cbn in E; [|injection E as <- _; apply Forall_inv in S; contradiction]. injection E as ->. exists ds, sp'. auto.
    + rewrite oct_error. split; [discriminate|]. intros (sp & ds & sp' & E & S & _). destruct sp as [|d sp]; cbn in E; injection E as E1 _; [congruence|subst d; apply Forall_inv in S; contradiction].
Qed.
Lemma oct_total w : forall p st ret, (exists v, oct_loop w p st ret = Ok v) \/ oct_loop w p st ret = Err Erange.
Proof.
  induction p as [|c p IH]; intros st ret; cbn [oct_loop]; [destruct st; eauto|]. destruct st; auto; repeat match goal with |- context [if ?b then _ else _] => destruct b end; apply IH.
Qed.
Lemma number_snoc s c : number 8 (s ++ [c]) = number 8 s * 8 + (c - 48).
Proof.
  induction s as [|d s IH]; cbn [app number List.length]; [change (8 ^ N.of_nat 0) with 1; lia|]. rewrite IH, app_length. cbn [List.length]. rewrite Nat.add_1_r, Nat2N.inj_succ, N.pow_succ_r'. lia.
Qed.
Lemma i2o_rev : forall ds ret, i2o_loop ds ret = rev (map (fun d => 48 + d) ds) ++ ret.
Proof. induction ds as [|d ds IH]; intro ret; cbn [i2o_loop map rev]; [reflexivity|]. rewrite IH, <- app_assoc. reflexivity. Qed.
Lemma decomposition_ok : forall f n, n < 2 ^ N.of_nat f -> number 8 (rev (map (fun d => 48 + d) (decomposition f n 8))) = n /\ digits 8 (rev (map (fun d => 48 + d) (decomposition f n 8))).
Proof.
  induction f as [|f IH]; intros n L.
  - cbn in *. split; [lia|constructor].
  - cbn [decomposition]. destruct (N.eqb_spec n 0) as [->|NZ]; cbn [negb map rev]; [split; [reflexivity|constructor]|]. destruct (IH (n / 8)) as (V & D).
    + apply N.div_lt_upper_bound; [discriminate|]. rewrite Nat2N.inj_succ, N.pow_succ_r' in L. pose proof (N.pow_nonzero 2 (N.of_nat f)). lia.
    + rewrite number_snoc, V. pose proof (N.div_mod n 8 ltac:(discriminate)). pose proof (N.mod_lt n 8 ltac:(discriminate)). split; [lia|]. apply Forall_app. split; [exact D|]. constructor; [lia|constructor].
Qed.
Lemma size_pow n : n < 2 ^ N.of_nat (N.size_nat n).
Proof.
  destruct n as [|p]; [reflexivity|]. cbn [N.size_nat]. induction p as [p IH|p IH|]; cbn [Pos.size_nat]; [| |reflexivity]; rewrite Nat2N.inj_succ, N.pow_succ_r'; lia.
Qed.
Lemma int2octal_ok w p : p < 2 ^ w -> octal2int w (int2octal p) = Ok p /\ exists ds, int2octal p = 48 :: ds /\ digits 8 ds /\ number 8 ds = p.
Proof.
  intro L. unfold int2octal. rewrite i2o_rev, app_nil_r. destruct (decomposition_ok (S (N.size_nat p)) p) as (V & D).
  { rewrite Nat2N.inj_succ, N.pow_succ_r'. pose proof (size_pow p). lia. }
  split; [|eexists; split; [reflexivity|auto]]. cbn [app octal2int]. apply oct_init. exists [], (rev (map (fun d => 48 + d) (decomposition (S (N.size_nat p)) p 8))), []. rewrite app_nil_r. split; [reflexivity|]. split; [constructor|]. split; [exact D|]. split; [constructor|]. rewrite V, N.mod_small by exact L. reflexivity.
Qed.

(** ** block sizes *)
Lemma log2_loop_ok : forall p f ret, (Pos.size_nat p < f)%nat -> log2_loop f (Npos p) ret = ret + N.size (Npos p).
Proof.
  induction p as [p IH|p IH|]; intros f ret L; (destruct f as [|f]; [lia|]); cbn [log2_loop N.eqb Pos.size_nat] in *.
  - change (N.shiftr (Npos p~1) 1) with (Npos p). rewrite IH by lia. cbn [N.size Pos.size]. lia.
  - change (N.shiftr (Npos p~0) 1) with (Npos p). rewrite IH by lia. cbn [N.size Pos.size]. lia.
  - change (N.shiftr 1 1) with 0. destruct f; [lia|]. reflexivity.
Qed.
Lemma upper_log2_size n : upper_log2 n = N.size n.
Proof. unfold upper_log2. destruct n as [|p]; [reflexivity|]. rewrite log2_loop_ok by (cbn; lia). reflexivity. Qed.
Lemma upper_log2_spec n : 0 < n -> 0 < upper_log2 n /\ 2 ^ (upper_log2 n - 1) <= n < 2 ^ upper_log2 n.
Proof.
  intro P. rewrite upper_log2_size, N.size_log2 by lia. pose proof (N.log2_spec n P). replace (N.succ (N.log2 n) - 1) with (N.log2 n) by lia. lia.
Qed.
Lemma upper_log2_mono a b : a <= b -> upper_log2 a <= upper_log2 b.
Proof.
  intro L. rewrite !upper_log2_size. destruct (N.eq_dec a 0) as [->|NA]; [cbn; lia|]. rewrite !N.size_log2 by lia. pose proof (N.log2_le_mono a b L). lia.
Qed.
Lemma exp2_pow n : lower_exp2 n = 2 ^ n. Proof. unfold lower_exp2. rewrite N.shiftl_mul_pow2. lia. Qed.
Lemma pow2_le a b : a <= b -> 2 ^ a <= 2 ^ b. Proof. intro L. apply N.pow_le_mono_r; [discriminate|exact L]. Qed.
Lemma square_root_spec n : 0 < n -> n < 2 * square_root n ^ 2 /\ square_root n ^ 2 <= 2 * n.
Proof.
  intro P. destruct (upper_log2_spec n P) as (B & L). unfold square_root. rewrite exp2_pow, <- N.pow_mul_r. set (b := upper_log2 n) in *. pose proof (N.div_mod b 2 ltac:(discriminate)). pose proof (N.mod_lt b 2 ltac:(discriminate)).
  replace (2 * 2 ^ (b / 2 * 2)) with (2 ^ (b / 2 * 2 + 1)) by (rewrite N.add_1_r, N.pow_succ_r'; reflexivity). replace (2 * n) with (n + n) by lia.
  assert (E : 2 ^ b = 2 ^ (b - 1) + 2 ^ (b - 1)) by (replace b with (N.succ (b - 1)) at 1 by lia; rewrite N.pow_succ_r'; lia).
  pose proof (pow2_le b (b / 2 * 2 + 1)). pose proof (pow2_le (b / 2 * 2) b). lia.
Qed.
Lemma cube_root_spec n : 0 < n -> n < 4 * cube_root n ^ 3 /\ cube_root n ^ 3 <= 2 * n.
Proof.
  intro P. destruct (upper_log2_spec n P) as (B & L). unfold cube_root. rewrite exp2_pow, <- N.pow_mul_r. set (b := upper_log2 n) in *. pose proof (N.div_mod b 3 ltac:(discriminate)). pose proof (N.mod_lt b 3 ltac:(discriminate)).
  replace (4 * 2 ^ (b / 3 * 3)) with (2 ^ (b / 3 * 3 + 2)) by (rewrite N.pow_add_r; change (2 ^ 2) with 4; lia). replace (2 * n) with (n + n) by lia.
  assert (E : 2 ^ b = 2 ^ (b - 1) + 2 ^ (b - 1)) by (replace b with (N.succ (b - 1)) at 1 by lia; rewrite N.pow_succ_r'; lia).
  pose proof (pow2_le b (b / 3 * 3 + 2)). pose proof (pow2_le (b / 3 * 3) b). lia.
Qed.
Definition fs_value (g : fs_function) (n : N) : N := match g with fixed => 1 | linear => n | log2 => upper_log2 n | root2 => square_root n | root3 => cube_root n end.
Lemma fs_mono g a b : a <= b -> fs_value g a <= fs_value g b.
Proof.
  intro L. pose proof (upper_log2_mono a b L). destruct g; cbn [fs_value]; try lia; unfold square_root, cube_root; rewrite !exp2_pow; apply pow2_le, N.div_le_mono; auto; discriminate.
Qed.
Lemma fs_approx g n : approx g n (fs_value g n).
Proof.
  destruct g; cbn [approx fs_value]; try reflexivity; (destruct (N.eq_dec n 0) as [->|NZ]; [left; split; reflexivity|right]); assert (P : 0 < n) by lia.
  - apply upper_log2_spec, P.
  - destruct (square_root_spec n P). auto.
  - destruct (cube_root_spec n P). auto.
Qed.
Lemma calculate_ok umax d n : check d = Ok tt -> calculate umax d n = Ok (clamp umax (min_len d) (max_len d) (multiplier d * fs_value (func d) n / divisor d)).
Proof.
  unfold check, calculate. destruct (N.eqb_spec (divisor d) 0) as [E|NE]; [discriminate|]. intro H. unfold clamp.
  replace (match func d with fixed => multiplier d | linear => multiplier d * n | log2 => multiplier d * upper_log2 n | root2 => multiplier d * square_root n | root3 => multiplier d * cube_root n end)
    with (multiplier d * fs_value (func d) n) by (destruct (func d); cbn [fs_value]; lia).
  set (x := N.min _ umax). destruct (N.ltb_spec x (min_len d)); destruct (N.eqb_spec (max_len d) 0) as [Z|Z]; cbn [negb andb] in H.
  - rewrite Z. cbn [N.ltb N.compare andb]. f_equal. lia.
  - destruct (N.ltb_spec 0 (max_len d)); [|lia]. destruct (N.ltb_spec (max_len d) (min_len d)); cbn [andb]; f_equal; lia.
  - rewrite Z. cbn [N.ltb N.compare andb]. f_equal. lia.
  - destruct (N.ltb_spec 0 (max_len d)); [|lia]. destruct (N.ltb_spec (max_len d) x); cbn [andb]; f_equal; lia.
Qed.
Lemma clamp_mono umax lo hi a b : a <= b -> clamp umax lo hi a <= clamp umax lo hi b.
Proof. unfold clamp. intro L. destruct (hi =? 0); lia. Qed.

(** ** lists with a separator *)
Lemma split_sound sep : forall v cur out, ~ In sep cur -> exists fs, split_loop sep v cur out = out ++ fs /\ fields_of sep (cur ++ v) fs.
Proof.
  induction v as [|c v IH]; intros cur out NC; cbn [split_loop].
  - rewrite app_nil_r. destruct cur as [|x cur]; [exists []; rewrite app_nil_r; split; [reflexivity|]; split; [constructor|left; reflexivity]|].
    exists [x :: cur]. split; [reflexivity|]. split; [constructor; auto|]. right. exists [], (x :: cur). split; [reflexivity|]. split; [discriminate|reflexivity].
  - destruct (N.eqb_spec c sep) as [->|NE]; cbn [negb].
    + destruct (IH [] (out ++ [cur])) as (fs & E & F & K); [intros []|]. exists (cur :: fs). split; [rewrite E, <- app_assoc; reflexivity|]. split; [constructor; assumption|]. cbn [app] in K.
      destruct K as [->|(fs0 & l & -> & NL & ->)]; [left; cbn [flat_map]; rewrite <- app_assoc; reflexivity|]. right. exists (cur :: fs0), l. split; [reflexivity|]. split; [exact NL|]. cbn [flat_map]. rewrite <- !app_assoc. reflexivity.
    + destruct (IH (cur ++ [c]) out) as (fs & E & K); [intro Q; apply in_app_or in Q; destruct Q as [Q|[Q|[]]]; auto|]. exists fs. split; [exact E|]. rewrite <- app_assoc in K. exact K.
Qed.
Lemma split_field sep : forall f v cur out, ~ In sep f -> split_loop sep (f ++ v) cur out = split_loop sep v (cur ++ f) out.
Proof.
  induction f as [|c f IH]; intros v cur out H; [rewrite app_nil_r; reflexivity|]. cbn [app split_loop]. destruct (N.eqb_spec c sep) as [->|_]; [exfalso; apply H; left; reflexivity|]. cbn [negb].
  rewrite IH by (intro Q; apply H; right; exact Q). rewrite <- app_assoc. reflexivity.
Qed.
Lemma split_fields sep : forall fs v out, Forall (fun f => ~ In sep f) fs -> split_loop sep (flat_map (fun f => f ++ [sep]) fs ++ v) [] out = split_loop sep v [] (out ++ fs).
Proof.
  induction fs as [|f fs IH]; intros v out F; [rewrite app_nil_r; reflexivity|]. inversion F as [|? ? H F']; subst. cbn [flat_map]. rewrite <- !app_assoc. rewrite split_field by exact H. cbn [app split_loop]. rewrite N.eqb_refl. cbn [negb].
  rewrite IH by exact F'. rewrite <- app_assoc. reflexivity.
Qed.
Lemma split_spec sep v fs : split sep v = fs <-> fields_of sep v fs.
Proof.
  unfold split. split.
  - intros <-. destruct (split_sound sep v [] []) as (fs & E & F); [intros []|]. rewrite E. exact F.
  - intros (F & [->|(fs0 & l & -> & NL & ->)]).
    + rewrite <- (app_nil_r (flat_map _ fs)), split_fields by exact F. reflexivity.
    + apply Forall_app in F. destruct F as (F & G). apply Forall_inv in G. rewrite split_fields by exact F. rewrite <- (app_nil_r l) at 1. rewrite split_field by exact G. cbn [app split_loop]. destruct l; [congruence|reflexivity].
Qed.
