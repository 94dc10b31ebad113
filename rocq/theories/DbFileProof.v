(** * Proofs on database files *)
From Verif Require Import Base InfinintModel InfinintProof InfinintProof2 CrcModel CrcProof DatetimeModel PropDatetime HeaderModel HeaderProof2.
From Verif Require Import DbModel DbMap DbFileModel DbFileSpec.
Open Scope N_scope.

Lemma bind_ok : forall A B (x : A) (f : A -> res B), bind (Ok x) f = f x.
Proof. reflexivity. Qed.
Lemma dt_rt : forall d, PropDatetime.date d -> exists b, dt_dump d = Ok b /\ forall ver rest, 4 <= ver -> dt_read (db_arch ver) (b ++ rest) = Ok (d, rest).
Proof.
  intros d H. destruct (C19_dump_read d 9 [] H ltac:(lia)) as (b & E & _). exists b. split; [exact E|]. intros ver rest Hv.
  unfold db_arch. destruct (N.ltb_spec 3 ver); [|lia].
  destruct (C19_dump_read d 9 rest H ltac:(lia)) as (b' & E' & R). rewrite E in E'. injection E' as <-. exact R.
Qed.
Lemma crc_rt : forall c rest, crc_get (crc_dump c ++ rest) = Ok (rewound c, rest).
Proof. intros. apply crc_read_dump. Qed.
Lemma num_rt : forall n rest, n < 65536 -> num_get (num_put n ++ rest) = Ok (n, rest).
Proof. intros n rest H. unfold num_put, num_get. cbn [app]. f_equal. f_equal. lia. Qed.
Lemma status_rt : forall d e, PropDatetime.date d -> exists b, status_dump d e = Ok b /\ forall ver rest, 4 <= ver -> status_read ver (b ++ rest) = Ok (d, e, rest).
Proof.
  intros d e H. destruct (dt_rt d H) as (b & E & R). unfold status_dump. rewrite E, bind_ok. eexists. split; [reflexivity|]. intros ver rest Hv.
  unfold status_read. rewrite <- app_assoc, R, bind_ok by exact Hv. cbn [app read1]. rewrite bind_ok. destruct e; reflexivity.
Qed.
Lemma plus_rt : forall s, PropDatetime.date (date s) -> exists b, plus_dump s = Ok b /\ forall rest, mod_read 7 (b ++ rest) = Ok (same_mod s, rest).
Proof.
  intros [d e ba re] H. cbn [date] in H. destruct (status_rt d e H) as (b & E & R). unfold plus_dump. cbn [date present base result]. rewrite E, bind_ok.
  eexists. split; [reflexivity|]. intro rest. unfold mod_read, plus_read. cbn [N.eqb Pos.eqb]. rewrite <- app_assoc, R, bind_ok by lia. cbn [app read1 N.leb N.compare Pos.compare Pos.compare_cont].
  unfold byte_get. cbn [read1]. rewrite bind_ok, <- app_assoc. unfold same_mod. cbn [date present base result].
  destruct ba as [ba|], re as [re|]; cbn [opt_crc app option_map]; rewrite ?app_nil_l;
  match goal with |- context [N.lor ?a ?b] => let x := eval vm_compute in (N.lor a b) in change (N.lor a b) with x end;
  repeat match goal with |- context [N.land ?a ?b =? 0] => let x := eval vm_compute in (N.land a b =? 0) in change (N.land a b =? 0) with x end; cbn [negb]; rewrite ?crc_rt; cbn [bind]; rewrite ?crc_rt; reflexivity.
Qed.
Lemma chg_rt : forall s, PropDatetime.date (s_date s) -> exists b, status_dump (s_date s) (s_present s) = Ok b /\ forall rest, chg_read 7 (b ++ rest) = Ok (s, rest).
Proof.
  intros [d e] H. cbn [s_date s_present] in *. destruct (status_rt d e H) as (b & E & R). exists b. split; [exact E|]. intro rest. unfold chg_read. cbn [N.eqb Pos.eqb].
  rewrite R by lia. reflexivity.
Qed.

Lemma mset_last : forall A (acc : amap A) k v, (forall k' v', In (k', v') acc -> k' < k) -> mset k v acc = acc ++ [(k, v)].
Proof.
  intros A acc k v; induction acc as [|[k' v'] r IH]; intro H; [reflexivity|]. cbn [mset app]. pose proof (H k' v' (or_introl eq_refl)).
  destruct (N.ltb_spec k k'); [lia|]. destruct (N.eqb_spec k k'); [lia|]. rewrite IH; [reflexivity|]. intros. eapply H. right. eassumption.
Qed.
Lemma map_rt : forall A (wr : A -> res (list N)) (rd : list N -> res (A * list N)) (g : A -> A) (m : amap A),
  (forall p, In p m -> exists b, wr (snd p) = Ok b /\ forall rest, rd (b ++ rest) = Ok (g (snd p), rest)) ->
  sorted m -> Forall (fun p => fst p < 65536) m ->
  exists b, map_dump wr m = Ok b /\ (length m <= length b)%nat /\
    forall n rest acc, (length b < n)%nat -> (forall k v k' v', In (k, v) m -> In (k', v') acc -> k' < k) ->
      map_read rd n (N.of_nat (length m)) acc (b ++ rest) = Ok (acc ++ map (fun p => (fst p, g (snd p))) m, rest).
Proof.
  intros A wr rd g m; induction m as [|[k v] m IH]; intros Hw Hs Hk.
  - exists []. split; [reflexivity|]. split; [cbn; lia|]. intros n rest acc Hn _. destruct n; [cbn [length] in Hn; lia|]. cbn [map_read length N.of_nat N.eqb map app]. rewrite app_nil_r. reflexivity.
  - destruct (sorted_inv _ _ _ Hs) as [Hs' Hlt]. inversion Hk as [|? ? K1 K2]; subst. cbn [fst] in K1.
    destruct (IH) as (b2 & E2 & L2 & R2); [intros; apply Hw; right; assumption|exact Hs'|exact K2|].
    destruct (Hw (k, v) (or_introl eq_refl)) as (b1 & E1 & R1). cbn [snd] in E1, R1.
    exists (num_put k ++ b1 ++ b2). split; [cbn [map_dump]; rewrite E1, bind_ok, E2, bind_ok; reflexivity|]. split; [unfold num_put; cbn [app length]; rewrite app_length; lia|].
    intros n rest acc Hn Ha. destruct n as [|n]; [lia|]. cbn [map_read length].
    destruct (N.eqb_spec (N.of_nat (S (length m))) 0); [lia|]. rewrite <- !app_assoc, num_rt, bind_ok by exact K1. rewrite R1, bind_ok.
    replace (N.of_nat (S (length m)) - 1) with (N.of_nat (length m)) by lia.
    rewrite mset_last by (intros k' v' I; eapply Ha; [left; reflexivity|exact I]).
    rewrite R2.
    + cbn [map fst snd]. rewrite <- app_assoc. reflexivity.
    + unfold num_put in Hn. cbn [app length] in Hn. rewrite app_length in Hn. lia.
    + intros k1 v1 k2 v2 I1 I2. apply in_app_or in I2 as [I2|[I2|[]]]; [eapply Ha; [right; exact I1|exact I2]|]. injection I2 as <- <-. eapply Hlt. exact I1.
Qed.
Lemma string_rt : forall s rest, no_nul s -> read_string (write_string s ++ rest) = Ok (s, rest).
Proof. intros. apply read_string_app. assumption. Qed.
Lemma same_chg : forall (c : amap status), map (fun p => (fst p, (fun x => x) (snd p))) c = c.
Proof. induction c as [|[k v] c IH]; [reflexivity|]. cbn [map fst snd]. rewrite IH. reflexivity. Qed.
Lemma dumpN_nonempty : forall n, (1 <= length (dumpN n))%nat.
Proof.
  intro n. pose proof (readN_dumpN n []) as R. rewrite app_nil_r in R. destruct (dumpN n); [discriminate R|cbn [length]; lia].
Qed.
Lemma record_rt : forall sign name m c, no_nul name -> record_ok m c ->
  exists b, record_dump sign name m c = Ok (sign :: b) /\ (0 < length b)%nat /\
    forall rest, record_read 7 (b ++ rest) = Ok (name, map (fun p => (fst p, same_mod (snd p))) m, c, rest).
Proof.
  intros sign name m c Hn (Sm & Sc & Fm & Fc). rewrite Forall_forall in Fm, Fc.
  destruct (map_rt _ plus_dump (mod_read 7) same_mod m) as (bm & Em & _ & Rm); [intros p Hp; apply plus_rt; apply (Fm p Hp)|exact Sm|apply Forall_forall; intros p Hp; apply (Fm p Hp)|].
  destruct (map_rt _ (fun s => status_dump (s_date s) (s_present s)) (chg_read 7) (fun x => x) c) as (bc & Ec & _ & Rc); [intros p Hp; apply chg_rt; apply (Fc p Hp)|exact Sc|apply Forall_forall; intros p Hp; apply (Fc p Hp)|].
  unfold record_dump. rewrite Em, bind_ok, Ec, bind_ok. eexists. split; [reflexivity|]. split; [unfold write_string; rewrite !app_length; cbn [length]; lia|]. intro rest.
  unfold record_read. rewrite <- !app_assoc. rewrite string_rt by exact Hn. rewrite bind_ok, readN_dumpN, bind_ok.
  rewrite Rm by (try (intros ? ? ? ? _ []); unfold fuel_of; rewrite !app_length; lia). rewrite bind_ok, readN_dumpN, bind_ok.
  rewrite Rc by (try (intros ? ? ? ? _ []); unfold fuel_of; rewrite app_length; lia). rewrite bind_ok. cbn [app]. rewrite same_chg. reflexivity.
Qed.

Definition kids_dump : list tree -> res (list N) := fix go l := match l with [] => Ok [] | x :: r => let* a := tree_dump x in let* b := go r in Ok (a ++ b) end.
Lemma tree_dump_dir : forall n m c l, tree_dump (Tree n m c (Some l)) =
  let* a := record_dump 100 n m c in let* b := kids_dump l in Ok (a ++ dumpN (N.of_nat (length l)) ++ b).
Proof. reflexivity. Qed.
Lemma fold_and : forall A (P : A -> Prop) l, fold_right and True (map P l) <-> Forall P l.
Proof. induction l as [|x l IH]; cbn [map fold_right]; [split; auto|]. rewrite IH. split; [intros []; auto|intro H; inversion H; auto]. Qed.
Definition good (t : tree) : Prop := tree_ok t -> exists b, tree_dump t = Ok b /\ (0 < length b)%nat /\
  forall n rest, (2 * length b + 2 <= n)%nat -> tree_read 7 n (b ++ rest) = Ok (Some (same_tree t), rest).
Lemma kids_rt : forall l, Forall good l -> Forall tree_ok l -> exists b, kids_dump l = Ok b /\
  forall n rest, (2 * length b + 3 <= n)%nat -> kids_read 7 n (N.of_nat (length l)) (b ++ rest) = Ok (map same_tree l, rest).
Proof.
  induction l as [|t l IH]; intros G O.
  - exists []. split; [reflexivity|]. intros n rest H. destruct n; [lia|]. reflexivity.
  - inversion G as [|? ? G1 G2]; inversion O as [|? ? O1 O2]; subst. destruct (G1 O1) as (b1 & E1 & L1 & R1). destruct (IH G2 O2) as (b2 & E2 & R2).
    exists (b1 ++ b2). split; [cbn [kids_dump]; rewrite E1, bind_ok, E2; reflexivity|]. intros n rest H. rewrite app_length in H. destruct n as [|n]; [lia|]. cbn [kids_read length].
    destruct (N.eqb_spec (N.of_nat (S (length l))) 0); [lia|]. rewrite <- app_assoc, R1, bind_ok by lia.
    replace (N.of_nat (S (length l)) - 1) with (N.of_nat (length l)) by lia. rewrite R2 by lia. reflexivity.
Qed.
Lemma all_good : forall t, good t.
Proof.
  induction t as [n m c|n m c l IH] using tree_ind2; intros (Hn & Hr & Hk).
  - destruct (record_rt 116 n m c Hn Hr) as (b & E & L & R). exists (116 :: b). split; [exact E|]. split; [cbn [length]; lia|]. intros k rest Hl. destruct k as [|k]; [lia|]. cbn [tree_read app read1 N.eqb Pos.eqb].
    rewrite R. reflexivity.
  - apply fold_and in Hk. destruct (record_rt 100 n m c Hn Hr) as (b & E & L & R). destruct (kids_rt l IH Hk) as (bk & Ek & Rk).
    exists ((100 :: b) ++ dumpN (N.of_nat (length l)) ++ bk). split; [rewrite tree_dump_dir, E, bind_ok, Ek; reflexivity|]. split; [cbn [app length]; lia|].
    intros k rest Hl. destruct k as [|k]; [lia|]. cbn [app tree_read read1 N.eqb Pos.eqb]. rewrite <- !app_assoc, R, bind_ok, readN_dumpN, bind_ok.
    rewrite Rk; [reflexivity|]. cbn [app length] in Hl. rewrite !app_length in Hl. lia.
Qed.

(** ** the header *)
Lemma unstack0_fit : forall w n, n < 2 ^ w -> unstack0 w n = (n, 0).
Proof. intros w n H. unfold unstack0. cbn zeta. rewrite N.min_l by lia. f_equal. lia. Qed.
Lemma sym_rt : forall c, char_crypto (crypto_char c) = Ok c.
Proof. destruct c; reflexivity. Qed.
Lemma hash_rt : forall c, char_hash (hash_char c) = Ok c.
Proof. destruct c; reflexivity. Qed.
Lemma comp_rt : forall c, char_comp (comp_char c) = Ok c.
Proof. destruct c; reflexivity. Qed.
Lemma head_rt : forall salt h rest, head_ok h -> head_read (head_write (set_salt salt h) ++ rest) = Ok (same_head salt h, rest).
Proof.
  intros salt [ver algo level sym ha count bs sl] rest (Hv & Hl & Hb). cbn [h_ver h_level h_bs] in *. subst ver. unfold head_write, set_salt, head_read.
  cbn [h_ver h_algo h_level h_crypto h_hash h_count h_bs h_salt]. unfold byte_get. cbn [app read1]. rewrite bind_ok. change (DB_VERSION <? 7) with false. cbn iota. cbn [app read1]. rewrite bind_ok.
  set (comp := negb (is_gzip algo && (level =? 9))). set (ciph := negb (is_knone sym)).
  assert (B1 : N.land (N.lor (if comp then 1 else 0) (if ciph then 2 else 0)) 0x80 =? 0 = true) by (destruct comp, ciph; reflexivity).
  assert (B2 : N.land (N.lor (if comp then 1 else 0) (if ciph then 2 else 0)) 1 =? 0 = negb comp) by (destruct comp, ciph; reflexivity).
  assert (B3 : N.land (N.lor (if comp then 1 else 0) (if ciph then 2 else 0)) 2 =? 0 = negb ciph) by (destruct comp, ciph; reflexivity).
  rewrite B1, B2, B3, !negb_involutive. cbn [negb]. rewrite <- app_assoc.
  assert (C : forall t, (if comp then let* '(c, f) := match read1 ((if comp then comp_char algo :: dumpN level else []) ++ t) with Some x => Ok x | None => Err UB end in
      let* algo := char_comp c in if 5 <? 7 then let* '(n, f) := readN f in Ok (algo, fst (unstack0 64 n), f) else Ok (algo, 9, f)
    else Ok (Cgzip, 9, (if comp then comp_char algo :: dumpN level else []) ++ t)) = Ok (algo, level, t)).
  { intro t. destruct comp eqn:Ec.
    - cbn [app read1]. rewrite bind_ok, comp_rt, bind_ok. change (5 <? 7) with true. cbn iota. rewrite readN_dumpN, bind_ok, unstack0_fit by exact Hl. reflexivity.
    - unfold comp in Ec. apply negb_false_iff, andb_true_iff in Ec as [E1 E2]. destruct algo; try discriminate E1. apply N.eqb_eq in E2. subst level. reflexivity. }
  rewrite C, bind_ok. clear C. unfold same_head. cbn [h_ver h_algo h_level h_crypto h_hash h_count h_bs h_salt].
  destruct ciph eqn:Eh.
  - assert (K : is_knone sym = false) by (unfold ciph in Eh; apply negb_true_iff in Eh; exact Eh). rewrite K.
    change (av_dump SUPPORTED) with [48; 60; 48; 0] || (let x := eval vm_compute in (av_dump SUPPORTED) in change (av_dump SUPPORTED) with x).
    cbn [app].
    unfold av_read at 1. repeat match goal with |- context [to_digit ?a * 256 + to_digit ?b] => let x := eval vm_compute in (to_digit a * 256 + to_digit b) in change (to_digit a * 256 + to_digit b) with x end.
    cbn [N.ltb N.compare Pos.compare Pos.compare_cont N.eqb]. rewrite bind_ok. cbn [read1]. rewrite bind_ok, sym_rt, bind_ok. cbn [read1]. rewrite bind_ok, hash_rt, bind_ok.
    rewrite <- !app_assoc, readN_dumpN, bind_ok, readN_dumpN, bind_ok, unstack0_fit by exact Hb. cbn [N.eqb negb]. rewrite readN_dumpN, bind_ok.
    rewrite read_string_size_app by (rewrite app_length; lia). rewrite bind_ok. destruct sym; [discriminate K|reflexivity..].
  - assert (K : is_knone sym = true) by (unfold ciph in Eh; apply negb_false_iff in Eh; exact Eh). destruct sym; try discriminate K. reflexivity.
Qed.

(** ** the rest *)
Lemma rep_rt : forall A B (rd : list N -> res (A * list N)) (wr : B -> list N) (g : B -> A) (l : list B),
  (forall x, In x l -> (0 < length (wr x))%nat /\ forall rest, rd (wr x ++ rest) = Ok (g x, rest)) ->
  forall n rest, (length (concat (map wr l)) < n)%nat -> rep_read rd n (N.of_nat (length l)) (concat (map wr l) ++ rest) = Ok (map g l, rest).
Proof.
  intros A B rd wr g l; induction l as [|x l IH]; intros H n rest Hn; (destruct n as [|n]; [lia|]); [reflexivity|]. cbn [map concat length rep_read] in *.
  destruct (N.eqb_spec (N.of_nat (S (length l))) 0); [lia|]. destruct (H x (or_introl eq_refl)) as [L R]. rewrite app_length in Hn. rewrite <- app_assoc, R, bind_ok.
  replace (N.of_nat (S (length l)) - 1) with (N.of_nat (length l)) by lia. rewrite IH by (try lia; intros; apply H; right; assumption). reflexivity.
Qed.
Lemma vec_rt : forall l rest, Forall no_nul l -> vec_read (vec_write l ++ rest) = Ok (l, rest).
Proof.
  intros l rest H. unfold vec_read, vec_write. rewrite <- app_assoc, readN_dumpN, bind_ok. rewrite Forall_forall in H.
  rewrite (rep_rt _ _ read_string write_string (fun x => x)); [rewrite map_id; reflexivity| |unfold fuel_of; rewrite app_length; lia].
  intros x I. split; [unfold write_string; rewrite app_length; cbn [length]; lia|]. intro. apply string_rt, H, I.
Qed.
Lemma seqw_ok : forall x y, seqw (put x) y = (x ++ fst y, snd y).
Proof. reflexivity. Qed.
Lemma coord_rt : forall clear a, arch_ok a -> (clear = true -> a_crypto a = Knone) -> exists b, coord_dump clear a = put b /\ (0 < length b)%nat /\
  forall rest, coord_read 7 (b ++ rest) = Ok (a, rest).
Proof.
  intros clear [p b d sym pass sz] (Hp & Hb & Hd & Hl & Hs & Hk) Hc. cbn [a_path a_base a_root a_crypto a_pass a_size] in *.
  destruct (dt_rt d Hd) as (bd & Ed & Rd). unfold coord_dump. cbn [a_path a_base a_root a_crypto a_pass a_size]. rewrite Ed. cbn [lift].
  assert (T : exists t, (if is_knone sym then put [] else if clear then fail Erange else put (dumpN (N.of_nat (length pass)) ++ pass ++ dumpN sz)) = put t /\
     forall rest f0, f0 = t ++ rest -> (if is_knone sym then Ok (Ar p b d Knone [] 0, f0) else
       let* '(n, f) := readN f0 in let '(ks, more) := unstack0 64 n in if negb (more =? 0) then Err Erange else
       let* '(pass, f) := if N.of_nat (length f) <? ks then Err UB else Ok (firstn (N.to_nat ks) f, skipn (N.to_nat ks) f) in
       let* '(n, f) := readN f in let '(sz, more) := unstack0 32 n in if negb (more =? 0) then Err Erange else Ok (Ar p b d sym pass sz, f)) = Ok (Ar p b d sym pass sz, rest)).
  { destruct (is_knone sym) eqn:K.
    - assert (sym = Knone) as -> by (destruct sym; try discriminate K; reflexivity). destruct (Hk eq_refl) as [-> ->]. exists []. split; [reflexivity|]. intros rest f0 ->. reflexivity.
    - assert (clear = false) as -> by (destruct clear; [rewrite (Hc eq_refl) in K; discriminate K|reflexivity]). eexists. split; [reflexivity|]. intros rest f0 ->.
      rewrite <- !app_assoc, readN_dumpN, bind_ok, unstack0_fit by exact Hl. cbn [N.eqb negb].
      match goal with |- context [N.of_nat (length ?x) <? ?k] => destruct (N.ltb_spec (N.of_nat (length x)) k) as [L|_]; [rewrite app_length in L; lia|] end.
      rewrite bind_ok, Nat2N.id, firstn_app_exact_n, skipn_app_exact_n by reflexivity. rewrite readN_dumpN, bind_ok, unstack0_fit by exact Hs. reflexivity. }
  destruct T as (t & -> & T). rewrite !seqw_ok. cbn [put fst snd]. eexists. split; [reflexivity|]. split; [unfold write_string; rewrite !app_length; cbn [length]; lia|].
  intro rest. unfold coord_read. rewrite <- !app_assoc, string_rt, bind_ok by exact Hp. rewrite string_rt, bind_ok by exact Hb.
  change (3 <=? 7) with true. change (7 <=? 7) with true. cbn iota. rewrite Rd, bind_ok by lia. unfold byte_get. cbn [app read1]. rewrite bind_ok, sym_rt, !bind_ok. apply T. reflexivity.
Qed.
Lemma coords_rt : forall clear l, Forall arch_ok l -> (clear = true -> Forall (fun a => a_crypto a = Knone) l) -> exists b, coords_dump clear l = put b /\
  forall n rest, (length b < n)%nat -> rep_read (coord_read 7) n (N.of_nat (length l)) (b ++ rest) = Ok (l, rest).
Proof.
  intros clear l; induction l as [|a l IH]; intros Ha Hc.
  - exists []. split; [reflexivity|]. intros n rest H. destruct n; [cbn [length] in H; lia|reflexivity].
  - inversion Ha as [|? ? A1 A2]; subst. destruct (coord_rt clear a A1) as (b1 & E1 & L1 & R1); [intro C; specialize (Hc C); inversion Hc; assumption|].
    destruct IH as (b2 & E2 & R2); [exact A2|intro C; specialize (Hc C); inversion Hc; assumption|].
    exists (b1 ++ b2). split; [cbn [coords_dump]; rewrite E1, E2; reflexivity|]. intros n rest H. rewrite app_length in H. destruct n as [|n]; [lia|]. cbn [rep_read length].
    destruct (N.eqb_spec (N.of_nat (S (length l))) 0); [lia|]. rewrite <- app_assoc, R1, bind_ok. replace (N.of_nat (S (length l)) - 1) with (N.of_nat (length l)) by lia.
    rewrite R2 by lia. reflexivity.
Qed.
(** everything but the records of files *)
Lemma front_rt : forall db, db_ok db -> exists b, (forall tail, match d_files db, d_raw db with Some t, _ => lift (tree_dump t) | None, Some b => put b | None, None => fail Ebug end = put tail ->
    body_dump db = put (b ++ tail)) /\
  forall h partial ro tail, h_ver h = 7 -> body_read h partial ro (b ++ tail) =
    if negb partial then let* '(t, _) := tree_read 7 (tree_fuel tail) tail in
      match t with Some (Tree n m c (Some l)) => Ok (DB h (d_coord db) (d_opts db) (d_dar db) (Some (set_root (Tree n m c (Some l)))) None) | _ => Err Ememory end
    else if negb ro then Ok (DB h (d_coord db) (d_opts db) (d_dar db) None (Some tail)) else Ok (DB h (d_coord db) (d_opts db) (d_dar db) None None).
Proof.
  intros db ((Hv & _) & H0 & Hn & Ha & Hc & Ho & Hd). destruct (coords_rt (is_knone (h_crypto (d_head db))) (d_coord db) Ha) as (bc & Ec & Rc).
  { intro K. apply Hc. destruct (h_crypto (d_head db)); try discriminate K. reflexivity. }
  exists (dumpN (N.of_nat (length (d_coord db))) ++ bc ++ vec_write (d_opts db) ++ write_string (d_dar db)). split.
  - intros tail T. unfold body_dump, num_of. rewrite N.mod_small by lia. cbn zeta. destruct (N.leb_spec 65534 (N.of_nat (length (d_coord db)))); [lia|].
    rewrite Nat2N.id, firstn_all, Ec, T. rewrite !seqw_ok. cbn [put fst snd]. rewrite <- !app_assoc. reflexivity.
  - intros h partial ro tail Vh. unfold body_read. cbn zeta. rewrite Vh. rewrite <- !app_assoc, readN_dumpN, bind_ok.
    rewrite Rc by (unfold fuel_of; rewrite app_length; lia). rewrite bind_ok. destruct (d_coord db) as [|a0 l0] eqn:Q; [cbn [length] in H0; lia|].
    rewrite vec_rt by exact Ho. rewrite bind_ok, string_rt by exact Hd. rewrite bind_ok. change (7 <? DB_VERSION) with false. cbn iota. reflexivity.
Qed.
