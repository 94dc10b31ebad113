(** * Database files: damaged and truncated data *)
From Verif Require Import Base InfinintModel InfinintProof InfinintProof2 CrcModel CrcProof DatetimeModel PropDatetime HeaderModel HeaderProof2.
From Verif Require Import DbModel DbMap ReadStable DbFileModel DbFileSpec DbFileProof.
Open Scope N_scope.

(** a reader that, when it succeeds, consumes at least one byte *)
Definition eats {A} (R : list N -> res (A * list N)) : Prop := forall f x r, R f = Ok (x, r) -> (length r < length f)%nat.
Definition keeps {A} (R : list N -> res (A * list N)) : Prop := forall f x r, R f = Ok (x, r) -> (length r <= length f)%nat.
Lemma framed_keeps : forall A (R : list N -> res (A * list N)), framed R -> keeps R.
Proof. intros A R F f x r H. destruct (F _ _ _ H) as (p & -> & _). rewrite app_length. lia. Qed.
Lemma eats_bind_l : forall A B (R1 : list N -> res (A * list N)) (R2 : A -> list N -> res (B * list N)),
  eats R1 -> (forall x, keeps (R2 x)) -> eats (fun f => let* '(x, f) := R1 f in R2 x f).
Proof. intros A B R1 R2 H1 H2 f x r H. apply bind_ok_inv in H as ([y f1] & E & H). apply H1 in E. apply H2 in H. lia. Qed.

Lemma framed_byte_get : framed byte_get.
Proof. exact (framed_byte UB). Qed.
Lemma framed_crc_get : framed crc_get.
Proof. exact framed_crc_read. Qed.
Lemma framed_num : framed num_get.
Proof. intros f x r H. destruct f as [|a [|b f]]; cbn [num_get] in H; try discriminate. injection H as <- <-. exists [a; b]. split; reflexivity. Qed.
#[export] Hint Resolve framed_byte_get framed_crc_get framed_num : framed.
Lemma framed_status : forall ver, framed (status_read ver).
Proof. intro ver. unfold status_read. fr. Qed.
#[export] Hint Resolve framed_status : framed.
Lemma framed_mod : forall ver, framed (mod_read ver).
Proof. intro ver. unfold mod_read, plus_read. destruct (ver =? 0); [fr|]. destruct (ver =? 1); [fr|]. apply framed_bind; [auto with framed|]. intros [d e]. destruct (ver <=? 4); fr. Qed.
Lemma framed_chg : forall ver, framed (chg_read ver).
Proof. intro ver. unfold chg_read. destruct (ver =? 0); [fr|]. destruct (ver =? 1); fr. Qed.
#[export] Hint Resolve framed_mod framed_chg : framed.
Lemma tame_num : tame num_get.
Proof. intros [|a [|b f]]; discriminate. Qed.
Lemma tame_byte_get : tame byte_get.
Proof. apply tame_byte. discriminate. Qed.
Lemma tame_crc_get : tame crc_get.
Proof. exact tame_crc_read. Qed.
#[export] Hint Resolve tame_num tame_byte_get tame_crc_get : tame.
Lemma tame_status : forall ver, tame (status_read ver).
Proof. intro ver. unfold status_read. tm. Qed.
#[export] Hint Resolve tame_status : tame.
Lemma tame_mod : forall ver, tame (mod_read ver).
Proof. intro ver. unfold mod_read, plus_read. destruct (ver =? 0); [tm|]. destruct (ver =? 1); [tm|]. apply tame_bind; [auto with tame|]. intros [d e]. destruct (ver <=? 4); tm. Qed.
Lemma tame_chg : forall ver, tame (chg_read ver).
Proof. intro ver. unfold chg_read. destruct (ver =? 0); [tm|]. destruct (ver =? 1); tm. Qed.
#[export] Hint Resolve tame_mod tame_chg : tame.

(** ** loops *)
Lemma map_read_fuel : forall A (rd : list N -> res (A * list N)) n k m f x r, keeps rd -> map_read rd n k m f = Ok (x, r) ->
  (N.to_nat k + length r <= length f)%nat /\ forall n', (N.to_nat k < n')%nat -> map_read rd n' k m f = Ok (x, r).
Proof.
  intros A rd n; induction n as [|n IH]; intros k m f x r K H; cbn [map_read] in H; [discriminate|].
  destruct (N.eqb_spec k 0) as [->|Hk].
  - injection H as <- <-. split; [lia|]. intros n' H'. destruct n'; [lia|]. reflexivity.
  - apply bind_ok_inv in H as ([key f1] & E1 & H). apply bind_ok_inv in H as ([v f2] & E2 & H). pose proof (framed_keeps _ _ framed_num _ _ _ E1) as L1.
    assert (L1' : (length f1 < length f)%nat) by (destruct f as [|a [|b f]]; cbn [num_get] in E1; try discriminate; injection E1 as <- <-; cbn [length]; lia).
    pose proof (K _ _ _ E2) as L2. destruct (IH _ _ _ _ _ K H) as [L3 R3]. split; [lia|]. intros n' H'. destruct n' as [|n']; [lia|]. cbn [map_read].
    destruct (N.eqb_spec k 0); [contradiction|]. rewrite E1, bind_ok, E2, bind_ok. apply R3. lia.
Qed.
Lemma map_read_framed : forall A (rd : list N -> res (A * list N)) n k m, framed rd -> framed (map_read rd n k m).
Proof.
  intros A rd n; induction n as [|n IH]; intros k m F; cbn [map_read]; [apply framed_err|]. destruct (k =? 0); [apply framed_ret|].
  apply framed_bind; [apply framed_num|]. intro key. apply framed_bind; [exact F|]. intro v. apply IH. exact F.
Qed.
Lemma framed_map : forall A (rd : list N -> res (A * list N)) k m, framed rd -> framed (fun f => map_read rd (fuel_of f) k m f).
Proof.
  intros A rd k m F f x r H. destruct (map_read_fuel _ _ _ _ _ _ _ _ (framed_keeps _ _ F) H) as [L R].
  destruct (map_read_framed _ _ (fuel_of f) k m F _ _ _ H) as (p & -> & P). exists p. split; [reflexivity|]. intro q.
  destruct (map_read_fuel _ _ _ _ _ _ _ _ (framed_keeps _ _ F) (P q)) as [L2 R2]. apply R2. rewrite app_length in *. unfold fuel_of. rewrite app_length. lia.
Qed.
Lemma tame_map : forall A (rd : list N -> res (A * list N)) k m, keeps rd -> tame rd -> tame (fun f => map_read rd (fuel_of f) k m f).
Proof.
  intros A rd k m K T f. assert (G : forall n k m f, (length f < n)%nat -> map_read rd n k m f <> Err Fuel).
  { induction n as [|n IH]; intros k0 m0 f0 L; [lia|]. cbn [map_read]. destruct (k0 =? 0); [discriminate|]. destruct f0 as [|a [|b f0]]; cbn [num_get bind]; try discriminate.
    pose proof (T f0) as T0. destruct (rd f0) as [[v f2]|] eqn:E; cbn [bind]; [|congruence]. apply K in E. apply IH. cbn [length] in L. lia. }
  apply G. unfold fuel_of. lia.
Qed.
Lemma framed_record : forall ver, framed (record_read ver).
Proof.
  intro ver. unfold record_read. apply framed_bind; [auto with framed|]. intro name. apply framed_bind; [auto with framed|]. intro k.
  apply framed_bind; [apply framed_map; auto with framed|]. intro m. apply framed_bind; [auto with framed|]. intro k2. apply framed_bind; [apply framed_map; auto with framed|]. intro c. fr.
Qed.
Lemma tame_record : forall ver, tame (record_read ver).
Proof.
  intro ver. unfold record_read. apply tame_bind; [auto with tame|]. intro name. apply tame_bind; [auto with tame|]. intro k.
  apply tame_bind; [apply tame_map; [apply framed_keeps; auto with framed|auto with tame]|]. intro m. apply tame_bind; [auto with tame|]. intro k2.
  apply tame_bind; [apply tame_map; [apply framed_keeps; auto with framed|auto with tame]|]. intro c. tm.
Qed.
Lemma rep_read_fuel : forall A (rd : list N -> res (A * list N)) n k f x r, eats rd -> rep_read rd n k f = Ok (x, r) ->
  (N.to_nat k + length r <= length f)%nat /\ forall n', (N.to_nat k < n')%nat -> rep_read rd n' k f = Ok (x, r).
Proof.
  intros A rd n; induction n as [|n IH]; intros k f x r K H; cbn [rep_read] in H; [discriminate|].
  destruct (N.eqb_spec k 0) as [->|Hk].
  - injection H as <- <-. split; [lia|]. intros n' H'. destruct n'; [lia|]. reflexivity.
  - apply bind_ok_inv in H as ([y f1] & E1 & H). apply bind_ok_inv in H as ([l f2] & E2 & H). injection H as <- <-. pose proof (K _ _ _ E1) as L1.
    destruct (IH _ _ _ _ K E2) as [L3 R3]. split; [lia|]. intros n' H'. destruct n' as [|n']; [lia|]. cbn [rep_read].
    destruct (N.eqb_spec k 0); [contradiction|]. rewrite E1, bind_ok, R3 by lia. reflexivity.
Qed.
Lemma framed_rep : forall A (rd : list N -> res (A * list N)) k, eats rd -> framed rd -> framed (fun f => rep_read rd (fuel_of f) k f).
Proof.
  intros A rd k K F. assert (G : forall n k, framed (rep_read rd n k)).
  { induction n as [|n IH]; intro k0; cbn [rep_read]; [apply framed_err|]. destruct (k0 =? 0); [apply framed_ret|]. apply framed_bind; [exact F|]. intro. apply framed_bind; [apply IH|]. intro. apply framed_ret. }
  intros f x r H. destruct (rep_read_fuel _ _ _ _ _ _ _ K H) as [L R]. destruct (G (fuel_of f) k _ _ _ H) as (p & -> & P). exists p. split; [reflexivity|]. intro q.
  destruct (rep_read_fuel _ _ _ _ _ _ _ K (P q)) as [L2 R2]. apply R2. rewrite app_length in *. unfold fuel_of. rewrite app_length. lia.
Qed.
Lemma tame_rep : forall A (rd : list N -> res (A * list N)) k, eats rd -> tame rd -> tame (fun f => rep_read rd (fuel_of f) k f).
Proof.
  intros A rd k K T f. assert (G : forall n k f, (length f < n)%nat -> rep_read rd n k f <> Err Fuel).
  { induction n as [|n IH]; intros k0 f0 L; [lia|]. cbn [rep_read]. destruct (k0 =? 0); [discriminate|]. pose proof (T f0) as T0.
    destruct (rd f0) as [[v f2]|] eqn:E; cbn [bind]; [|congruence]. apply K in E. pose proof (IH (k0 - 1) f2 ltac:(lia)). destruct (rep_read rd n (k0 - 1) f2) as [[l f3]|]; cbn [bind]; congruence. }
  apply G. unfold fuel_of. lia.
Qed.

(** ** trees *)
Definition node_read (ver : N) (n : nat) (s : N) (f : list N) : res (tree * list N) :=
  if s =? 116 then let* '(x, f) := record_read ver f in let '(name, m, c) := x in Ok (Tree name m c None, f)
  else if s =? 100 then
    let* '(x, f) := record_read ver f in
    let* '(k, f) := readN f in
    let* '(l, f) := kids_read ver n k f in
    let '(name, m, c) := x in Ok (Tree name m c (Some l), f)
  else Err Erange.
Definition tree_some (ver : N) (n : nat) (f : list N) : res (tree * list N) :=
  match n with
  | O => Err Fuel
  | S n => let* '(s, f) := match read1 f with Some x => Ok x | None => Err Erange end in node_read ver n s f
  end.
Lemma tree_some_eq : forall ver n f, tree_read ver n f = match n, f with S _, [] => Ok (None, []) | _, _ => let* '(t, f) := tree_some ver n f in Ok (Some t, f) end.
Proof.
  intros ver [|n] [|s f]; try reflexivity. cbn [tree_read tree_some read1]. rewrite bind_ok. unfold node_read.
  destruct (s =? 116); [destruct (record_read ver f) as [[[[name m] c] f1]|]; reflexivity|]. destruct (s =? 100); [|reflexivity].
  destruct (record_read ver f) as [[[[name m] c] f1]|]; cbn [bind]; [|reflexivity]. destruct (readN f1) as [[k f2]|]; cbn [bind]; [|reflexivity]. destruct (kids_read ver n k f2) as [[l f3]|]; reflexivity.
Qed.
Lemma kids_some_eq : forall ver n k f, kids_read ver (S n) k f = if k =? 0 then Ok ([], f) else let* '(t, f) := tree_some ver n f in let* '(l, f) := kids_read ver n (k - 1) f in Ok (t :: l, f).
Proof.
  intros ver n k f. cbn [kids_read]. destruct (k =? 0); [reflexivity|]. rewrite tree_some_eq. destruct n as [|n]; [reflexivity|]. destruct f as [|s f]; [reflexivity|].
  destruct (tree_some ver (S n) (s :: f)) as [[t f1]|]; reflexivity.
Qed.
Lemma framed_tree : forall ver n, framed (tree_some ver n) /\ forall k, framed (kids_read ver n k).
Proof.
  intros ver n; induction n as [|n [IH1 IH2]]; [split; [apply framed_err|intro; apply framed_err]|]. split.
  - unfold tree_some. apply framed_bind; [apply framed_byte|]. intro s. unfold node_read. destruct (s =? 116); [apply framed_bind; [apply framed_record|intros [[name m] c]; apply framed_ret]|].
    destruct (s =? 100); [|apply framed_err]. apply framed_bind; [apply framed_record|]. intros [[name m] c]. apply framed_bind; [auto with framed|]. intro k. apply framed_bind; [apply IH2|]. intro l. apply framed_ret.
  - intro k. eapply framed_ext; [intro f; symmetry; apply kids_some_eq|]. cbn beta. destruct (k =? 0); [apply framed_ret|]. apply framed_bind; [apply IH1|]. intro t. apply framed_bind; [apply IH2|]. intro l. apply framed_ret.
Qed.
Lemma tree_eats : forall ver n, eats (tree_some ver n).
Proof.
  intros ver [|n] f x r H; [discriminate|]. unfold tree_some in H. destruct f as [|s f]; [discriminate|]. cbn [read1] in H. rewrite bind_ok in H. unfold node_read in H. cbn [length].
  destruct (s =? 116).
  - apply bind_ok_inv in H as ([[[name m] c] f1] & E & H). injection H as <- <-. apply (framed_keeps _ _ (framed_record ver)) in E. lia.
  - destruct (s =? 100); [|discriminate]. apply bind_ok_inv in H as ([[[name m] c] f1] & E & H). apply bind_ok_inv in H as ([k f2] & E2 & H). apply bind_ok_inv in H as ([l f3] & E3 & H). injection H as <- <-.
    apply (framed_keeps _ _ (framed_record ver)) in E. apply (framed_keeps _ _ framed_readN) in E2. apply (framed_keeps _ _ (proj2 (framed_tree ver n) k)) in E3. lia.
Qed.
(** the fuel needed depends on what is consumed only *)
Lemma tree_fuel_ok : forall ver n,
  (forall f x r, tree_some ver n f = Ok (x, r) -> forall n', (2 * (length f - length r) + 2 <= n')%nat -> tree_some ver n' f = Ok (x, r)) /\
  (forall k f x r, kids_read ver n k f = Ok (x, r) -> forall n', (2 * (length f - length r) + 3 <= n')%nat -> kids_read ver n' k f = Ok (x, r)).
Proof.
  intros ver n; induction n as [|n [IH1 IH2]]; [split; intros; discriminate|]. split.
  - intros f x r H n' Hn. pose proof (tree_eats _ _ _ _ _ H) as LT. destruct n' as [|n']; [lia|]. unfold tree_some in *. destruct f as [|s f]; [discriminate|]. cbn [read1] in *. rewrite bind_ok in *. unfold node_read in *.
    destruct (s =? 116); [exact H|]. destruct (s =? 100); [|discriminate]. apply bind_ok_inv in H as ([[[name m] c] f1] & E & H). apply bind_ok_inv in H as ([k f2] & E2 & H). apply bind_ok_inv in H as ([l f3] & E3 & H). injection H as <- <-.
    rewrite E, bind_ok, E2, bind_ok. pose proof (framed_keeps _ _ (framed_record ver) _ _ _ E). pose proof (framed_keeps _ _ framed_readN _ _ _ E2). pose proof (framed_keeps _ _ (proj2 (framed_tree ver n) k) _ _ _ E3).
    assert (LN : (length f2 < length f1)%nat) by (destruct (framed_readN _ _ _ E2) as (p & -> & P); rewrite app_length; destruct p; [specialize (P []); discriminate P|cbn [length]; lia]).
    cbn [length] in Hn. rewrite (IH2 _ _ _ _ E3 n') by lia. reflexivity.
  - intros k f x r H n' Hn. destruct n' as [|n']; [lia|]. rewrite kids_some_eq in *. destruct (k =? 0); [exact H|]. apply bind_ok_inv in H as ([t f1] & E & H). apply bind_ok_inv in H as ([l f2] & E2 & H). injection H as <- <-.
    pose proof (tree_eats _ _ _ _ _ E). pose proof (framed_keeps _ _ (proj2 (framed_tree ver n) (k - 1)) _ _ _ E2). rewrite (IH1 _ _ _ E n') by lia. rewrite bind_ok, (IH2 _ _ _ _ E2 n') by lia. reflexivity.
Qed.
Lemma tree_ends : forall ver n,
  (forall f, (2 * length f + 2 <= n)%nat -> tree_some ver n f <> Err Fuel) /\ (forall k f, (2 * length f + 3 <= n)%nat -> kids_read ver n k f <> Err Fuel).
Proof.
  intros ver n; induction n as [|n [IH1 IH2]]; [split; intros; lia|]. split.
  - intros f Hn. unfold tree_some. destruct f as [|s f]; [discriminate|]. cbn [read1]. rewrite bind_ok. unfold node_read. pose proof (tame_record ver f) as T.
    destruct (s =? 116); [destruct (record_read ver f) as [[[[name m] c] f1]|]; cbn [bind]; congruence|]. destruct (s =? 100); [|discriminate].
    destruct (record_read ver f) as [[[[name m] c] f1]|] eqn:E; cbn [bind]; [|congruence]. pose proof (tame_readN f1) as T2. cbv beta in T2. destruct (readN f1) as [[k f2]|] eqn:E2; cbn [bind]; [|congruence].
    pose proof (framed_keeps _ _ (framed_record ver) _ _ _ E). assert (LN : (length f2 < length f1)%nat) by (destruct (framed_readN _ _ _ E2) as (p & -> & P); rewrite app_length; destruct p; [specialize (P []); discriminate P|cbn [length]; lia]).
    pose proof (IH2 k f2 ltac:(cbn [length] in Hn; lia)). destruct (kids_read ver n k f2) as [[l f3]|]; cbn [bind]; congruence.
  - intros k f Hn. rewrite kids_some_eq. destruct (k =? 0); [discriminate|]. pose proof (IH1 f ltac:(lia)). destruct (tree_some ver n f) as [[t f1]|] eqn:E; cbn [bind]; [|congruence].
    pose proof (tree_eats _ _ _ _ _ E). pose proof (IH2 (k - 1) f1 ltac:(lia)). destruct (kids_read ver n (k - 1) f1) as [[l f2]|]; cbn [bind]; congruence.
Qed.
Lemma framed_top : forall ver, framed (fun f => tree_some ver (tree_fuel f) f).
Proof.
  intros ver f x r H. destruct (proj1 (framed_tree ver (tree_fuel f)) _ _ _ H) as (p & -> & P). exists p. split; [reflexivity|]. intro q.
  apply (proj1 (tree_fuel_ok ver _) _ _ _ (P q)). unfold tree_fuel. rewrite app_length. lia.
Qed.

(** ** the whole *)
Lemma eats_string : eats read_string.
Proof. intros f x r H. destruct (framed_read_string _ _ _ H) as (p & -> & P). rewrite app_length. destruct p; [specialize (P []); discriminate P|cbn [length]; lia]. Qed.
Lemma framed_take : forall A k (K : list N -> list N -> res (A * list N)), (forall x, framed (K x)) ->
  framed (fun f => let* '(x, f) := if N.of_nat (length f) <? k then Err UB else Ok (firstn (N.to_nat k) f, skipn (N.to_nat k) f) in K x f).
Proof.
  intros A k K HK. apply framed_bind; [|exact HK]. intros f x r H. destruct (N.ltb_spec (N.of_nat (length f)) k); [discriminate|]. injection H as <- <-.
  exists (firstn (N.to_nat k) f). split; [rewrite firstn_skipn; reflexivity|]. intro q. rewrite app_length, firstn_length.
  destruct (N.ltb_spec (N.of_nat (Nat.min (N.to_nat k) (length f) + length q)) k); [lia|]. rewrite firstn_app_exact_n, skipn_app_exact_n by (rewrite firstn_length; lia). reflexivity.
Qed.
Lemma framed_coord : forall ver, framed (coord_read ver).
Proof.
  intro ver. unfold coord_read. apply framed_bind; [auto with framed|]. intro p. apply framed_bind; [auto with framed|]. intro b. apply framed_bind; [fr|]. intro d.
  apply framed_bind; [fr|]. intro sym. destruct (is_knone sym); [fr|]. apply framed_bind; [auto with framed|]. intro n. destruct (unstack0 64 n) as [ks more]. destruct (negb _); [fr|].
  apply framed_take. intro pass. apply framed_bind; [auto with framed|]. intro n2. destruct (unstack0 32 n2) as [sz more2]. fr.
Qed.
Lemma eats_coord : forall ver, eats (coord_read ver).
Proof.
  intros ver f x r H. assert (H0 := H). unfold coord_read in H. apply bind_ok_inv in H as ([p f1] & E & _). destruct (framed_coord ver _ _ _ H0) as (q & -> & Q).
  destruct q; [specialize (Q []); discriminate Q|]. rewrite app_length. cbn [length]. lia.
Qed.
Lemma char_crypto_tame : forall c, char_crypto c <> Err Fuel.
Proof. intro c. unfold char_crypto. repeat match goal with |- context [if ?b then _ else _] => destruct b end; discriminate. Qed.
Lemma tame_coord : forall ver, tame (coord_read ver).
Proof.
  intro ver. unfold coord_read. apply tame_bind; [auto with tame|]. intro p. apply tame_bind; [auto with tame|]. intro b. apply tame_bind; [tm|]. intro d.
  apply tame_bind; [destruct (7 <=? ver); [apply tame_bind; [auto with tame|]; intro; apply tame_pure; [apply char_crypto_tame|]; intro; tm|tm]|]. intro sym. destruct (is_knone sym); [tm|].
  apply tame_bind; [auto with tame|]. intro n. destruct (unstack0 64 n) as [ks more]. destruct (negb _); [tm|].
  apply tame_bind; [intro f; destruct (_ <? _); discriminate|]. intro pass. apply tame_bind; [auto with tame|]. intro n2. destruct (unstack0 32 n2) as [sz more2]. tm.
Qed.
(** the full reading as a framed reader *)
Definition full_read (ver : N) (f : list N) : res (list arch * list (list N) * list N * tree * list N) :=
  let* '(k, f) := readN f in
  let* '(co, f) := rep_read (coord_read ver) (fuel_of f) k f in
  let* '(opts, f) := vec_read f in
  let* '(dar, f) := read_string f in
  let* '(t, f) := tree_some ver (tree_fuel f) f in
  Ok (co, opts, dar, t, f).
Lemma framed_vec : framed vec_read.
Proof. unfold vec_read. apply framed_bind; [auto with framed|]. intro k. apply framed_rep; [apply eats_string|auto with framed]. Qed.
Lemma framed_full : forall ver, framed (full_read ver).
Proof.
  intro ver. unfold full_read. apply framed_bind; [auto with framed|]. intro k. apply framed_bind; [apply framed_rep; [apply eats_coord|apply framed_coord]|]. intro co.
  apply framed_bind; [apply framed_vec|]. intro opts. apply framed_bind; [auto with framed|]. intro dar. apply framed_bind; [apply framed_top|]. intro t. apply framed_ret.
Qed.
Lemma full_of_body : forall h ro f db, body_read h false ro f = Ok db -> exists co opts dar t r, full_read (h_ver h) f = Ok (co, opts, dar, t, r).
Proof.
  intros h ro f db H. unfold body_read in H. cbn zeta in H. apply bind_ok_inv in H as ([k f1] & E1 & H). apply bind_ok_inv in H as ([co f2] & E2 & H).
  destruct co as [|a0 co]; [discriminate|]. apply bind_ok_inv in H as ([opts f3] & E3 & H). apply bind_ok_inv in H as ([dar f4] & E4 & H).
  replace (if h_ver h <? DB_VERSION then false else false) with false in H by (destruct (h_ver h <? DB_VERSION); reflexivity). cbn [negb] in H. apply bind_ok_inv in H as ([t f5] & E5 & H).
  rewrite tree_some_eq in E5. unfold tree_fuel in E5 at 1. rewrite Nat.add_comm in E5. cbn [plus] in E5. destruct f4 as [|s f4]; [injection E5 as <- <-; discriminate H|].
  apply bind_ok_inv in E5 as ([t' f6] & E6 & E5). injection E5 as <- <-. unfold full_read. rewrite E1, bind_ok, E2, bind_ok, E3, bind_ok, E4, bind_ok, E6, bind_ok. eauto 10.
Qed.
Lemma body_ends : forall h partial ro f, body_read h partial ro f <> Err Fuel.
Proof.
  intros h partial ro f. unfold body_read. cbn zeta. pose proof (tame_readN f) as T1. destruct (readN f) as [[k f1]|]; cbn [bind]; [|congruence].
  pose proof (tame_rep _ _ k (eats_coord (h_ver h)) (tame_coord (h_ver h)) f1) as T2. cbv beta in T2. destruct (rep_read _ _ _ f1) as [[co f2]|]; cbn [bind]; [|congruence]. destruct co as [|a0 co]; [discriminate|].
  unfold vec_read. pose proof (tame_readN f2) as T3. destruct (readN f2) as [[k2 f3]|]; cbn [bind]; [|congruence].
  pose proof (tame_rep _ _ k2 eats_string tame_string f3) as T4. cbv beta in T4. destruct (rep_read _ _ _ f3) as [[opts f4]|]; cbn [bind]; [|congruence].
  pose proof (tame_string f4) as T5. destruct (read_string f4) as [[dar f5]|]; cbn [bind]; [|congruence].
  assert (T6 : tree_read (h_ver h) (tree_fuel f5) f5 <> Err Fuel).
  { rewrite tree_some_eq. pose proof (proj1 (tree_ends (h_ver h) (tree_fuel f5)) f5 ltac:(unfold tree_fuel; lia)) as T. unfold tree_fuel in *. rewrite Nat.add_comm in *. cbn [plus] in *.
    destruct f5 as [|s f5]; [discriminate|]. destruct (tree_some _ _ _) as [[t r]|]; cbn [bind]; congruence. }
  destruct (negb _).
  - destruct (tree_read _ _ f5) as [[[[n m c [l|]]|] r]|]; cbn [bind]; try congruence; discriminate.
  - destruct (negb ro); discriminate.
Qed.

(** a saved body is read to its end *)
Lemma tree_some_rt : forall t, tree_ok t -> exists b, tree_dump t = Ok b /\ b <> [] /\
  forall rest, tree_some 7 (tree_fuel (b ++ rest)) (b ++ rest) = Ok (same_tree t, rest).
Proof.
  intros t H. destruct (all_good t H) as (b & E & L & R). exists b. split; [exact E|]. split; [intros ->; cbn [length] in L; lia|]. intro rest.
  specialize (R (tree_fuel (b ++ rest)) rest ltac:(unfold tree_fuel; rewrite app_length; lia)). rewrite tree_some_eq in R.
  destruct b as [|s b]; [cbn [length] in L; lia|]. unfold tree_fuel in *. rewrite Nat.add_comm in *. cbn [app plus] in *. cbn [app plus] in R.
  destruct (tree_some _ _ _) as [[t' r]|]; cbn [bind] in R; [|discriminate]. injection R as -> ->. reflexivity.
Qed.
Lemma full_rt : forall db t, db_ok db -> tree_ok t -> d_files db = Some t -> exists b, body_dump db = put b /\ full_read 7 b = Ok (d_coord db, d_opts db, d_dar db, same_tree t, []).
Proof.
  intros db t ((Hv & _) & H0 & Hn & Ha & Hc & Ho & Hd) Ht Ft. destruct (coords_rt (is_knone (h_crypto (d_head db))) (d_coord db) Ha) as (bc & Ec & Rc).
  { intro K. apply Hc. destruct (h_crypto (d_head db)); try discriminate K. reflexivity. }
  destruct (tree_some_rt t Ht) as (tail & Et & _ & Rt).
  exists (dumpN (N.of_nat (length (d_coord db))) ++ bc ++ vec_write (d_opts db) ++ write_string (d_dar db) ++ tail). split.
  - unfold body_dump, num_of. rewrite N.mod_small by lia. cbn zeta. destruct (N.leb_spec 65534 (N.of_nat (length (d_coord db)))); [lia|].
    rewrite Nat2N.id, firstn_all, Ec, Ft, Et. cbn [lift]. rewrite !seqw_ok. cbn [put fst snd]. rewrite <- ?app_assoc. reflexivity.
  - unfold full_read. rewrite readN_dumpN, bind_ok. rewrite Rc by (unfold fuel_of; rewrite app_length; lia). rewrite bind_ok.
    rewrite vec_rt by exact Ho. rewrite bind_ok, string_rt by exact Hd. rewrite bind_ok. specialize (Rt []). rewrite app_nil_r in Rt. rewrite Rt, bind_ok. reflexivity.
Qed.
