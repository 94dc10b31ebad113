(** * C47: reading an archive through dar_slave gives what reading it directly gives. *)
From Coq Require Import List Bool PeanoNat ZArith.
From Verif Require Import Base InfinintModel InfinintProof2 SliceModel HeaderModel HeaderProof HeaderProof2 PropHeader FileModel ZapModel ZapSpec.
Import ListNotations.
Open Scope nat_scope.

Lemma fill_ok : forall fuel a b f, 2 <= fuel -> fill fuel [] (a :: b :: f) = Ok ([a; b], f).
Proof. intros [|[|k]] a b f H; [lia|lia|]. reflexivity. Qed.
Lemma u16_be : forall n, (n < 65536)%N -> u16 (be16 n) = n.
Proof. intros n H. unfold u16, be16. apply be16_join. exact H. Qed.
Lemma fill_be : forall fuel n f, 2 <= fuel -> fill fuel [] (be16 n ++ f) = Ok (be16 n, f).
Proof. intros fuel n f H. unfold be16. cbn [app]. apply fill_ok. exact H. Qed.

(** ** messages survive the pipe *)
Definition sendable (r : request) : Prop := (q_size r < 65536)%N /\ if (q_size r =? SPECIAL)%N && (q_offset r =? O_STATUS)%N then Forall (fun c => c <> 0%N) (q_info r) else q_info r = [].
Theorem C47_request : forall fuel r rest, 2 <= fuel -> sendable r -> rq_read fuel (rq_write r ++ rest) = Ok (r, rest).
Proof.
  intros fuel [num sz off inf] rest Hf [H1 H2]. cbn [q_size q_offset q_info] in *. unfold rq_read, rq_write. cbn [q_size q_offset q_info q_serial app]. rewrite <- !app_assoc, readN_dumpN. cbn [bind]. rewrite fill_be by exact Hf. cbn [bind]. rewrite u16_be by exact H1.
  destruct ((sz =? SPECIAL)%N && (off =? O_STATUS)%N); [rewrite read_string_app by exact H2; reflexivity|]. subst inf. reflexivity.
Qed.
Print Assumptions C47_request.
(** an answer with data: what does not fit in the room given is dropped, and nothing else *)
Theorem C47_answer_data : forall fuel num d max rest, 2 <= fuel -> (N.of_nat (length d) < 65536)%N -> exists b, an_write (An num T_DATA (N.of_nat (length d)) 0) (Some d) = Ok b /\
  an_read fuel max (b ++ rest) = Ok (An num T_DATA (N.of_nat (length d)) 0, firstn max d, rest).
Proof.
  intros fuel num d max rest Hf H. eexists. split; [reflexivity|]. cbn [a_serial a_type a_size app]. unfold an_read. change (T_DATA =? T_DATA)%N with true. cbn iota. rewrite Nat2N.id, firstn_all, <- app_assoc, fill_be by exact Hf. cbn [bind]. rewrite u16_be by exact H. rewrite Nat2N.id.
  replace (skipn (length d) (d ++ rest)) with rest by (rewrite skipn_app, skipn_all, Nat.sub_diag; reflexivity). f_equal. f_equal. f_equal. destruct (Nat.ltb_spec max (length d)).
  - rewrite firstn_app. replace (max - length d) with 0 by lia. cbn. apply app_nil_r.
  - rewrite firstn_app, firstn_all, Nat.sub_diag. cbn. rewrite app_nil_r, firstn_all2 by lia. reflexivity.
Qed.
Print Assumptions C47_answer_data.
Theorem C47_answer_number : forall fuel num v max rest, exists b, an_write (An num T_INF 0 v) None = Ok b /\ an_read fuel max (b ++ rest) = Ok (An num T_INF 0 v, [], rest).
Proof. intros. eexists. split; [reflexivity|]. cbn [a_serial a_type a_arg app]. unfold an_read. change (T_INF =? T_DATA)%N with false. change (T_INF =? T_INF)%N with true. cbn iota. rewrite readN_dumpN. reflexivity. Qed.
Print Assumptions C47_answer_number.

(** ** one exchange *)
Definition next_master (x : both) : master := Ma (m_pos (ma x)) (m_size (ma x)) ((m_serial (ma x) + 1) mod 256)%N (m_status (ma x)).
Lemma serve_write : forall fuel (s : slave) r, 2 <= fuel -> sendable r -> rq_read fuel (rq_write r) = Ok (r, []).
Proof. intros fuel s r Hf H. pose proof (C47_request fuel r [] Hf H) as K. rewrite app_nil_r in K. exact K. Qed.
Lemma an_data : forall fuel num d max, 2 <= fuel -> (N.of_nat (length d) < 65536)%N -> exists b, an_write (An num T_DATA (N.of_nat (length d)) 0) (Some d) = Ok b /\ an_read fuel max b = Ok (An num T_DATA (N.of_nat (length d)) 0, firstn max d, []).
Proof. intros fuel num d max Hf H. destruct (C47_answer_data fuel num d max [] Hf H) as (b & E & R). rewrite app_nil_r in R. eauto. Qed.
Lemma an_num : forall fuel num v max, exists b, an_write (An num T_INF 0 v) None = Ok b /\ an_read fuel max b = Ok (An num T_INF 0 v, [], []).
Proof. intros fuel num v max. destruct (C47_answer_number fuel num v max []) as (b & E & R). rewrite app_nil_r in R. eauto. Qed.
Lemma t_data : forall fuel size p lu x, 2 <= fuel -> live x = true -> (0 < size < 65536)%N -> p <= length (sv_data (sl x)) ->
  transfert fuel size (N.of_nat p) [] lu x = Ok (firstn (N.to_nat size) (skipn p (sv_data (sl x))), 0%N, Bo (next_master x) (sl x) true).
Proof.
  intros fuel size p lu [m s lv] Hf Hl Hs Hp. cbn [live sl] in *. subst lv. unfold transfert. cbn [live negb ma sl]. assert (E0 : (size =? SPECIAL)%N = false) by (apply N.eqb_neq; unfold SPECIAL; lia). rewrite E0.
  unfold serve. rewrite serve_write; [|exact s|exact Hf|split; cbn; [lia|rewrite E0; reflexivity]]. cbn [bind q_size q_offset q_serial]. rewrite E0. cbn [negb andb].
  replace (N.of_nat p <=? N.of_nat (length (sv_data s)))%N with true by lia. rewrite Nat2N.id. set (d := firstn (N.to_nat size) (skipn p (sv_data s))).
  assert (Ld : length d <= N.to_nat size) by (unfold d; rewrite firstn_length; lia).
  destruct (an_data fuel (m_serial m) d (N.to_nat size) Hf ltac:(lia)) as (b & -> & R). cbn [bind]. rewrite R. cbn [bind a_serial a_arg]. rewrite N.eqb_refl. cbn [negb]. rewrite firstn_all2 by exact Ld. reflexivity.
Qed.
Ltac special Hf s :=
  unfold transfert; cbn [live negb ma sl]; change (SPECIAL =? SPECIAL)%N with true; cbn iota; unfold serve; rewrite serve_write; [|exact s|exact Hf|split; [reflexivity|first [reflexivity|assumption]]]; cbn [bind q_size q_offset q_serial q_info]; change (SPECIAL =? SPECIAL)%N with true; cbn [negb].
Ltac offsets := repeat match goal with |- context[(?a =? ?b)%N] => let v := eval vm_compute in (a =? b)%N in match v with true => change (a =? b)%N with true | false => change (a =? b)%N with false end; cbn iota end.
Ltac number := match goal with |- context[an_write (An ?n T_INF 0 ?v) None] => match goal with |- context[an_read ?fu ?mx _] => destruct (an_num fu n v mx) as (?b & -> & ?R) end end; cbn [bind]; match goal with K : an_read _ _ _ = Ok _ |- _ => rewrite K end; cbn [bind a_serial a_arg a_type a_size]; rewrite N.eqb_refl; cbn [negb andb]; reflexivity.
Lemma t_size : forall fuel lu x, 2 <= fuel -> live x = true -> transfert fuel SPECIAL O_SIZE [] lu x = Ok ([], N.of_nat (length (sv_data (sl x))), Bo (next_master x) (sl x) true).
Proof. intros fuel lu [m s lv] Hf Hl. cbn [live sl] in *. subst lv. special Hf s. offsets. number. Qed.
Lemma t_first : forall fuel lu x, 2 <= fuel -> live x = true -> transfert fuel SPECIAL O_FIRST [] lu x = Ok ([], sv_first (sl x), Bo (next_master x) (sl x) true).
Proof. intros fuel lu [m s lv] Hf Hl. cbn [live sl] in *. subst lv. special Hf s. offsets. number. Qed.
Lemma t_other : forall fuel lu x, 2 <= fuel -> live x = true -> transfert fuel SPECIAL O_OTHER [] lu x = Ok ([], sv_other (sl x), Bo (next_master x) (sl x) true).
Proof. intros fuel lu [m s lv] Hf Hl. cbn [live sl] in *. subst lv. special Hf s. offsets. number. Qed.
Definition with_status (i : list N) (s : slave) : slave := Sl (sv_data s) i (sv_name s) (sv_old s) (sv_first s) (sv_other s) (sv_info s) (sv_ser s).
Definition with_ser (i : list N) (s : slave) : slave := Sl (sv_data s) (sv_status s) (sv_name s) (sv_old s) (sv_first s) (sv_other s) (sv_info s) i.
Lemma t_status : forall fuel i lu x, 2 <= fuel -> live x = true -> Forall (fun c => c <> 0%N) i -> transfert fuel SPECIAL O_STATUS i lu x = Ok ([], 1%N, Bo (next_master x) (with_status i (sl x)) true).
Proof. intros fuel i lu [m s lv] Hf Hl Hi. cbn [live sl] in *. subst lv. special Hf s. offsets. number. Qed.
Lemma t_info_size : forall fuel lu x, 2 <= fuel -> live x = true -> transfert fuel SPECIAL O_INFO_SIZE [] lu x = Ok ([], N.of_nat (length (sv_info (sl x))), Bo (next_master x) (with_ser (sv_info (sl x)) (sl x)) true).
Proof. intros fuel lu [m s lv] Hf Hl. cbn [live sl] in *. subst lv. special Hf s. offsets. number. Qed.
Lemma t_info : forall fuel x, 2 <= fuel -> live x = true -> sv_ser (sl x) <> [] -> (N.of_nat (length (sv_ser (sl x))) < 65536)%N ->
  transfert fuel SPECIAL O_INFO [] (length (sv_ser (sl x))) x = Ok (sv_ser (sl x), 0%N, Bo (next_master x) (with_ser [] (sl x)) true).
Proof.
  intros fuel [m s lv] Hf Hl Hn Hs. cbn [live sl] in *. subst lv. special Hf s. offsets. destruct (sv_ser s) as [|c d] eqn:E; [congruence|].
  replace (65535 <? N.of_nat (length (c :: d)))%N with false by lia. rewrite N.mod_small by exact Hs. rewrite Nat2N.id.
  destruct (an_data fuel (m_serial m) (c :: d) (length (c :: d)) Hf Hs) as (b & Ew & R). cbn [app] in *. rewrite Ew. cbn [bind]. rewrite R. cbn [bind a_serial a_arg a_type a_size]. rewrite N.eqb_refl, firstn_all. reflexivity.
Qed.
Lemma t_end : forall fuel lu x, 2 <= fuel -> live x = true -> exists d, transfert fuel SPECIAL O_END [] lu x = Ok (d, 0%N, Bo (next_master x) (sl x) false).
Proof.
  intros fuel lu [m s lv] Hf Hl. cbn [live sl] in *. subst lv. special Hf s. offsets. destruct (an_data fuel (m_serial m) [] (N.to_nat (N.of_nat lu mod 65536)) Hf eq_refl) as (b & Ew & R). cbn [length N.of_nat firstn] in *.
  assert (Ew2 : an_write (An (m_serial m) T_DATA 0 0) None = Ok b) by (rewrite <- Ew; unfold an_write; cbn; reflexivity).
  rewrite Ew2. cbn [bind]. rewrite R. cbn [bind a_serial a_arg a_type a_size]. rewrite N.eqb_refl. eexists. reflexivity.
Qed.

(** ** reading *)
Lemma pieces : forall A (D : list A) p m n, m <= n -> length (firstn m (skipn p D)) = m -> firstn n (skipn p D) = firstn m (skipn p D) ++ firstn (n - m) (skipn (p + m) D).
Proof.
  intros A D p m n H L. rewrite <- (firstn_skipn m (firstn n (skipn p D))) at 1. rewrite firstn_firstn, Nat.min_l by exact H. f_equal. rewrite skipn_firstn_comm. rewrite FileModel.skipn_skipn. f_equal. f_equal. lia.
Qed.
Lemma zread_ok : forall fuel turns size acc x, 2 <= fuel -> live x = true -> length acc < size -> size - length acc < turns -> m_pos (ma x) <= length (sv_data (sl x)) ->
  exists num, zread turns fuel size acc x = Ok (acc ++ firstn (size - length acc) (skipn (m_pos (ma x)) (sv_data (sl x))),
    Bo (Ma (Nat.min (m_pos (ma x) + (size - length acc)) (length (sv_data (sl x)))) (m_size (ma x)) num (m_status (ma x))) (sl x) true).
Proof.
  intros fuel turns size. induction turns as [|k IH]; intros acc x Hf Hl Ha Ht Hp; [lia|]. cbn [zread]. set (left := N.of_nat (size - length acc)). set (pas := if (65535 <? left)%N then 65535%N else left).
  assert (Hpas : (0 < pas < 65536)%N /\ (pas <= left)%N) by (unfold pas; destruct (N.ltb_spec 65535 left); unfold left in *; lia).
  rewrite t_data by (try assumption; apply Hpas). cbn [bind ma next_master m_pos sl]. set (D := sv_data (sl x)) in *. set (p := m_pos (ma x)) in *. set (d := firstn (N.to_nat pas) (skipn p D)).
  assert (Ld : length d = Nat.min (N.to_nat pas) (length D - p)) by (unfold d; rewrite firstn_length, skipn_length; reflexivity).
  destruct ((length (acc ++ d) <? size) && negb (length d =? 0)) eqn:E.
  - apply andb_true_iff in E as [E1 E2]. apply Nat.ltb_lt in E1. apply negb_true_iff, Nat.eqb_neq in E2. rewrite app_length in E1.
    match goal with |- context[zread k fuel size (acc ++ d) ?X] => destruct (IH (acc ++ d) X Hf) as [num R] end; [reflexivity|rewrite app_length; exact E1|rewrite app_length; lia|cbn; unfold D, p in *; lia|].
    cbn [set_pos ma m_pos m_size m_status next_master sl] in R. fold D p in R. rewrite R. exists num. f_equal. f_equal.
    + rewrite <- app_assoc. f_equal. rewrite app_length. destruct (Nat.eq_dec (length d) (N.to_nat pas)) as [F|F].
      * replace (size - (length acc + length d)) with (size - length acc - N.to_nat pas) by lia. rewrite F. symmetry. apply pieces; [unfold left in *; lia|exact F].
      * assert (length D - p < N.to_nat pas) by lia. rewrite (skipn_all2 (n := p + length d) D) by lia. unfold d. rewrite !(firstn_all2 (skipn p D)) by (rewrite skipn_length; unfold left in *; lia). rewrite firstn_nil, app_nil_r. reflexivity.
    + f_equal. f_equal. rewrite app_length. lia.
  - eexists. unfold set_pos. cbn [ma m_pos m_size m_status m_serial sl live next_master]. fold D p. f_equal. f_equal.
    + f_equal. apply andb_false_iff in E as [E|E].
      * apply Nat.ltb_ge in E. rewrite app_length in E. unfold d. f_equal. unfold left in *. lia.
      * apply negb_false_iff, Nat.eqb_eq in E. assert (length D - p = 0) by lia. unfold d. rewrite skipn_all2 by lia. rewrite !firstn_nil. reflexivity.
    + f_equal. f_equal. apply andb_false_iff in E as [E|E].
      * apply Nat.ltb_ge in E. rewrite app_length in E. unfold left in *. lia.
      * apply negb_false_iff, Nat.eqb_eq in E. lia.
Qed.
Definition fit (data info : list N) (first other : N) (st : list N) (p : nat) (x : both) : Prop :=
  live x = true /\ sv_data (sl x) = data /\ sv_info (sl x) = info /\ sv_first (sl x) = first /\ sv_other (sl x) = other /\ sv_status (sl x) = st /\ m_pos (ma x) = p /\ p <= length data /\ m_size (ma x) = length data.
Lemma zdo_ok : forall fuel data info first other o st p x, 2 <= fuel -> info <> [] -> (N.of_nat (length info) < 65536)%N -> allowed o -> fit data info first other st p x ->
  exists x', zdo fuel o x = Ok (fst (answer_to data info first other o p), x') /\ fit data info first other (last_status [o] st) (snd (answer_to data info first other o p)) x'.
Proof.
  intros fuel data info first other o st p [m s lv] Hf Hi Hi2 Al (E1 & E2 & E3 & E4 & E5 & E6 & E7 & E8 & E9). cbn [live sl ma] in *. subst lv. destruct o as [n|q|d| | |i| | |]; cbn [zdo answer_to fst snd last_status].
  - destruct n as [|n].
    + eexists. split; [reflexivity|]. rewrite Nat.add_0_r, Nat.min_l by exact E8. repeat split; assumption.
    + destruct (zread_ok fuel (S (S n)) (S n) [] (Bo m s true)) as [num R]; cbn [length live sl ma]; try lia; [rewrite E2, E7; exact E8|]. rewrite R. cbn [bind length app ma sl]. rewrite Nat.sub_0_r, E2, E7. eexists. split; [reflexivity|]. repeat split; cbn; auto. lia.
  - cbn [ma]. rewrite E9. destruct (Nat.leb_spec (length data) q), (Nat.ltb_spec q (length data)); try lia; eexists; (split; [reflexivity|]); repeat split; cbn; auto; lia.
  - cbn [ma]. rewrite E9, E7. destruct (Z.leb_spec 0 d).
    + destruct (Z.leb_spec 0 (Z.of_nat p + d)); [|lia]. destruct (Z.ltb_spec (Z.of_nat p + d) 0); [lia|]. cbn [andb]. destruct (Nat.ltb_spec (length data) (p + Z.to_nat d)).
      * replace (Z.of_nat p + d <=? Z.of_nat (length data))%Z with false by lia. eexists. split; [reflexivity|]. repeat split; cbn; auto; lia.
      * replace (Z.of_nat p + d <=? Z.of_nat (length data))%Z with true by lia. eexists. split; [reflexivity|]. repeat split; cbn; auto; lia.
    + destruct (Nat.ltb_spec p (Z.to_nat (- d))).
      * replace (0 <=? Z.of_nat p + d)%Z with false by lia. replace (Z.of_nat p + d <? 0)%Z with true by lia. eexists. split; [reflexivity|]. repeat split; cbn; auto; lia.
      * replace (0 <=? Z.of_nat p + d)%Z with true by lia. replace (Z.of_nat p + d <? 0)%Z with false by lia. replace (Z.of_nat p + d <=? Z.of_nat (length data))%Z with true by lia. eexists. split; [reflexivity|]. repeat split; cbn; auto; lia.
  - cbn [ma]. rewrite E9. eexists. split; [reflexivity|]. repeat split; cbn; auto; lia.
  - cbn [ma]. rewrite E7. eexists. split; [reflexivity|]. repeat split; cbn; auto.
  - rewrite t_status by (try exact Hf; try exact Al; reflexivity). eexists. split; [reflexivity|]. repeat split; cbn; auto.
  - rewrite t_info_size by (try exact Hf; reflexivity). cbn [bind sl ma]. rewrite E3, Nat2N.id.
    match goal with |- context[transfert fuel SPECIAL O_INFO [] (length info) ?X] => pose proof (t_info fuel X Hf eq_refl) as R end. cbn [sl sv_ser with_ser] in R. rewrite R by assumption. eexists. split; [reflexivity|]. repeat split; cbn; auto.
  - rewrite t_first by (try exact Hf; reflexivity). cbn [bind sl]. rewrite E4. eexists. split; [reflexivity|]. repeat split; cbn; auto.
  - rewrite t_other by (try exact Hf; reflexivity). cbn [bind sl]. rewrite E5. eexists. split; [reflexivity|]. repeat split; cbn; auto.
Qed.
Lemma last_cons : forall o l st, last_status (o :: l) st = last_status l (last_status [o] st).
Proof. intros [] l st; reflexivity. Qed.

Lemma zdo_all_ok : forall fuel data info first other l, 2 <= fuel -> info <> [] -> (N.of_nat (length info) < 65536)%N -> Forall allowed l -> forall st p x, fit data info first other st p x ->
  exists x' p', zdo_all fuel l x = Ok (direct data info first other l p, x') /\ fit data info first other (last_status l st) p' x'.
Proof.
  intros fuel data info first other l Hf Hi Hi2 Al. induction Al as [|o l Ao Al IH]; intros st p x F; [exists x, p; auto|]. destruct (zdo_ok fuel data info first other o st p x Hf Hi Hi2 Ao F) as (x1 & E1 & F1).
  cbn [zdo_all direct]. rewrite E1. cbn [bind]. destruct (IH _ _ _ F1) as (x2 & p2 & E2 & F2). rewrite E2. cbn [bind]. exists x2, p2. rewrite last_cons. split; [|exact F2]. destruct (answer_to data info first other o p); reflexivity.
Qed.

(** the client gets, for any sequence of calls, what the archive gives; the slave ends when the archive is closed, not before; the status it has is the last one given *)
Theorem C47_remote : forall fuel by_the_end s l, 2 <= fuel -> sv_info s <> [] -> (N.of_nat (length (sv_info s)) < 65536)%N -> Forall allowed l ->
  exists x0 x1 x2, zopen fuel by_the_end s = Ok x0 /\
    zdo_all fuel l x0 = Ok (direct (sv_data s) (sv_info s) (sv_first s) (sv_other s) l (if by_the_end then length (sv_data s) else 0), x1) /\
    live x1 = true /\ sv_status (sl x1) = last_status l (sv_status s) /\ zclose fuel x1 = Ok x2 /\ live x2 = false /\ sv_data (sl x2) = sv_data s.
Proof.
  intros fuel by_the_end s l Hf Hi Hi2 Al. unfold zopen. rewrite t_size by (try exact Hf; reflexivity). cbn [bind sl ma m_serial m_status next_master live m_pos m_size]. rewrite Nat2N.id. set (p0 := if by_the_end then length (sv_data s) else 0).
  assert (K : exists x0, (if by_the_end then Ok (set_pos (length (sv_data s)) (Bo (Ma 0 (length (sv_data s)) ((0 + 1) mod 256) INIT) s true)) else Ok (set_pos 0 (Bo (Ma 0 (length (sv_data s)) ((0 + 1) mod 256) INIT) s true))) = Ok x0 /\ fit (sv_data s) (sv_info s) (sv_first s) (sv_other s) (sv_status s) p0 x0).
  { unfold p0. destruct by_the_end; eexists; (split; [reflexivity|]); repeat split; cbn; auto; lia. }
  destruct K as (x0 & -> & F). exists x0. destruct (zdo_all_ok fuel _ _ _ _ l Hf Hi Hi2 Al _ _ _ F) as (x1 & p1 & -> & F1). pose proof F1 as (L1 & D1 & _ & _ & _ & S1 & _). destruct (t_end fuel 0 x1 Hf L1) as (d & Et). exists x1, (Bo (next_master x1) (sl x1) false).
  unfold zclose. rewrite Et. repeat split; auto.
Qed.
Print Assumptions C47_remote.

(** the slice header the slave has is the one the client gets (get_slice_info), for archives of format 8 and more *)
Theorem C47_slice_info : forall fuel s h b x pause, 2 <= fuel ->
  sh_magic h = SAUV_MAGIC -> length (sh_name h) = 10 -> length (sh_data h) = 10 -> label_is_cleared (sh_data h) = false -> older_sar_than_v8 (sh_sly h) = false ->
  (0 < first_slice_header (sh_sly h) < first_size (sh_sly h))%N -> (0 < other_slice_header (sh_sly h) < other_size (sh_sly h))%N ->
  sh_bytes h true true = Ok b -> (N.of_nat (length b) < 65536)%N -> sv_info s = b -> zopen fuel true s = Ok x ->
  exists d x', zdo fuel ZInfo x = Ok (ZData d, x') /\ sh_read None pause 0 d = Ok (h, []).
Proof.
  intros fuel s h b x pause Hf Hm Hn Hd Hc Ho Hfs Hos Eb Lb Es Ex. assert (Nb : b <> []) by (unfold sh_bytes in Eb; cbn [negb andb] in Eb; rewrite Ho in Eb; destruct (build_tlv h true); [|discriminate Eb]; cbn [bind] in Eb; injection Eb as <-; discriminate).
  destruct (C47_remote fuel true s [ZInfo] Hf ltac:(rewrite Es; exact Nb) ltac:(rewrite Es; exact Lb) ltac:(repeat constructor)) as (x0 & x1 & _ & E0 & E1 & _). rewrite Ex in E0. injection E0 as <-. cbn [zdo_all direct answer_to] in E1.
  destruct (zdo fuel ZInfo x) as [[u y]|] eqn:E; [|discriminate E1]. cbn [bind] in E1. injection E1 as -> _. exists (sv_info s), y. split; [reflexivity|]. rewrite Es.
  pose proof (sh_read_tlv None pause 0 h true true b [] Hm Hn Hd Ho Eb) as R. cbn zeta in R. rewrite app_nil_r in R. replace (first_size (sh_sly h) =? 0)%N with false in R by (symmetry; apply N.eqb_neq; lia). rewrite R by (intros _; lia).
  destruct h as [mg nm dt fl [fs os fh oh od]]. cbn [sh_magic sh_name sh_data sh_flag sh_sly] in *. subst mg. unfold eff_name. cbn [sh_data sh_name]. rewrite Hc. cbn [older_sar_than_v8] in Ho. subst od. reflexivity.
Qed.
Print Assumptions C47_slice_info.

(** ** an instance *)
Definition some_slave : slave := Sl [10; 11; 12; 13; 14]%N [] [] false 30 20 [1; 2; 3]%N [].
Theorem C47_instance : exists x, zopen 2 false some_slave = Ok x /\
  exists y, zdo_all 2 [ZRead 2; ZRead 0; ZTell; ZSkip 5; ZTell; ZRel (-2); ZRead 9; ZRel (-9); ZInfo; ZFirst; ZStatus [104]%N; ZEof; ZRead 1] x =
    Ok ([ZData [10; 11]; ZData []; ZPos 2; ZBool false; ZPos 5; ZBool true; ZData [13; 14]; ZBool false; ZData [1; 2; 3]; ZNum 30; ZDone; ZBool true; ZData []]%N, y) /\ sv_status (sl y) = [104]%N.
Proof. eexists. split; [vm_compute; reflexivity|]. eexists. split; vm_compute; reflexivity. Qed.
(** many more requests than numbers *)
Theorem C47_many : forall n, exists x y, zopen 2 false some_slave = Ok x /\ zdo_all 2 (repeat (ZRead 1) n) x = Ok (map (fun i => ZData (firstn 1 (skipn i (sv_data some_slave)))) (seq 0 n), y).
Proof.
  intro n. destruct (C47_remote 2 false some_slave (repeat (ZRead 1) n)) as (x & y & _ & E & E1 & _); [lia|discriminate|reflexivity|apply Forall_forall; intros o H; apply repeat_spec in H as ->; exact I|]. exists x, y. split; [exact E|]. rewrite E1. f_equal. f_equal.
  cbn [sv_data some_slave length]. clear. set (D := [10; 11; 12; 13; 14]%N). assert (G : forall n p q, (q = p \/ 5 <= p /\ 5 <= q) -> direct D (sv_info some_slave) (sv_first some_slave) (sv_other some_slave) (repeat (ZRead 1) n) p = map (fun i => ZData (firstn 1 (skipn i D))) (seq q n)); [|apply G; auto].
  intro k. induction k as [|k IH]; intros p q H; [reflexivity|]. cbn [repeat direct answer_to seq map]. f_equal.
  - destruct H as [->|[H1 H2]]; [reflexivity|]. rewrite !skipn_all2 by (cbn; lia). reflexivity.
  - apply IH. unfold D. cbn [length]. lia.
Qed.
Print Assumptions C47_many.

(** ** refuted *)
(** if the slave dies in the middle of an answer (or the master in the middle of a request), the peer loops for ever instead of reporting the end of the pipe *)
Theorem C47_cut_answer_refuted : forall fuel num max f, length f < 2 -> an_read fuel max (num :: T_DATA :: f) = Err Fuel.
Proof.
  intros fuel num max f H. unfold an_read. change (T_DATA =? T_DATA)%N with true. cbn iota. replace (fill fuel [] f) with (@Err (list N * list N) Fuel); [reflexivity|]. symmetry.
  assert (G : forall k got g, length got + length g < 2 -> fill k got g = Err Fuel).
  { intro k. induction k as [|k IH]; intros got g L; [reflexivity|]. cbn [fill]. replace (2 <=? length got) with false by lia. apply IH. rewrite app_length, firstn_length, skipn_length. lia. }
  apply G. cbn. lia.
Qed.
Print Assumptions C47_cut_answer_refuted.
(** for an archive of an older format whose first slice has another size, the slice header the slave sends cannot be read by the master *)
Theorem C47_old_slices_refuted : exists h b, sh_bytes h true true = Ok b /\ sh_read None true 0 b = Err Erange /\ (exists h', sh_read (Some 1000%N) true 0 b = Ok (h', [])).
Proof. exists (mk_sh SAUV_MAGIC (repeat 7%N 10) (repeat 9%N 10) 69 (mk_layout 1000 2000 30 20 true)). eexists. split; [vm_compute; reflexivity|]. split; [vm_compute; reflexivity|eexists; vm_compute; reflexivity]. Qed.
Print Assumptions C47_old_slices_refuted.
(** the hypotheses of [C47_slice_info] are met *)
Definition some_header : slice_header := mk_sh SAUV_MAGIC (repeat 7%N 10) (repeat 9%N 10) 69 (mk_layout 1000 2000 30 20 false).
Theorem C47_slice_info_instance : forall b, sh_bytes some_header true true = Ok b -> exists x d y, zopen 2 true (Sl [1; 2]%N [] [] false 30 20 b []) = Ok x /\ zdo 2 ZInfo x = Ok (ZData d, y) /\ sh_read None true 0 d = Ok (some_header, []).
Proof.
  intros b E. assert (L : (N.of_nat (length b) < 65536)%N) by (vm_compute in E; injection E as <-; reflexivity).
  assert (Nb : b <> []) by (vm_compute in E; injection E as <-; discriminate).
  destruct (C47_remote 2 true (Sl [1; 2]%N [] [] false 30 20 b []) [] ltac:(lia) Nb L (Forall_nil _)) as (x & _ & _ & Ex & _).
  destruct (C47_slice_info 2 (Sl [1; 2]%N [] [] false 30 20 b []) some_header b x true ltac:(lia) eq_refl eq_refl eq_refl eq_refl eq_refl ltac:(split; reflexivity) ltac:(split; reflexivity) E L eq_refl Ex) as (d & y & H). exists x, d, y. split; [exact Ex|exact H].
Qed.
Print Assumptions C47_slice_info_instance.
