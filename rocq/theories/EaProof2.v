(** * EaProof2: storing lists of extended attributes *)
From Coq Require Import List Sorted.
From Verif Require Import Base InfinintModel InfinintProof2 HeaderModel HeaderProof2 HeaderProof3 ReadStable CatProof EaModel EaSpec EaProof.
Open Scope N_scope.

(** tools_read_string_size either gives the bytes asked for or, when there are not enough of them, never returns *)
Lemma rss_all : forall fuel n f, (length f + 2 <= fuel)%nat -> read_string_size fuel n f =
  if n <=? N.of_nat (length f) then Ok (firstn (N.to_nat n) f, skipn (N.to_nat n) f) else Err Fuel.
Proof.
  intros fuel n f L. destruct (N.leb_spec n (N.of_nat (length f))) as [H|H].
  - rewrite <- (firstn_skipn (N.to_nat n) f) at 1. set (a := firstn (N.to_nat n) f).
    assert (La : length a = N.to_nat n) by (unfold a; rewrite firstn_length; lia).
    replace n with (N.of_nat (length a)) at 1 by lia. rewrite read_string_size_app by lia. reflexivity.
  - unfold read_string_size. apply rss_short; lia.
Qed.
Lemma rss_never : forall fuel n f, N.of_nat (length f) < n -> read_string_size fuel n f = Err Fuel.
Proof. intros fuel n f L. unfold read_string_size. apply rss_short; lia. Qed.
Lemma framed_value : forall n, framed (fun f => read_string_size (S (S (length f))) n f).
Proof.
  intros n f v r H. rewrite rss_all in H by lia. destruct (N.leb_spec n (N.of_nat (length f))) as [L|L]; [|discriminate]. injection H as <- <-.
  exists (firstn (N.to_nat n) f). rewrite firstn_skipn. split; [reflexivity|]. intro q. rewrite rss_all by lia. rewrite app_length, firstn_length.
  destruct (N.leb_spec n (N.of_nat (Nat.min (N.to_nat n) (length f) + length q))); [|lia].
  rewrite firstn_app_exact_n, skipn_app_exact_n by (rewrite firstn_length; lia). reflexivity.
Qed.
Lemma framed_pair : forall ver, framed (read_pair ver).
Proof.
  intro ver. unfold read_pair. apply framed_bind.
  - destruct (ver <? 5); [|apply framed_ret]. intros [|fl f] x r H; [discriminate|]. injection H as <- <-. exists [fl]. split; reflexivity.
  - intro pre. apply framed_bind; [apply framed_read_string|]. intro key. apply framed_bind; [apply framed_readN|]. intro len.
    apply framed_bind; [apply framed_value|]. intro v. apply framed_ret.
Qed.
Lemma framed_pairs : forall fuel ver t t2 m, framed (pairs fuel ver t t2 m).
Proof.
  induction fuel as [|fuel IH]; intros ver t t2 m; [apply framed_err|]. cbn [pairs]. destruct (0 <? t2).
  - apply (framed_bind _ _ (read_pair ver) (fun x f => let '(k, v) := x in pairs fuel ver t (t2 - 1) (put k v m) f)); [apply framed_pair|]. intros [k v]. apply IH.
  - destruct (0 <? N.min t (2 ^ 32 - 1)); [apply IH|apply framed_ret].
Qed.
Lemma pairs_more : forall fuel fuel' ver t t2 m f x, (fuel <= fuel')%nat -> pairs fuel ver t t2 m f = Ok x -> pairs fuel' ver t t2 m f = Ok x.
Proof.
  induction fuel as [|fuel IH]; intros fuel' ver t t2 m f x L H; [discriminate|]. destruct fuel' as [|fuel']; [lia|]. cbn [pairs] in *. destruct (0 <? t2).
  - apply bind_ok_inv in H as ([[k v] f1] & E & H). rewrite E. cbn [bind]. apply IH; [lia|exact H].
  - destruct (0 <? N.min t (2 ^ 32 - 1)); [apply IH; [lia|exact H]|exact H].
Qed.
Lemma framed_construct : forall ver, framed (construct ver).
Proof.
  intros ver f o r H. unfold construct in H. apply bind_ok_inv in H as ([t f1] & E & H). destruct (framed_readN _ _ _ E) as (p & -> & P). cbv zeta in H.
  apply bind_ok_inv in H as ([m f2] & E2 & H). injection H as <- <-. destruct (framed_pairs _ _ _ _ _ _ _ _ E2) as (p2 & -> & P2).
  exists (p ++ p2). split; [apply app_assoc|]. intro q. unfold construct. rewrite <- app_assoc, P. cbn [bind]. cbv zeta.
  (* the fuel depends on the length of what follows *)
  assert (G : exists fuel, pairs fuel ver (t - N.min t (2 ^ 32 - 1)) (N.min t (2 ^ 32 - 1)) [] (p2 ++ q) = Ok (m, q)) by (eexists; apply P2).
  destruct G as (fuel & G).
  assert (Q : pairs (2 * length (p2 ++ q) + 4) ver (t - N.min t (2 ^ 32 - 1)) (N.min t (2 ^ 32 - 1)) [] (p2 ++ q) = Ok (m, q)).
  2: { rewrite Q. reflexivity. }
  revert G. generalize (t - N.min t (2 ^ 32 - 1)) as a. generalize (N.min t (2 ^ 32 - 1)) as b. generalize (@nil (str * str)) as c. generalize (p2 ++ q) as g. clear.
  assert (K : forall fu g c b a, pairs fu ver a b c g = Ok (m, q) -> pairs (2 * length g + 4 - (if b =? 0 then 0 else 1)) ver a b c g = Ok (m, q)).
  { induction fu as [|fu IH]; intros g c b a H; cbn [pairs] in H; [discriminate|].
    destruct (N.ltb_spec 0 b) as [Lb|Lb].
    - apply bind_ok_inv in H as ([[k v] g1] & E & H). destruct (N.eqb_spec b 0); [lia|].
      destruct (framed_pair _ _ _ _ E) as (p & -> & _). 
      assert (Lp : (length g1 < length (p ++ g1))%nat).
      { unfold read_pair in E. apply bind_ok_inv in E as ([pre h1] & E1 & E). apply bind_ok_inv in E as ([key h2] & E2 & E). apply bind_ok_inv in E as ([len h3] & E3 & E).
        apply bind_ok_inv in E as ([w h4] & E4 & E). injection E as _ _ ->.
        assert (L1 : (length h1 <= length (p ++ g1))%nat).
        { destruct (ver <? 5); [destruct (p ++ g1) as [|x l]; [discriminate|]; injection E1 as _ <-; cbn; lia|injection E1 as _ <-; lia]. }
        destruct (read_string_suffix _ _ _ E2) as (e2 & -> & Ne). destruct (framed_readN _ _ _ E3) as (e3 & -> & _). destruct (framed_value _ _ _ _ E4) as (e4 & -> & _).
        rewrite !app_length in L1. destruct e2; [congruence|]. rewrite app_length. cbn [length] in L1. lia. }
      replace (2 * length (p ++ g1) + 4 - 1)%nat with (S (2 * length (p ++ g1) + 2)) by lia. cbn [pairs]. destruct (N.ltb_spec 0 b); [|lia]. rewrite E. cbn [bind].
      apply IH in H. eapply pairs_more; [|exact H]. destruct (b - 1 =? 0); lia.
    - replace (b =? 0) with true by (symmetry; apply N.eqb_eq; lia). replace (2 * length g + 4 - 0)%nat with (S (2 * length g + 4 - 1)) by lia. cbn [pairs].
      destruct (N.ltb_spec 0 b); [lia|]. destruct (N.ltb_spec 0 (N.min a (2 ^ 32 - 1))) as [La|La]; [|exact H].
      apply IH in H. destruct (N.eqb_spec (N.min a (2 ^ 32 - 1)) 0); [lia|exact H]. }
  intros g c b a G. apply K in G. eapply pairs_more; [|exact G]. destruct (b =? 0); lia.
Qed.

(** ** what is written is read *)
Definition nulfree (s : str) : Prop := Forall (fun c => c <> 0) s.
Definition rec_bytes (ver : N) (p : N * str * str) : list N := let '(fl, n, v) := p in (if ver <? 5 then [fl] else []) ++ write_string n ++ dumpN (N.of_nat (length v)) ++ v.
Definition rec_key (ver : N) (fl : N) (n : str) : str := (if ver <? 5 then if negb (N.land fl 128 =? 0) then system_ else user_ else []) ++ n.
Lemma read_pair_ok : forall ver fl n v rest, nulfree n -> read_pair ver (rec_bytes ver (fl, n, v) ++ rest) = Ok (rec_key ver fl n, v, rest).
Proof.
  intros ver fl n v rest H. unfold read_pair, rec_bytes, rec_key. destruct (ver <? 5); cbn [app bind].
  - rewrite <- !app_assoc. rewrite read_string_app by exact H. cbn [bind]. rewrite readN_dumpN. cbn [bind]. rewrite read_string_size_app by (rewrite app_length; lia). reflexivity.
  - rewrite <- !app_assoc. rewrite read_string_app by exact H. cbn [bind]. rewrite readN_dumpN. cbn [bind]. rewrite read_string_size_app by (rewrite app_length; lia). reflexivity.
Qed.
Lemma pairs_ok : forall ver (l : list (N * str * str)) t t2 m rest fuel, Forall (fun '(_, n, _) => nulfree n) l -> t + t2 = N.of_nat (length l) ->
  (2 * length l + (if (t2 =? 0)%N then 2 else 1) <= fuel)%nat ->
  pairs fuel ver t t2 m (concat (map (rec_bytes ver) l) ++ rest) = Ok (fold_left (fun m '(fl, n, v) => put (rec_key ver fl n) v m) l m, rest).
Proof.
  intros ver l. induction l as [|[[fl n] v] l IH]; intros t t2 m rest fuel F E L.
  - cbn in E. assert (t = 0) by lia. assert (t2 = 0) by lia. subst. destruct fuel as [|fuel]; [cbn in L; lia|]. reflexivity.
  - inversion F as [|? ? F1 F2]; subst.
    assert (Pos : forall t t2 fuel, t + t2 = N.of_nat (length ((fl, n, v) :: l)) -> 0 < t2 -> (2 * length ((fl, n, v) :: l) + 1 <= fuel)%nat ->
      pairs fuel ver t t2 m (concat (map (rec_bytes ver) ((fl, n, v) :: l)) ++ rest) = Ok (fold_left (fun m '(fl, n, v) => put (rec_key ver fl n) v m) ((fl, n, v) :: l) m, rest)).
    { clear t t2 fuel E L. intros t t2 fuel E P L. destruct fuel as [|fuel]; [lia|]. cbn [pairs]. destruct (N.ltb_spec 0 t2); [|lia].
      cbn [map concat]. rewrite <- app_assoc, read_pair_ok by exact F1. cbn [bind fold_left]. apply IH; [exact F2|cbn [length] in E; lia|].
      cbn [length] in L. destruct (t2 - 1 =? 0); lia. }
    destruct (N.ltb_spec 0 t2) as [P|P].
    + apply Pos; [exact E|exact P|]. destruct (t2 =? 0); lia.
    + assert (t2 = 0) by lia. subst t2. cbn [N.eqb] in L. destruct fuel as [|fuel]; [lia|]. cbn [pairs N.ltb N.compare].
      cbn [length] in E, L. destruct (N.ltb_spec 0 (N.min t (2 ^ 32 - 1))); [|lia]. apply Pos; cbn [length]; lia.
Qed.
Lemma recs_length : forall ver l, (length l <= length (concat (map (rec_bytes ver) l)))%nat.
Proof.
  intros ver l. induction l as [|[[fl n] v] l IH]; cbn [map concat length]; [lia|]. rewrite app_length. unfold rec_bytes at 1, write_string. rewrite !app_length. cbn [length]. lia.
Qed.
Lemma construct_ok : forall ver l rest, Forall (fun '(_, n, _) => nulfree n) l ->
  construct ver (dumpN (N.of_nat (length l)) ++ concat (map (rec_bytes ver) l) ++ rest) =
  Ok (reset_read {| attr := fold_left (fun m '(fl, n, v) => put (rec_key ver fl n) v m) l []; alire := None |}, rest).
Proof.
  intros ver l rest F. unfold construct. rewrite readN_dumpN. cbn [bind]. cbv zeta.
  assert (Q : forall fuel, (2 * length l + 2 <= fuel)%nat -> pairs fuel ver (N.of_nat (length l) - N.min (N.of_nat (length l)) (2 ^ 32 - 1)) (N.min (N.of_nat (length l)) (2 ^ 32 - 1)) [] (concat (map (rec_bytes ver) l) ++ rest)
    = Ok (fold_left (fun m '(fl, n, v) => put (rec_key ver fl n) v m) l [], rest)).
  { intros fuel L. apply pairs_ok; [exact F|lia|]. destruct (_ =? 0); lia. }
  rewrite Q; [reflexivity|]. pose proof (recs_length ver l). rewrite app_length. lia.
Qed.
Lemma fold_rebuild : forall l m, (forall p, In p m -> Forall (fun q => klt p q) l) -> sorted m -> sorted l ->
  fold_left (fun m p => put (fst p) (snd p) m) l m = m ++ l.
Proof.
  induction l as [|[k v] l IH]; intros m H S S'; cbn [fold_left fst snd]; [symmetry; apply app_nil_r|]. inversion S' as [|? ? S1 F]; subst.
  assert (P : put k v m = m ++ [(k, v)]).
  { clear IH. induction m as [|[x w] m IHm]; [reflexivity|]. cbn [put]. assert (Q : str_lt x k = true) by (specialize (H (x, w) (or_introl eq_refl)); inversion H; assumption).
    rewrite Q. cbn [app]. f_equal. apply IHm; [|inversion S; assumption]. intros p Hp. apply H. right. exact Hp. }
  rewrite P, IH.
  - rewrite <- app_assoc. reflexivity.
  - intros p Hp. apply in_app_or in Hp as [Hp|[<-|[]]]; [|exact F]. specialize (H p Hp). inversion H; assumption.
  - rewrite <- P. apply put_sorted, S.
  - exact S1.
Qed.
