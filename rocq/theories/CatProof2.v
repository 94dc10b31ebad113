(** * Proofs on the catalogue: trees *)
From Verif Require Import Base InfinintModel InfinintProof InfinintProof2 CrcModel CrcProof DatetimeModel PropDatetime HeaderModel HeaderProof2 PathModel CatModel CatSpec CatProof.
Open Scope N_scope.

Lemma ent_read_ino : forall small algo n co s f k st, sig_read (s :: f) = Some (letter_of k, st, f) ->
  ent_read small algo (S n) co (s :: f) =
    match kind_read small algo (letter_of k) st [] with
    | None => Err Erange
    | Some _ => let* '(i, f) := inode_read small st f in
                match kind_read small algo (letter_of k) st f with
                | None => Err Erange
                | Some r => let* '(k, f) := r in Ok (Some (Eino i k), co, f)
                end
    end.
Proof. intros small algo n co s f k st H. cbn [ent_read]. rewrite H. destruct k; reflexivity. Qed.

Lemma ino_rt : forall small algo i k, inode_ok small i -> kind_ok small (i_saved i) k ->
  exists s b, ino_dump small i k = Ok (s :: b) /\
    exists k', v_kind small false (i_saved i) k' = v_kind small true (i_saved i) k /\
    forall n co rest, ent_read small algo (S n) co (s :: b ++ rest) = Ok (Some (Eino (inode_back small i) k'), co, rest).
Proof.
  intros small algo i k Hi Hk. destruct (inode_rt small i (letter_of k) Hi (letter_lower k)) as (s & b1 & E1 & Rs & R1).
  destruct (kind_rt small (i_saved i) k algo Hk) as (b2 & E2 & k' & V & NN & R2).
  exists s, (b1 ++ b2). split; [unfold ino_dump; rewrite E1, bind_ok, E2; reflexivity|]. exists k'. split; [exact V|].
  intros n co rest. rewrite (ent_read_ino _ _ _ _ _ _ k (i_saved i)) by apply Rs. pose proof (NN []) as N0. destruct (kind_read small algo (letter_of k) (i_saved i) []); [|contradiction].
  rewrite <- app_assoc, R1, bind_ok, R2, bind_ok. reflexivity.
Qed.

Section Ind.
  Variable P : entry -> Prop.
  Hypothesis Hino : forall i k, P (Eino i k).
  Hypothesis Hdir : forall i ch, Forall P ch -> P (Edir i ch).
  Hypothesis Hmir : forall n a, P (Emir n a).
  Hypothesis Hdet : forall n s d, P (Edet n s d).
  Hypothesis Hign : forall n, P (Eign n).
  Hypothesis Higd : forall i, P (Eigndir i).
  Fixpoint entry_ind' (e : entry) : P e :=
    match e with
    | Eino i k => Hino i k
    | Edir i ch => Hdir i ch ((fix go (l : list entry) : Forall P l := match l with [] => Forall_nil P | x :: r => Forall_cons x (entry_ind' x) (go r) end) ch)
    | Emir n a => Hmir n a
    | Edet n s d => Hdet n s d
    | Eign n => Hign n
    | Eigndir i => Higd i
    end.
End Ind.

(** the loop of cat_directory::inherited_dump *)
Definition list_dump (small : bool) (st : stars) : list entry -> list N -> res (list N * list N) :=
  fix go (l : list entry) (done : list N) {struct l} : res (list N * list N) :=
  match l with
  | [] => Ok ([], done)
  | x :: r =>
    let* '(b1, d1) := match x with Eign _ => Ok ([], done) | _ => entry_dump small st x done end in
    let* '(b2, d2) := go r d1 in
    Ok (b1 ++ b2, d2)
  end.
Lemma list_dump_cons : forall small st x r done, list_dump small st (x :: r) done =
  let* '(b1, d1) := match x with Eign _ => Ok ([], done) | _ => entry_dump small st x done end in
  let* '(b2, d2) := list_dump small st r d1 in
  Ok (b1 ++ b2, d2).
Proof. reflexivity. Qed.
Lemma dir_dump : forall small st i ch done, entry_dump small st (Edir i ch) done =
  (let* b := inode_dump small 100 i in
   let* '(c, done) := if small then Ok ([], done) else list_dump small st ch done in
   let* z := eod_dump in Ok (b ++ c ++ z, done)).
Proof. reflexivity. Qed.

Definition same_star (s s' : star) : Prop := st_ino s' = st_ino s /\ st_kind s' = st_kind s /\ st_etiq s' = st_etiq s.
Definition ext (co co' : corres) : Prop := forall t s, lookup t co = Some s -> exists s', lookup t co' = Some s' /\ same_star s s'.
Lemma ext_refl : forall co, ext co co.
Proof. intros co t s H. exists s. unfold same_star. auto. Qed.
Lemma ext_trans : forall a b c, ext a b -> ext b c -> ext a c.
Proof.
  intros a b c H1 H2 t s H. destruct (H1 t s H) as (s1 & L1 & A1 & B1 & C1). destruct (H2 t s1 L1) as (s2 & L2 & A2 & B2 & C2).
  exists s2. split; [exact L2|]. unfold same_star. rewrite A2, B2, C2. auto.
Qed.
Lemma lookup_add_ref : forall t u co, lookup u (add_ref t co) =
  match lookup u co with None => None | Some s => Some (if t =? u then Star (st_ino s) (st_kind s) (st_etiq s) (st_refs s + 1) (st_reduceable s) else s) end.
Proof.
  intros t u co. induction co as [|[k s] co IH]; [reflexivity|]. cbn [add_ref lookup]. destruct (N.eqb_spec k t) as [->|Hkt]; cbn [lookup].
  - destruct (N.eqb_spec t u); [reflexivity|]. destruct (lookup u co); reflexivity.
  - destruct (N.eqb_spec k u) as [->|]; [|exact IH]. destruct (N.eqb_spec t u); [congruence|reflexivity].
Qed.
Lemma ext_add_ref : forall t co, ext co (add_ref t co).
Proof.
  intros t co u s H. rewrite lookup_add_ref, H. eexists. split; [reflexivity|]. unfold same_star. destruct (t =? u); cbn [st_ino st_kind st_etiq]; auto.
Qed.
Lemma ext_cons : forall t s co, lookup t co = None -> ext co ((t, s) :: co).
Proof. intros t s co H u x L. exists x. cbn [lookup]. destruct (N.eqb_spec t u) as [->|]; [congruence|]. unfold same_star. auto. Qed.

Definition star_ok (small : bool) (s s' : star) : Prop :=
  st_etiq s' = st_etiq s /\ (forall name, called name (v_head small (st_ino s')) = called name (v_head small (st_ino s))) /\
  v_kind small false (i_saved (st_ino s')) (st_kind s') = v_kind small true (i_saved (st_ino s)) (st_kind s).
Definition Inv (small : bool) (st : stars) (done : list N) (co : corres) : Prop :=
  (forall a, In a done -> exists s s', st a = Some s /\ lookup (st_etiq s) co = Some s' /\ star_ok small s s') /\
  (forall t s', lookup t co = Some s' -> exists a s, In a done /\ st a = Some s /\ st_etiq s = t).
Lemma Inv_nil : forall small st, Inv small st [] [].
Proof. intros. split; [intros a []|]. intros t s' H. discriminate. Qed.
Lemma mem_spec : forall a l, mem a l = true <-> In a l.
Proof.
  intros a l. unfold mem. rewrite existsb_exists. split.
  - intros (x & H & E). apply N.eqb_eq in E. subst. exact H.
  - intro H. exists a. split; [exact H|apply N.eqb_refl].
Qed.

(** in small mode the caller marks the shared inode once it has been written *)
Definition marks (st : stars) (e : entry) (done : list N) : list N :=
  match e with
  | Emir _ a => match st a with Some s => if is_set s then (if mem a done then done else a :: done) else done | None => done end
  | _ => done
  end.

Definition good (small : bool) (st : stars) (algo : compression) (e : entry) : Prop :=
  forall done co, entry_ok small st e -> (forall n, e <> Eign n) -> Inv small st done co ->
  exists b bs done', entry_dump small st e done = Ok (b :: bs, done') /\ exists e' co',
    (forall n rest, (2 * length (b :: bs) + 1 <= n)%nat -> ent_read small algo n co ((b :: bs) ++ rest) = Ok (Some e', co', rest)) /\
    Inv small st (if small then marks st e done else done') co' /\ ext co co' /\
    forall cof, ext co' cof -> shown small (fun t => lookup t cof) e' = expected small st e.

Lemma eod_rt : exists z, eod_dump = Ok [z] /\ forall f, sig_read (z :: f) = Some (122, Ssaved, f).
Proof. destruct (sig_rt 122 Ssaved eq_refl) as (z & E & R). exists z. split; [unfold eod_dump; rewrite E; reflexivity|exact R]. Qed.
Lemma eod_read : forall small algo n co z f, (forall f, sig_read (z :: f) = Some (122, Ssaved, f)) -> ent_read small algo (S n) co (z :: f) = Ok (None, co, f).
Proof. intros small algo n co z f H. cbn [ent_read]. rewrite H. reflexivity. Qed.

Lemma list_good : forall st algo ch, Forall (good false st algo) ch -> forall done co,
  fold_right and True (map (entry_ok false st) ch) -> Inv false st done co ->
  exists bs done', list_dump false st ch done = Ok (bs, done') /\ exists l' co',
    (forall n z rest, (forall f, sig_read (z :: f) = Some (122, Ssaved, f)) -> (2 * (length bs + 1) + 2 <= n)%nat ->
       list_read false algo n co (bs ++ z :: rest) = Ok (l', co', rest)) /\
    Inv false st done' co' /\ ext co co' /\
    forall cof, ext co' cof -> concat (map (shown false (fun t => lookup t cof)) l') = concat (map (expected false st) ch).
Proof.
  intros st algo ch H. induction H as [|x ch Hx H IH]; intros done co Hok HI.
  - exists [], done. split; [reflexivity|]. exists [], co. split; [|split; [exact HI|split; [apply ext_refl|reflexivity]]].
    intros n z rest Hz Hn. destruct n as [|[|n]]; cbn [length] in Hn; try lia. cbn [list_read app]. rewrite eod_read by exact Hz. reflexivity.
  - cbn [map fold_right] in Hok. destruct Hok as [Hok1 Hok2].
    assert (C : (exists nm, x = Eign nm) \/ forall nm, x <> Eign nm) by (destruct x; try (right; intro; discriminate); left; eauto).
    destruct C as [(nm & ->)|NE].
    + destruct (IH done co Hok2 HI) as (bs & done' & E & l' & co' & R & I' & X & S). exists bs, done'. split; [rewrite list_dump_cons; rewrite bind_ok, E; reflexivity|].
      exists l', co'. cbn [map expected concat app]. auto.
    + destruct (Hx done co Hok1 NE HI) as (b & bs1 & d1 & E1 & e' & co1 & R1 & I1 & X1 & S1). cbn match in I1.
      destruct (IH d1 co1 Hok2 I1) as (bs2 & d2 & E2 & l' & co2 & R2 & I2 & X2 & S2).
      exists ((b :: bs1) ++ bs2), d2. split.
      { rewrite list_dump_cons. replace (match x with Eign _ => Ok ([], done) | _ => entry_dump false st x done end) with (entry_dump false st x done)
          by (destruct x; try reflexivity; exfalso; eapply NE; reflexivity). rewrite E1, bind_ok, E2. reflexivity. }
      exists (e' :: l'), co2. split.
      { intros n z rest Hz Hn. rewrite app_length in Hn. destruct n as [|n]; [lia|]. cbn [list_read]. rewrite <- app_assoc. rewrite R1 by lia. rewrite bind_ok.
        rewrite R2 by (auto; cbn [length] in Hn; lia). reflexivity. }
      split; [exact I2|]. split; [eapply ext_trans; eauto|]. intros cof Hc. cbn [map concat]. rewrite S1 by (eapply ext_trans; eauto). rewrite S2 by auto. reflexivity.
Qed.

Lemma ext_shown_link : forall small cof s s' name t, lookup t cof = Some s' -> star_ok small s s' -> st_etiq s = t -> is_set s = true ->
  v_link small false true (fun t => lookup t cof) name t = v_link small true false (fun _ => Some s) name 0.
Proof.
  intros small cof s s' name t L (A & B & C) Et Hs. unfold v_link. rewrite L. cbn [orb]. rewrite Hs, A, B, C. reflexivity.
Qed.
Lemma star_ok_same : forall small s s' s'', star_ok small s s' -> same_star s' s'' -> star_ok small s s''.
Proof. intros small s s' s'' (A & B & C) (D & E & F). unfold star_ok. rewrite D, E, F. auto. Qed.

Lemma all_good : forall small st algo, distinct_sets st -> forall e, good small st algo e.
Proof.
  intros small st algo HD. apply entry_ind'.
  - (* inode *) intros i k done co (Hi & Hk) _ HI. destruct (ino_rt small algo i k Hi Hk) as (s & b & E & k' & V & R).
    exists s, b, done. split; [cbn [entry_dump]; rewrite E; reflexivity|]. exists (Eino (inode_back small i) k'), co.
    split; [intros n rest Hn; destruct n; [lia|]; apply R|]. split; [destruct small; exact HI|]. split; [apply ext_refl|].
    intros cof _. cbn [shown expected]. rewrite back_head. cbn [inode_back i_saved]. rewrite V. reflexivity.
  - (* directory *) intros i ch IH done co (Hi & Hch) _ HI. destruct (inode_rt small i 100 Hi eq_refl) as (s & b & E & Rs & R).
    destruct eod_rt as (z & Ez & Rz).
    assert (L : exists bs done', (if small then Ok ([], done) else list_dump small st ch done) = Ok (bs, done') /\ exists l' co',
      (forall n rest, (2 * (length bs + 1) + 2 <= n)%nat -> list_read small algo n co (bs ++ z :: rest) = Ok (l', co', rest)) /\
      Inv small st (if small then done else done') co' /\ ext co co' /\
      forall cof, ext co' cof -> concat (map (shown small (fun t => lookup t cof)) l') = if small then [] else concat (map (expected small st) ch)).
    { destruct small.
      - exists [], done. split; [reflexivity|]. exists [], co. split; [|split; [exact HI|split; [apply ext_refl|reflexivity]]].
        intros n rest Hn. destruct n as [|[|n]]; cbn [length] in Hn; try lia. cbn [list_read app]. rewrite eod_read by exact Rz. reflexivity.
      - destruct (list_good st algo ch IH done co (Hch eq_refl) HI) as (bs & d' & E1 & l' & co' & R1 & I1 & X1 & S1).
        exists bs, d'. split; [exact E1|]. exists l', co'. auto. }
    destruct L as (bs & d' & E1 & l' & co' & R1 & I1 & X1 & S1).
    exists s, (b ++ bs ++ [z]), d'. split; [rewrite dir_dump, E, bind_ok, E1, bind_ok, Ez; reflexivity|].
    exists (Edir (inode_back small i) l'), co'. split.
    { intros n rest Hn. destruct n as [|n]; [lia|]. cbn [ent_read app]. rewrite Rs. cbn [N.eqb Pos.eqb]. rewrite <- !app_assoc. cbn [app].
      rewrite R, bind_ok. rewrite R1 by (cbn [length] in Hn; rewrite !app_length in Hn; cbn [length] in Hn; lia). reflexivity. }
    split; [cbn [marks]; exact I1|]. split; [exact X1|]. intros cof Hc. cbn [shown expected]. rewrite back_head, S1 by auto. reflexivity.
  - (* hard link *) intros name a done co (Hn & s & Es & Hi & Hk) _ HI. cbn [entry_dump marks]. unfold mir_dump. rewrite Es. cbn [opt_bug]. rewrite bind_ok.
    change ((1 <? st_refs s) || negb (st_reduceable s)) with (is_set s). destruct (is_set s) eqn:HS.
    + destruct (sig_rt 109 Ssaved eq_refl) as (m & Em & Rm). unfold nomme_dump. rewrite Em, !bind_ok.
      destruct (mem a done) eqn:M; cbn [negb].
      * apply mem_spec in M. destruct (proj1 HI a M) as (s0 & s' & Es0 & L & SO). rewrite Es in Es0. injection Es0 as <-.
        eexists m, _, done. split; [cbn [app]; reflexivity|]. exists (Emir name (st_etiq s)), (add_ref (st_etiq s) co). split; [|split; [|split]].
        -- intros n rest Hl. destruct n as [|n]; [lia|]. cbn [ent_read app]. rewrite Rm. cbn [N.eqb Pos.eqb]. rewrite <- !app_assoc.
           rewrite read_string_app by exact Hn. rewrite bind_ok, readN_dumpN, bind_ok. unfold byte_get. cbn [app read1]. rewrite bind_ok. cbn [N.eqb Pos.eqb].
           unfold mir_alone. rewrite L. reflexivity.
        -- assert (I' : Inv small st done (add_ref (st_etiq s) co)).
           { split.
             - intros a' Ha. destruct (proj1 HI a' Ha) as (s1 & s1' & E1 & L1 & O1). exists s1. rewrite lookup_add_ref, L1. eexists. split; [exact E1|]. split; [reflexivity|].
               eapply star_ok_same; [exact O1|]. destruct (st_etiq s =? st_etiq s1); unfold same_star; auto.
             - intros t x Hx. rewrite lookup_add_ref in Hx. destruct (lookup t co) as [y|] eqn:Ly; [|discriminate]. exact (proj2 HI t y Ly). }
           destruct small; exact I'.
        -- apply ext_add_ref.
        -- intros cof Hc. cbn [shown expected]. f_equal. destruct (ext_add_ref (st_etiq s) co _ _ L) as (s1 & L1 & SS1).
           destruct (Hc _ _ L1) as (s2 & L2 & SS2). unfold v_link at 2. rewrite Es. cbn [orb]. rewrite HS.
           pose proof (ext_shown_link small cof s s2 name (st_etiq s) L2 (star_ok_same _ _ _ _ (star_ok_same _ _ _ _ SO SS1) SS2) eq_refl HS) as Q.
           rewrite Q. unfold v_link. cbn [orb]. rewrite HS. reflexivity.
      * destruct (ino_rt small algo (st_ino s) (st_kind s) Hi Hk) as (s1 & b & E & k' & V & R). rewrite E, bind_ok.
        assert (LN : lookup (st_etiq s) co = None).
        { destruct (lookup (st_etiq s) co) as [x|] eqn:Lx; [|reflexivity]. destruct (proj2 HI _ _ Lx) as (a' & s' & Ia & Ea & Ee).
          assert (a' = a) by (eapply HD; eauto). subst a'. apply mem_spec in Ia. congruence. }
        set (s' := Star (inode_back small (st_ino s)) k' (st_etiq s) 1 true).
        assert (SO : star_ok small s s').
        { unfold star_ok, s'. cbn [st_etiq st_ino st_kind]. split; [reflexivity|]. split; [intro; rewrite back_head; reflexivity|]. cbn [inode_back i_saved]. exact V. }
        assert (I' : Inv small st (a :: done) ((st_etiq s, s') :: co)).
        { split.
          - intros a' [<-|Ha].
            + exists s, s'. cbn [lookup]. rewrite N.eqb_refl. auto.
            + destruct (proj1 HI a' Ha) as (s2 & s2' & E2 & L2 & O2). exists s2, s2'. split; [exact E2|]. split; [|exact O2]. cbn [lookup].
              destruct (N.eqb_spec (st_etiq s) (st_etiq s2)) as [Q|]; [congruence|exact L2].
          - intros t x Hx. cbn [lookup] in Hx. destruct (N.eqb_spec (st_etiq s) t) as [Q|].
            + exists a, s. split; [left; reflexivity|auto].
            + destruct (proj2 HI t x Hx) as (a' & s2 & A & B & C). exists a', s2. split; [right; exact A|auto]. }
        eexists m, _, (if small then done else a :: done). split; [cbn [app]; reflexivity|]. exists (Emir name (st_etiq s)), ((st_etiq s, s') :: co). split; [|split; [|split]].
        -- intros n rest Hl. destruct n as [|n]; [lia|]. cbn [ent_read app]. rewrite Rm. cbn [N.eqb Pos.eqb]. rewrite <- !app_assoc.
           rewrite read_string_app by exact Hn. rewrite bind_ok, readN_dumpN, bind_ok. unfold byte_get. cbn [app read1]. rewrite bind_ok. cbn [N.eqb Pos.eqb].
           destruct n as [|n]; [cbn [length] in Hl; rewrite !app_length in Hl; cbn [length] in Hl; lia|]. rewrite R, bind_ok. unfold mir_with. rewrite LN. reflexivity.
        -- destruct small; exact I'.
        -- apply ext_cons. exact LN.
        -- intros cof Hc. cbn [shown expected]. f_equal. destruct (Hc (st_etiq s) s') as (s2 & L2 & SS2); [cbn [lookup]; rewrite N.eqb_refl; reflexivity|].
           unfold v_link at 2. rewrite Es. cbn [orb]. rewrite HS.
           pose proof (ext_shown_link small cof s s2 name (st_etiq s) L2 (star_ok_same _ _ _ _ SO SS2) eq_refl HS) as Q.
           rewrite Q. unfold v_link. cbn [orb]. rewrite HS. reflexivity.
    + assert (Hi' : inode_ok small (set_name name (st_ino s))) by (unfold inode_ok in *; cbn; tauto).
      destruct (ino_rt small algo (set_name name (st_ino s)) (st_kind s) Hi' Hk) as (s1 & b & E & k' & V & R). rewrite E, bind_ok.
      exists s1, b, done. split; [reflexivity|]. eexists (Eino (inode_back small (set_name name (st_ino s))) k'), co. split; [intros n rest Hl; destruct n; [lia|]; apply R|].
      split; [destruct small; exact HI|]. split; [apply ext_refl|]. intros cof _. cbn [shown expected]. unfold v_link. rewrite Es. cbn [orb]. rewrite HS.
      rewrite back_head. cbn [inode_back i_saved] in *. rewrite V. reflexivity.
  - (* deleted entry *) intros name sg d done co (Hn & Hd) _ HI. cbn [entry_dump marks]. unfold det_dump, nomme_dump. destruct (sig_rt 120 Ssaved eq_refl) as (m & Em & Rm). destruct (dt_rt d Hd) as (bd & Ed & Rd).
    rewrite Em, bind_ok, bind_ok, Ed, !bind_ok. eexists m, _, done. split; [cbn [app]; reflexivity|]. exists (Edet name sg d), co. split; [|split; [destruct small; exact HI|split; [apply ext_refl|reflexivity]]].
    intros n rest Hl. destruct n as [|n]; [lia|]. cbn [ent_read app]. rewrite Rm. cbn [N.eqb Pos.eqb]. rewrite <- !app_assoc. rewrite read_string_app by exact Hn.
    rewrite bind_ok. cbn [app read1]. rewrite bind_ok, Rd, bind_ok. reflexivity.
  - (* ignored entry *) intros n done co _ NE _. exfalso. eapply NE. reflexivity.
  - (* ignored directory *) intros i done co Hi _ HI. cbn [entry_ok] in Hi. assert (Hi' : inode_ok small (ignored_as_dir i)) by (unfold inode_ok, ignored_as_dir; cbn [i_name i_perm i_atime i_mtime i_ctime i_ea i_fsa]; destruct Hi as (H1 & H2 & H3 & H4 & H5); repeat (split; [assumption|]); repeat split; congruence). clear Hi. rename Hi' into Hi. destruct (inode_rt small (ignored_as_dir i) 100 Hi eq_refl) as (s & b & E & Rs & R).
    destruct eod_rt as (z & Ez & Rz). exists s, (b ++ [z]), done. split; [cbn [entry_dump]; rewrite E, bind_ok, Ez; reflexivity|].
    exists (Edir (inode_back small (ignored_as_dir i)) []), co. split; [|split; [destruct small; exact HI|split; [apply ext_refl|]]].
    + intros n rest Hn. destruct n as [|n]; [lia|]. cbn [ent_read app]. rewrite Rs. cbn [N.eqb Pos.eqb]. rewrite <- !app_assoc. cbn [app].
      change (i_saved (ignored_as_dir i)) with (i_saved (ignored_as_dir i)) in R. rewrite R, bind_ok.
      destruct n as [|[|n]]; try (cbn [length] in Hn; rewrite ?app_length in Hn; cbn [length] in Hn; lia). cbn [list_read]. rewrite eod_read by exact Rz. reflexivity.
    + intros cof _. cbn [shown expected map concat]. rewrite back_head. reflexivity.
Qed.
