(** * C38: a database survives being written and read. *)
From Verif Require Import Base ReadStable InfinintModel DatetimeModel CrcModel HeaderModel DbModel DbMap DbFileModel DbFileSpec DbFileProof DbFileProof2.
From Verif Require PropDatetime.
Open Scope N_scope.

Definition directory (t : tree) : Prop := exists n m c l, t = Tree n m c (Some l).

Lemma save_eq : forall wrap salt over old db b t, d_files db = Some t \/ d_raw db <> None -> old = None \/ over = true -> body_dump db = put b ->
  db_save wrap salt over old db = (Some (head_write (set_salt salt (d_head db)) ++ wrap (set_salt salt (d_head db)) b), Ok tt).
Proof.
  intros wrap salt over old db b t Hf Ho Hb. unfold db_save. rewrite Hb. cbn [put]. cbn zeta.
  destruct (d_files db) eqn:F; [|destruct (d_raw db) eqn:R; [|destruct Hf; congruence]]; destruct old as [o|], over; try reflexivity; destruct Ho; discriminate.
Qed.

(** Writing a database then reading the file gives the same archives in the same order, options, path of dar and history of files, whatever
    the cipher and compression. *)
Theorem C38_roundtrip : forall wrap unwrap salt over old db t ro, transparent wrap unwrap -> db_ok db -> d_files db = Some t -> tree_ok t -> directory t ->
  old = None \/ over = true ->
  exists f, db_save wrap salt over old db = (Some f, Ok tt) /\
    db_open unwrap false ro f = Ok (DB (same_head salt (d_head db)) (d_coord db) (d_opts db) (d_dar db) (Some (same_files t)) None).
Proof.
  intros wrap unwrap salt over old db t ro T D F Ht (n & m & c & l & ->) Ho. destruct (front_rt db D) as (b & Eb & Rb).
  destruct (all_good _ Ht) as (tb & Et & Lt & Rt). rewrite F, Et in Eb. cbn [lift] in Eb. specialize (Eb tb eq_refl).
  eexists. split; [eapply save_eq; eauto|]. unfold db_open. destruct D as (Dh & _). rewrite head_rt, bind_ok, T, bind_ok by exact Dh.
  rewrite Rb by (destruct (d_head db) as [v al lv []]; apply Dh). cbn [negb]. specialize (Rt (tree_fuel tb) [] ltac:(unfold tree_fuel; lia)). rewrite app_nil_r in Rt. rewrite Rt, bind_ok. reflexivity.
Qed.

(** A file opened in partial mode shows the same archives, options and path. Whatever is changed there, what is then written carries the history of files of
    the file first read. *)
Theorem C38_partial : forall wrap unwrap f full part, transparent wrap unwrap -> h_ver (d_head full) = 7 ->
  db_open unwrap false false f = Ok full -> db_open unwrap true false f = Ok part ->
  d_head part = d_head full /\ d_coord part = d_coord full /\ d_opts part = d_opts full /\ d_dar part = d_dar full /\
  forall salt over old db ro, db_ok db -> d_files db = d_files part -> d_raw db = d_raw part -> old = None \/ over = true ->
  exists g, db_save wrap salt over old db = (Some g, Ok tt) /\
    db_open unwrap false ro g = Ok (DB (same_head salt (d_head db)) (d_coord db) (d_opts db) (d_dar db) (d_files full) None).
Proof.
  intros wrap unwrap f full part T V Hf Hp. unfold db_open in Hf, Hp. apply bind_ok_inv in Hf as ([h f1] & E1 & Hf). rewrite E1, bind_ok in Hp.
  apply bind_ok_inv in Hf as (b & E2 & Hf). rewrite E2, bind_ok in Hp. unfold body_read in Hf, Hp. cbn zeta in Hf, Hp.
  apply bind_ok_inv in Hf as ([k f2] & E3 & Hf). rewrite E3, bind_ok in Hp. apply bind_ok_inv in Hf as ([co f3] & E4 & Hf). rewrite E4, bind_ok in Hp.
  destruct co as [|a0 co]; [discriminate|]. apply bind_ok_inv in Hf as ([opts f4] & E5 & Hf). rewrite E5, bind_ok in Hp. apply bind_ok_inv in Hf as ([dar f5] & E6 & Hf). rewrite E6, bind_ok in Hp.
  replace (if h_ver h <? DB_VERSION then false else false) with false in Hf by (destruct (h_ver h <? DB_VERSION); reflexivity). cbn [negb] in Hf. apply bind_ok_inv in Hf as ([t f6] & E7 & Hf).
  destruct t as [[n m c [l|]]|]; [|discriminate|discriminate]. injection Hf as <-. cbn [d_head d_coord d_opts d_dar d_files] in *. rewrite V in Hp. change (7 <? DB_VERSION) with false in Hp. cbn [negb] in Hp. injection Hp as <-.
  cbn [d_head d_coord d_opts d_dar d_files d_raw]. repeat split. intros salt over old db ro D Fn Rn Ho. destruct (front_rt db D) as (pb & Eb & Rb). rewrite Fn, Rn in Eb. specialize (Eb f5 eq_refl).
  eexists. split; [eapply save_eq; [right; rewrite Rn; discriminate|exact Ho|exact Eb]|]. unfold db_open. destruct D as (Dh & _). rewrite head_rt, bind_ok, T, bind_ok by exact Dh.
  rewrite Rb by (destruct (d_head db) as [v al lv []]; apply Dh). cbn [negb]. rewrite V in E7. rewrite E7, bind_ok. reflexivity.
  Unshelve. all: exact (Tree [] [] [] None).
Qed.

(** A database opened partially and for reading only is never written: the file stays as it was. *)
Theorem C38_read_only : forall wrap unwrap f db, db_open unwrap true true f = Ok db -> h_ver (d_head db) = 7 ->
  forall salt over old, db_save wrap salt over old db = (old, Err Erange).
Proof.
  intros wrap unwrap f db H V salt over old. unfold db_open in H. apply bind_ok_inv in H as ([h f1] & _ & H). apply bind_ok_inv in H as (b & _ & H). unfold body_read in H. cbn zeta in H.
  apply bind_ok_inv in H as ([k f2] & _ & H). apply bind_ok_inv in H as ([co f3] & _ & H). destruct co as [|a0 co]; [discriminate|]. apply bind_ok_inv in H as ([o f4] & _ & H).
  apply bind_ok_inv in H as ([d f5] & _ & H). destruct (h_ver h <? DB_VERSION) eqn:L; cbn [negb] in H; [|injection H as <-; reflexivity].
  apply bind_ok_inv in H as ([t f6] & _ & H). destruct t as [[n m c [l|]]|]; [|discriminate|discriminate]. injection H as <-. cbn [d_head] in V. rewrite V in L. discriminate L.
Qed.

(** Without permission to overwrite an existing file is left as it is. *)
Theorem C38_no_overwrite : forall wrap salt f db, db_save wrap salt false (Some f) db = (Some f, Err Erange).
Proof. intros. unfold db_save. destruct (d_files db), (d_raw db); reflexivity. Qed.

(** Credentials of archives never reach a database that is not ciphered: what is written does not depend on them, and the save is refused. *)
Lemma seqw_inv : forall a b, snd (seqw a b) = Ok tt -> snd a = Ok tt /\ snd b = Ok tt.
Proof. intros [x [[]|e]] b H; [split; [reflexivity|exact H]|discriminate H]. Qed.
Lemma coords_clear : forall l, snd (coords_dump true l) = Ok tt -> Forall (fun a => a_crypto a = Knone) l.
Proof.
  induction l as [|a l IH]; intro H; [constructor|]. cbn [coords_dump] in H. apply seqw_inv in H as [H1 H2]. constructor; [|exact (IH H2)].
  unfold coord_dump in H1. do 4 apply seqw_inv, proj2 in H1. destruct (a_crypto a); [reflexivity|discriminate..].
Qed.
Definition hide (a : arch) : arch := Ar (a_path a) (a_base a) (a_root a) (a_crypto a) [] 0.
Theorem C38_credentials : forall wrap salt over old db, h_crypto (d_head db) = Knone ->
  db_save wrap salt over old db = db_save wrap salt over old (DB (d_head db) (map hide (d_coord db)) (d_opts db) (d_dar db) (d_files db) (d_raw db)) /\
  (N.of_nat (length (d_coord db)) < 65536 -> forall a, In a (d_coord db) -> a_crypto a <> Knone -> snd (db_save wrap salt over old db) <> Ok tt).
Proof.
  intros wrap salt over old db K. split.
  - assert (E : forall l, coords_dump true l = coords_dump true (map hide l)).
    { induction l as [|[p b d s pw z] l IH]; [reflexivity|]. cbn [map coords_dump]. rewrite <- IH. unfold coord_dump, hide. cbn [a_path a_base a_root a_crypto a_pass a_size]. destruct (is_knone s); reflexivity. }
    unfold db_save, body_dump. cbn [d_head d_coord d_opts d_dar d_files d_raw]. rewrite K, map_length. cbn [is_knone].
    destruct (num_of (N.of_nat (length (d_coord db)))) as [n|]; [|reflexivity]. rewrite firstn_map, <- E. reflexivity.
  - intros L a Ia Ca. assert (B : snd (body_dump db) <> Ok tt).
    { unfold body_dump. rewrite K. unfold num_of. rewrite N.mod_small by lia. cbn zeta. destruct (N.leb_spec 65534 (N.of_nat (length (d_coord db)))); [discriminate|].
      rewrite Nat2N.id, firstn_all. cbn [is_knone]. intro Q. apply seqw_inv in Q as [_ Q]. apply seqw_inv in Q as [Q _]. exact (Ca (proj1 (Forall_forall _ _) (coords_clear _ Q) a Ia)). }
    unfold db_save. destruct (body_dump db) as [b r]. cbn [snd] in B. destruct (d_files db), (d_raw db), old, over; cbn [snd]; (exact B || discriminate).
Qed.

(** What was written, cut anywhere, is not taken for a database. *)
Theorem C38_truncated : forall db t b p q h ro, db_ok db -> d_files db = Some t -> tree_ok t -> body_dump db = (b, Ok tt) -> b = p ++ q -> q <> [] -> h_ver h = 7 ->
  forall db', body_read h false ro p <> Ok db'.
Proof.
  intros db t b p q h ro D F Ht E Ep Hq V db' H. destruct (full_rt db t D Ht F) as (b' & E' & R). rewrite E in E'. injection E' as <-. subst b.
  destruct (full_of_body _ _ _ _ H) as (co & opts & dar & t' & r & R'). rewrite V in R'. destruct (framed_full 7 _ _ _ R') as (c & -> & P). specialize (P (r ++ q)). rewrite app_assoc in P.
  rewrite R in P. injection P as _ _ _ _ Z. destruct r; [cbn [app] in Z; congruence|discriminate Z].
Qed.

(** Opening any file ends. *)
Theorem C38_terminates : forall h partial ro f, body_read h partial ro f <> Err Fuel.
Proof. exact body_ends. Qed.

(** ** a concrete database: two archives, one of them ciphered, a file and a directory *)
Definition crc4 : crc := mk_crc [1; 2; 3; 4] 3.
Definition some_tree : tree :=
  Tree [46] [] [] (Some [ Tree [97; 98] [(1, Sp (dt_seconds 5) et_saved None (Some crc4)); (2, Sp (dt_seconds 7) et_patch (Some crc4) (Some crc4))] [(1, St (dt_seconds 5) et_saved)] None;
                          Tree [100] [(2, Sp (dt_seconds 9) et_present None None)] [] (Some [Tree [101] [] [] None]) ]).
Definition some_db : dbase :=
  DB (DH 7 Cbzip2 6 Kblowfish Hsha1 1000 10240 []) [Ar [] [] (dt_seconds 0) Knone [] 0; Ar [47] [65; 66] (dt_seconds 3) Kaes [112; 119] 4096] [[45; 118]; [45; 81]] [47; 100] (Some some_tree) None.
Definition plain (_ : dhead) (b : list N) : list N := b.
Definition unplain (_ : dhead) (b : list N) : res (list N) := Ok b.
Lemma seconds_date : forall n, PropDatetime.date (dt_seconds n).
Proof. apply PropDatetime.d_seconds. Qed.
Example C38_instance : transparent plain unplain /\ db_ok some_db /\ d_files some_db = Some some_tree /\ tree_ok some_tree /\ directory some_tree /\
  exists f, db_save plain [7; 7] true (Some [1]) some_db = (Some f, Ok tt) /\
    (forall ro, db_open unplain false ro f = Ok (DB (same_head [7; 7] (d_head some_db)) (d_coord some_db) (d_opts some_db) (d_dar some_db) (Some (same_files some_tree)) None)).
Proof.
  assert (T : transparent plain unplain) by (intros ? ? ? _; reflexivity).
  assert (D : db_ok some_db).
  { unfold db_ok, some_db, head_ok, arch_ok, no_nul. cbn -[N.lt N.pow dt_seconds]. repeat first [split|apply Forall_cons|apply Forall_nil|apply seconds_date|discriminate|lia|intro]. }
  assert (R : tree_ok some_tree).
  { cbn -[N.lt dt_seconds]. unfold record_ok, no_nul. cbn -[N.lt dt_seconds]. repeat first [split|apply Forall_cons|apply Forall_nil|apply seconds_date|discriminate|lia|intro];
    unfold sorted; repeat first [apply Sorted.SSorted_nil|apply Sorted.SSorted_cons|apply Forall_cons|apply Forall_nil]; cbv [key_lt fst]; lia. }
  assert (Y : directory some_tree) by (unfold directory, some_tree; eauto).
  split; [exact T|]. split; [exact D|]. split; [reflexivity|]. split; [exact R|]. split; [exact Y|].
  eexists. split; [reflexivity|]. intro ro. destruct (C38_roundtrip plain unplain [7; 7] true (Some [1]) some_db some_tree ro T D eq_refl R Y (or_intror eq_refl)) as (f & S & O).
  injection S as <-. exact O.
Qed.

(** ** what does not hold *)
Definition get_ok {A} (d : A) (r : res A) : A := match r with Ok x => x | Err _ => d end.
(** A database of an earlier format is read, but once saved it can no longer be opened: its content is written in format 7 under the old format number
    (database_header.cpp:99 and 174, i_database.cpp:213-286). *)
Definition file6 : list N :=
  [6; 0] ++ dumpN 2 ++ write_string [] ++ write_string [] ++ get_ok [] (dt_dump (dt_seconds 0)) ++ write_string [47] ++ write_string [65] ++ get_ok [] (dt_dump (dt_seconds 3)) ++
  vec_write [] ++ write_string [] ++ get_ok [] (tree_dump some_tree).
Theorem C38_old_version_refuted : exists db g e,
  db_open unplain false false file6 = Ok db /\ d_files db = Some (same_files some_tree) /\
  db_save plain [] true (Some file6) db = (Some g, Ok tt) /\ db_open unplain false false g = Err e.
Proof. do 3 eexists. split; [reflexivity|]. split; [reflexivity|]. split; [reflexivity|]. vm_compute. reflexivity. Qed.

(** A save that is refused has already destroyed the file: adding a ciphered archive to a database in clear (i_database.cpp:219-249). *)
Theorem C38_refused_save_refuted : exists old db a db' g,
  db_open unplain false false old = Ok db /\ add_coord a db = Ok db' /\ db_save plain [] true (Some old) db' = (Some g, Err Erange) /\
  forall partial ro x, db_open unplain partial ro g <> Ok x.
Proof.
  exists ([7; 0] ++ fst (body_dump (DB (DH 7 Cgzip 9 Knone Hnone 0 0 []) [Ar [] [] (dt_seconds 0) Knone [] 0] [] [] (Some some_tree) None))). eexists.
  exists (Ar [47] [65] (dt_seconds 3) Kaes [112; 119] 4096). do 2 eexists. split; [vm_compute; reflexivity|]. split; [reflexivity|]. split; [reflexivity|].
  intros [] [] x; vm_compute; discriminate.
Qed.

(** The archive that makes 65534 is accepted, but the database can then not be saved, and the file is lost (archive_num.hpp:49-82, i_database.cpp:229, 305). *)
Theorem C38_limit_refuted : forall wrap salt old db a, d_files db <> None -> N.of_nat (length (d_coord db)) = 65533 -> a_base a <> [] ->
  exists db', add_coord a db = Ok db' /\ db_save wrap salt true old db' = (Some (head_write (set_salt salt (d_head db)) ++ wrap (set_salt salt (d_head db)) []), Err Ebug).
Proof.
  intros wrap salt old db a F L B. unfold add_coord, num_of. rewrite L. cbn zeta. change (65534 <=? 65533 mod 65536) with false. cbn iota. rewrite bind_ok.
  destruct (d_files db) as [t|] eqn:Ft; [|congruence]. destruct (a_base a) as [|x y]; [congruence|]. eexists. split; [reflexivity|].
  unfold db_save. cbn [d_files d_raw d_head]. assert (Z : body_dump (DB (d_head db) (d_coord db ++ [a]) (d_opts db) (d_dar db) (Some t) (d_raw db)) = fail Ebug).
  { unfold body_dump, num_of. cbn [d_coord]. rewrite app_length. cbn [length]. replace (N.of_nat (length (d_coord db) + 1)) with 65534 by lia. reflexivity. }
  rewrite Z. destruct old; reflexivity.
Qed.

(** Damaged files: format number 0 ends in an internal error rather than a refusal; an empty file is read through unset variables. *)
Theorem C38_damaged_refuted : (exists f, db_open unplain false false f = Err Ebug) /\ db_open unplain false false [] = Err UB.
Proof.
  split; [|reflexivity].
  exists ([0; 0] ++ dumpN 1 ++ write_string [] ++ write_string [] ++ vec_write [] ++ write_string [] ++ [116] ++ write_string [] ++ dumpN 1 ++ num_put 1). vm_compute. reflexivity.
Qed.

Print Assumptions C38_roundtrip.
Print Assumptions C38_partial.
Print Assumptions C38_read_only.
Print Assumptions C38_credentials.
Print Assumptions C38_truncated.
Print Assumptions C38_terminates.
Print Assumptions C38_old_version_refuted.
Print Assumptions C38_limit_refuted.
