(** * C37: a catalogue read back shows the tree that was written. *)
From Verif Require Import Base InfinintModel InfinintProof InfinintProof2 CrcModel CrcProof PropCrc DatetimeModel PropDatetime HeaderModel HeaderProof2 PathModel PropPath.
From Verif Require Import ReadStable CatModel CatSpec CatProof CatProof2 CatProof3.
Open Scope N_scope.

(** A catalogue as the program builds it: a label of ten bytes; a place that is an absolute path or "."; entries as described in
    CatSpec.v; two sets of hard links never have the same number. *)
Definition catalogue_ok (c : catalogue) : Prop :=
  length (k_label c) = 10%nat /\
  (exists s, path_make s false = Ok (k_place c)) /\ (forall scheme, dirs (k_place c) <> [scheme ++ [COLON; SLASH]]) /\
  (relative (k_place c) = true -> display (k_place c) = dot) /\ no_nul (display (k_place c)) /\
  entry_ok false (k_stars c) (root_entry c) /\ distinct_sets (k_stars c).

Lemma crc_of_ok : forall w data, w <> 0%nat -> exists k, crc_of w data = Ok k /\ cyclic k = checksum w data.
Proof.
  intros w data Hw. destruct (C07_checksum_independent_of_buffering w [(0, data)] Hw) as (c0 & c & E0 & E & V).
  unfold crc_of. rewrite E0. cbn [bind]. cbn [crc_feed] in E. destruct (crc_compute 0 data c0) as [c1|]; [|discriminate]. cbn [bind] in E.
  injection E as ->. exists c. split; [reflexivity|]. rewrite V. cbn [map concat snd]. rewrite app_nil_r. reflexivity.
Qed.
Lemma crc_eq_refl : forall k, crc_eq (norm_crc k) k = true.
Proof.
  intro k. unfold crc_eq, norm_crc, crc_size. cbn [cyclic]. rewrite Nat.eqb_refl. cbn [negb]. induction (cyclic k) as [|x l IH]; cbn [t_compare]; [reflexivity|].
  rewrite N.eqb_refl. exact IH.
Qed.
Lemma crc_eq_true : forall a b, crc_eq a b = true -> cyclic a = cyclic b.
Proof.
  intros a b H. unfold crc_eq in H. destruct (crc_size a =? crc_size b)%nat; [|discriminate]. cbn [negb] in H. revert H.
  generalize (cyclic a), (cyclic b). induction l as [|x l IH]; intros [|y l0] H; cbn [t_compare] in H; try discriminate; [reflexivity|].
  destruct (N.eqb_spec x y); [|discriminate]. subst. f_equal. auto.
Qed.
Lemma str_eqb_refl : forall s, str_eqb s s = true.
Proof. induction s as [|c s IH]; [reflexivity|]. cbn [str_eqb]. rewrite N.eqb_refl. exact IH. Qed.

(** Writing a catalogue succeeds, and reading the result - whatever follows it - gives a catalogue with the same label, the
    same place and showing the same tree. *)
Theorem C37_roundtrip : forall c algo, catalogue_ok c ->
  exists bytes done c', cat_dump [] c = Ok (bytes, done) /\ (forall rest, cat_read algo (bytes ++ rest) = Ok (c', rest)) /\
    k_label c' = k_label c /\ k_place c' = k_place c /\
    shown false (k_stars c') (root_entry c') = expected false (k_stars c) (root_entry c).
Proof.
  intros [lab pl root ch st] algo (Hl & (s & Hs) & Hu & Hr & Hz & Ho & Hd). cbn [k_label k_place k_root k_children k_stars] in *. unfold root_entry in *.
  cbn [k_label k_place k_root k_children k_stars] in *.
  destruct Ho as [Hi Hch]. destruct (inode_rt false root 100 Hi eq_refl) as (sg & b & E & Rs & R). destruct eod_rt as (z & Ez & Rz).
  assert (AG : Forall (good false st algo) ch) by (apply Forall_forall; intros; apply all_good; exact Hd).
  destruct (list_good st algo ch AG [] [] (Hch eq_refl) (Inv_nil false st)) as (bs & done & E1 & l' & co' & R1 & _ & _ & S1).
  set (data := lab ++ write_string (display pl) ++ (sg :: b) ++ bs ++ [z]).
  destruct (crc_of_ok CAT_CRC_SIZE data ltac:(discriminate)) as (k & Ek & _).
  exists (data ++ crc_dump k), done, (Cat lab pl (inode_back false root) l' (fun t => lookup t co')). split; [|split; [|split; [reflexivity|split; [reflexivity|]]]].
  - unfold cat_dump, root_entry. cbn [k_root k_children k_stars k_label k_place]. rewrite dir_dump, E, bind_ok, E1, bind_ok, Ez, !bind_ok. fold data. rewrite Ek. reflexivity.
  - intro rest. unfold cat_read. set (f0 := (data ++ crc_dump k) ++ rest).
    assert (F0 : f0 = lab ++ write_string (display pl) ++ sg :: b ++ bs ++ z :: crc_dump k ++ rest).
    { unfold f0, data. cbn [app]. rewrite <- !app_assoc. cbn [app]. rewrite <- !app_assoc. reflexivity. }
    assert (LR : label_read f0 = Ok (lab, write_string (display pl) ++ sg :: b ++ bs ++ z :: crc_dump k ++ rest)).
    { rewrite F0. unfold label_read. rewrite app_length, Hl. destruct (Nat.ltb_spec (10 + length (write_string (display pl) ++ sg :: b ++ bs ++ z :: crc_dump k ++ rest)) LABEL_SIZE) as [L|]; [unfold LABEL_SIZE in L; lia|].
      rewrite firstn_app_exact_n, skipn_app_exact_n by (symmetry; exact Hl). reflexivity. }
    rewrite LR, bind_ok. rewrite read_string_app by exact Hz. rewrite bind_ok.
    rewrite (C17_display_parse s pl Hs Hu), bind_ok.
    replace (relative pl && negb (str_eqb (display pl) dot)) with false.
    2:{ destruct (relative pl); [|reflexivity]. rewrite (Hr eq_refl), str_eqb_refl. reflexivity. }
    rewrite Rs. cbn [N.eqb Pos.eqb negb]. rewrite R, bind_ok.
    rewrite R1 by (auto; unfold fuel_for; rewrite app_length; cbn [length]; lia). rewrite bind_ok.
    assert (C : firstn (length f0 - length (crc_dump k ++ rest)) f0 = data).
    { unfold f0. rewrite <- app_assoc. apply firstn_app_exact_n. rewrite app_length. lia. }
    rewrite C, Ek, bind_ok, crc_rt. cbn [bind]. rewrite crc_eq_refl. reflexivity.
  - cbn [shown expected k_root k_children k_stars]. rewrite back_head, S1 by apply ext_refl. reflexivity.
Qed.
Print Assumptions C37_roundtrip.

Lemma framed_cat : forall algo, framed (cat_read algo).
Proof.
  intros algo f0 c r H. unfold cat_read in H.
  apply bind_ok_inv in H as ([lab f1] & E1 & H). destruct (framed_label_read _ _ _ E1) as (p1 & P1 & Q1).
  apply bind_ok_inv in H as ([tmp f2] & E2 & H). destruct (framed_read_string _ _ _ E2) as (p2 & P2 & Q2).
  apply bind_ok_inv in H as (pl & E3 & H).
  destruct (relative pl && negb (str_eqb tmp dot)) eqn:G1; [discriminate|].
  destruct (sig_read f2) as [[[ty st] f3]|] eqn:E4; [|discriminate].
  assert (E4' : sig_run f2 = Ok (ty, st, f3)) by (unfold sig_run; rewrite E4; reflexivity). destruct (framed_sig _ _ _ E4') as (p4 & P4 & Q4).
  destruct (ty =? 100) eqn:G2; cbn [negb] in H; [|discriminate].
  apply bind_ok_inv in H as ([i f4] & E5 & H). destruct (framed_inode _ _ _ _ _ E5) as (p5 & P5 & Q5).
  apply bind_ok_inv in H as ([[ch co] f5] & E6 & H).
  apply bind_ok_inv in H as (calc & E7 & H).
  apply bind_ok_inv in H as ([k f6] & E8 & H).
  assert (E8' : crc_get f5 = Ok (k, f6)) by (destruct (crc_get f5) as [x|e]; [exact E8|destruct e; discriminate]). destruct (framed_crc_get _ _ _ E8') as (p8 & P8 & Q8).
  destruct (crc_eq k calc) eqn:G3; [|discriminate]. injection H as <- <-.
  destruct (proj2 (framed_steps false algo (fuel_for f4) []) _ _ _ E6) as (p6 & P6 & Q6).
  set (p := p1 ++ p2 ++ p4 ++ p5 ++ p6). exists (p ++ p8).
  assert (F : f0 = p ++ p8 ++ f6) by (unfold p; rewrite P1, P2, P4, P5, P6, P8, <- !app_assoc; reflexivity).
  split; [rewrite <- app_assoc; exact F|]. intro q.
  assert (F' : (p ++ p8) ++ q = p1 ++ p2 ++ p4 ++ p5 ++ p6 ++ p8 ++ q) by (unfold p; rewrite <- !app_assoc; reflexivity).
  unfold cat_read. replace (label_read ((p ++ p8) ++ q)) with (label_read (p1 ++ p2 ++ p4 ++ p5 ++ p6 ++ p8 ++ q)) by (rewrite F'; reflexivity).
  rewrite Q1, bind_ok, Q2, bind_ok, E3, bind_ok, G1. specialize (Q4 (p5 ++ p6 ++ p8 ++ q)). unfold sig_run in Q4.
  destruct (sig_read (p4 ++ p5 ++ p6 ++ p8 ++ q)) as [x|] eqn:Sg; [|discriminate]. injection Q4 as ->. rewrite G2. cbn [negb].
  rewrite Q5, bind_ok.
  assert (FU : list_read false algo (fuel_for (p6 ++ p8 ++ q)) [] (p6 ++ p8 ++ q) = Ok (ch, co, p8 ++ q)).
  { rewrite <- (Q6 (p8 ++ q)). symmetry.
    destruct (fuel_enough false algo (S (length (p6 ++ p8 ++ q))) (p6 ++ p8 ++ q) ltac:(lia)) as [_ L].
    destruct (Nat.le_ge_cases (fuel_for (p6 ++ p8 ++ q)) (fuel_for f4)) as [LE|GE].
    - apply (proj2 (L (fuel_for (p6 ++ p8 ++ q)) [] ltac:(unfold fuel_for; lia))). unfold fuel_for in *. lia.
    - (* the smaller input first, then more fuel *)
      assert (SM : list_read false algo (fuel_for p6) [] p6 = Ok (ch, co, [])).
      { specialize (Q6 []). rewrite app_nil_r in Q6. rewrite <- Q6.
        destruct (fuel_enough false algo (S (length p6)) p6 ltac:(lia)) as [_ L6].
        symmetry. apply (proj2 (L6 (fuel_for p6) [] ltac:(unfold fuel_for; lia))). unfold fuel_for. rewrite P6, app_length. lia. }
      assert (SM' : list_read false algo (fuel_for (p6 ++ p8 ++ q)) [] p6 = Ok (ch, co, [])).
      { rewrite <- SM. destruct (fuel_enough false algo (S (length p6)) p6 ltac:(lia)) as [_ L6].
        apply (proj2 (L6 (fuel_for p6) [] ltac:(unfold fuel_for; lia))). unfold fuel_for. rewrite app_length. lia. }
      destruct (proj2 (framed_steps false algo (fuel_for (p6 ++ p8 ++ q)) []) _ _ _ SM') as (p6' & P6' & Q6'). rewrite app_nil_r in P6'. subst p6'.
      rewrite (Q6' (p8 ++ q)), Q6. reflexivity. }
  rewrite FU, bind_ok.
  assert (C1 : firstn (length f0 - length f5) f0 = p).
  { rewrite F, P8. apply firstn_app_exact_n. rewrite !app_length. lia. }
  assert (C2 : firstn (length ((p ++ p8) ++ q) - length (p8 ++ q)) ((p ++ p8) ++ q) = p).
  { rewrite <- app_assoc. apply firstn_app_exact_n. rewrite !app_length. lia. }
  rewrite C2. rewrite C1 in E7. rewrite E7, bind_ok, Q8. cbn [bind]. rewrite G3. reflexivity.
Qed.

(** A catalogue cut short, wherever the cut, is never taken for a catalogue. *)
Theorem C37_truncated : forall c algo bytes done p q, catalogue_ok c -> cat_dump [] c = Ok (bytes, done) -> bytes = p ++ q -> q <> [] ->
  forall x, cat_read algo p <> Ok x.
Proof.
  intros c algo bytes done p q Hc Hd E Hq [c2 r] H. destruct (C37_roundtrip c algo Hc) as (b & d & c' & D & R & _). rewrite Hd in D. injection D as <- <-.
  destruct (framed_cat _ _ _ _ H) as (p1 & -> & F). specialize (R []). rewrite app_nil_r, E, <- app_assoc, F in R. injection R as _ R. destruct r, q; try discriminate. contradiction.
Qed.
Print Assumptions C37_truncated.

(** What is accepted carries its own checksum: the bytes of the tree, of the label and of the place have the checksum that follows them. *)
Theorem C37_checked : forall algo f c r, cat_read algo f = Ok (c, r) ->
  exists body tail k, f = body ++ tail /\ crc_get tail = Ok (k, r) /\ cyclic k = checksum 4 body.
Proof.
  intros algo f0 c r H. unfold cat_read in H.
  apply bind_ok_inv in H as ([lab f1] & E1 & H). destruct (framed_label_read _ _ _ E1) as (p1 & P1 & _).
  apply bind_ok_inv in H as ([tmp f2] & E2 & H). destruct (framed_read_string _ _ _ E2) as (p2 & P2 & _).
  apply bind_ok_inv in H as (pl & E3 & H).
  destruct (relative pl && negb (str_eqb tmp dot)); [discriminate|].
  destruct (sig_read f2) as [[[ty st] f3]|] eqn:E4; [|discriminate].
  assert (E4' : sig_run f2 = Ok (ty, st, f3)) by (unfold sig_run; rewrite E4; reflexivity). destruct (framed_sig _ _ _ E4') as (p4 & P4 & _).
  destruct (ty =? 100); cbn [negb] in H; [|discriminate].
  apply bind_ok_inv in H as ([i f4] & E5 & H). destruct (framed_inode _ _ _ _ _ E5) as (p5 & P5 & _).
  apply bind_ok_inv in H as ([[ch co] f5] & E6 & H). destruct (proj2 (framed_steps false algo (fuel_for f4) []) _ _ _ E6) as (p6 & P6 & _).
  apply bind_ok_inv in H as (calc & E7 & H).
  apply bind_ok_inv in H as ([k f6] & E8 & H).
  assert (E8' : crc_get f5 = Ok (k, f6)) by (destruct (crc_get f5) as [x|e]; [exact E8|destruct e; discriminate]).
  destruct (crc_eq k calc) eqn:G3; [|discriminate]. injection H as <- <-.
  exists (p1 ++ p2 ++ p4 ++ p5 ++ p6), f5, k.
  assert (F : f0 = (p1 ++ p2 ++ p4 ++ p5 ++ p6) ++ f5) by (rewrite P1, P2, P4, P5, P6, <- !app_assoc; reflexivity).
  split; [exact F|]. split; [exact E8'|]. apply crc_eq_true in G3. rewrite G3.
  assert (C1 : firstn (length f0 - length f5) f0 = p1 ++ p2 ++ p4 ++ p5 ++ p6) by (rewrite F; apply firstn_app_exact_n; rewrite app_length; lia).
  rewrite C1 in E7. destruct (crc_of_ok CAT_CRC_SIZE (p1 ++ p2 ++ p4 ++ p5 ++ p6) ltac:(discriminate)) as (k2 & E2k & V). rewrite E7 in E2k. injection E2k as <-. exact V.
Qed.
Print Assumptions C37_checked.

(** Reading ends for every sequence of bytes. *)
Theorem C37_terminates : forall algo f, cat_read algo f <> Err Fuel.
Proof.
  intros algo f0. unfold cat_read. unfold label_read. destruct (length f0 <? LABEL_SIZE)%nat; cbn [bind]; [discriminate|].
  pose proof (tame_string (skipn LABEL_SIZE f0)) as T. destruct (read_string (skipn LABEL_SIZE f0)) as [[tmp f]|]; cbn [bind]; [|congruence].
  assert (TP : match path_make tmp false with Ok p => Ok p | Err _ => path_make tmp true end <> Err Fuel).
  { assert (Q : forall b, path_make tmp b <> Err Fuel).
    { intro b. unfold path_make. destruct tmp; [discriminate|]. cbn zeta. destruct (_ && _); discriminate. }
    destruct (path_make tmp false); [discriminate|apply Q]. }
  destruct (match path_make tmp false with Ok p => Ok p | Err _ => path_make tmp true end) as [pl|]; cbn [bind]; [|congruence].
  destruct (relative pl && _); [discriminate|]. destruct (sig_read f) as [[[ty st] f1]|]; [|discriminate]. destruct (negb (ty =? 100)); [discriminate|].
  pose proof (tame_inode false st f1) as TI. destruct (inode_read false st f1) as [[i f2]|]; cbn [bind]; [|congruence].
  destruct (fuel_enough false algo (S (length f2)) f2 ltac:(lia)) as [_ L]. pose proof (proj1 (L (fuel_for f2) [] ltac:(unfold fuel_for; lia))) as TL.
  destruct (list_read false algo (fuel_for f2) [] f2) as [[[ch co] f3]|]; cbn [bind]; [|congruence].
  destruct (crc_of_ok CAT_CRC_SIZE (firstn (length f0 - length f3) f0) ltac:(discriminate)) as (k & -> & _). cbn [bind].
  destruct (crc_get f3) as [[k2 f4]|e]; cbn [bind]; [destruct (crc_eq k2 k); discriminate|destruct e; discriminate].
Qed.
Print Assumptions C37_terminates.

(** ** entries inlined for sequential reading *)
(** the state of both sides after some entries have been written on one side (the caller marking a shared inode once it has been written) and read
    on the other *)
Inductive session (st : stars) (algo : compression) : list N -> corres -> Prop :=
| s_start : session st algo [] []
| s_step : forall done co e bytes e' co', session st algo done co -> entry_ok true st e -> small_dump st done e = Ok bytes ->
    (forall rest, small_read algo co (bytes ++ rest) = Ok (Some (Some e', co', rest))) -> session st algo (marks st e done) co'.

Lemma small_step : forall st algo done co e, distinct_sets st -> Inv true st done co -> entry_ok true st e -> (forall n, e <> Eign n) ->
  exists bytes e' co', small_dump st done e = Ok bytes /\ (forall rest, small_read algo co (bytes ++ rest) = Ok (Some (Some e', co', rest))) /\
    Inv true st (marks st e done) co' /\ shown true (fun t => lookup t co') e' = expected true st e.
Proof.
  intros st algo done co e HD HI He NE. destruct (all_good true st algo HD e done co He NE HI) as (b & bs & d' & E & e' & co' & R & I' & _ & S).
  destruct (crc_of_ok ENTREE_CRC_SIZE (b :: bs) ltac:(discriminate)) as (k & Ek & _).
  exists ((b :: bs) ++ crc_dump k), e', co'. split; [unfold small_dump; rewrite E, bind_ok, Ek; reflexivity|]. split; [|split; [exact I'|apply S, ext_refl]].
  intro rest. unfold small_read. set (f0 := ((b :: bs) ++ crc_dump k) ++ rest).
  assert (F0 : f0 = (b :: bs) ++ crc_dump k ++ rest) by (unfold f0; rewrite <- app_assoc; reflexivity).
  assert (R0 : ent_read true algo (fuel_for f0) co f0 = Ok (Some e', co', crc_dump k ++ rest)).
  { rewrite F0 at 2. apply R. unfold fuel_for. rewrite F0, app_length. lia. }
  destruct (sig_read f0) as [x|] eqn:SR.
  - rewrite R0, bind_ok. assert (C : firstn (length f0 - length (crc_dump k ++ rest)) f0 = b :: bs).
    { rewrite F0 at 2. apply firstn_app_exact_n. rewrite F0, app_length. lia. }
    rewrite C, Ek, bind_ok, crc_rt. cbn [bind]. rewrite crc_eq_refl. reflexivity.
  - unfold fuel_for in R0. rewrite Nat.add_comm in R0. cbn [plus] in R0. rewrite ent_read_step in R0. unfold ent_step, sig_run in R0. rewrite SR in R0. discriminate.
Qed.
(** Every entry inlined in the archive is read back, with its checksum, showing what was written; hard links are bound to the inode read earlier. *)
Theorem C37_sequential : forall st algo done co e, distinct_sets st -> session st algo done co -> entry_ok true st e -> (forall n, e <> Eign n) ->
  exists bytes e' co', small_dump st done e = Ok bytes /\ (forall rest, small_read algo co (bytes ++ rest) = Ok (Some (Some e', co', rest))) /\
    session st algo (marks st e done) co' /\ shown true (fun t => lookup t co') e' = expected true st e.
Proof.
  intros st algo done co e HD HS He NE.
  assert (HI : Inv true st done co).
  { clear e He NE. induction HS as [|done co e bytes e' co' HS IH He Hb Hr]; [apply Inv_nil|].
    assert (NE : forall n, e <> Eign n) by (intros n ->; discriminate Hb).
    destruct (small_step st algo done co e HD IH He NE) as (b2 & e2 & co2 & D2 & R2 & I2 & _). rewrite Hb in D2. injection D2 as <-.
    specialize (Hr []). rewrite (R2 []) in Hr. injection Hr as _ <-. exact I2. }
  destruct (small_step st algo done co e HD HI He NE) as (b & e' & co' & D & R & _ & S).
  exists b, e', co'. split; [exact D|]. split; [exact R|]. split; [|exact S]. eapply s_step; eauto.
Qed.
Print Assumptions C37_sequential.

(** an entry whose checksum does not match is not accepted *)
Theorem C37_sequential_checked : forall algo co f e co' r, small_read algo co f = Ok (Some (e, co', r)) ->
  exists body tail k, f = body ++ tail /\ crc_get tail = Ok (k, r) /\ cyclic k = checksum 2 body.
Proof.
  intros algo co f0 e co' r H. unfold small_read in H. destruct (sig_read f0) as [sg|]; [|discriminate].
  apply bind_ok_inv in H as ([[x co2] f] & E & H). destruct (proj1 (framed_steps true algo (fuel_for f0) co) _ _ _ E) as (p & P & _).
  apply bind_ok_inv in H as (calc & E7 & H). apply bind_ok_inv in H as ([k f6] & E8 & H).
  destruct (crc_eq k calc) eqn:G; [|discriminate]. injection H as <- <- <-. exists p, f, k. split; [exact P|]. split; [exact E8|].
  apply crc_eq_true in G. rewrite G. assert (C1 : firstn (length f0 - length f) f0 = p) by (rewrite P; apply firstn_app_exact_n; rewrite app_length; lia).
  rewrite C1 in E7. destruct (crc_of_ok ENTREE_CRC_SIZE p ltac:(discriminate)) as (k2 & E2k & V). rewrite E7 in E2k. injection E2k as <-. exact V.
Qed.
Print Assumptions C37_sequential_checked.

(** ** a concrete catalogue: /ab with a saved file carrying EA, FSA and a delta signature, a binary patch, a symbolic link, a device, two names of one
    inode (the second in a sub-directory), a set reduced to one member, a deleted entry, an ignored file and an ignored directory *)
Definition ex_crc : crc := mk_crc [1; 2; 3; 4] 0.
Definition ex_ino (name : list N) (st : sstatus) : cinode :=
  CI name st 1000 100 420 (dt_seconds 5) (dt_seconds 7) (dt_seconds 300) EAnone None None None FSAnone None None None None.
Definition ex_ino2 (name : list N) : cinode :=
  CI name Ssaved 0 300 4095 (dt_seconds 0) (dt_seconds 1) (dt_seconds 2) EAfull (Some 30) (Some 70000) (Some ex_crc) FSAfull (Some 3) (Some 9) (Some 71000) (Some ex_crc).
Definition ex_data : cfile := CF 1234 500 600 true 0 1 Cnone Cgzip (Some ex_crc) None (Some (DSig Mblake2 77 800 (Some ex_crc))).
Definition ex_patch : cfile := CF 20 40 60 false 0 0 Cnone Czstd (Some ex_crc) (Some ex_crc) (Some (DSig Mrk 0 0 (Some ex_crc))).
Definition ex_plain : cfile := CF 300 40 60 false 0 1 Cnone Cnone (Some ex_crc) None None.
Definition ex_stars : stars := fun a => if a =? 0 then Some (Star (ex_ino [] Ssaved) (Kfile ex_plain) 9 2 true)
  else if a =? 1 then Some (Star (ex_ino [65] Snot_saved) Ktube 4 1 true) else None.
Definition ex_cat : catalogue := Cat [1; 2; 3; 4; 5; 6; 7; 8; 9; 10] (Path [[97; 98]] false false) (ex_ino [114] Ssaved)
  [ Eino (ex_ino2 [102]) (Kfile ex_data); Eino (ex_ino [112] Sdelta) (Kfile ex_patch); Emir [104; 49] 0; Eign [105];
    Edir (ex_ino [100] Ssaved) [Eino (ex_ino [108] Ssaved) (Klien [46; 46]); Emir [104; 50] 0; Eino (ex_ino [98] Ssaved) (Kblock 8 513)];
    Emir [115] 1; Edet [120] 102 (dt_seconds 88); Eigndir (ex_ino2 [122]) ] ex_stars.
Lemma ex_cat_ok : catalogue_ok ex_cat.
Proof.
  split; [reflexivity|]. split; [exists [47; 97; 98]; reflexivity|]. split; [intros s H; cbn in H; injection H as H; assert (L : length [97;98] = length (s ++ [COLON; SLASH])) by (rewrite H; reflexivity); destruct s as [|? s]; [discriminate H|rewrite app_length in L; cbn in L; lia]|].
  split; [discriminate|]. split; [vm_compute; repeat constructor; discriminate|]. split.
  - unfold ex_cat, root_entry, ex_ino, ex_ino2, ex_data, ex_patch, ex_plain. cbn [k_stars k_root k_children entry_ok].
    assert (D : forall v, date (dt_seconds v)) by apply d_seconds.
    unfold inode_ok, kind_ok, file_ok, ignored_as_dir, present, no_nul.
    cbn [map fold_right i_name i_saved i_uid i_gid i_perm i_atime i_mtime i_ctime i_ea i_ea_size i_ea_off i_ea_crc i_fsa i_fsa_fam i_fsa_size i_fsa_off i_fsa_crc c_fds_write c_check c_base c_sig has_data].
    repeat match goal with
    | |- _ /\ _ => split
    | |- entry_ok _ _ _ => cbn [entry_ok]; unfold inode_ok, kind_ok, file_ok, ignored_as_dir, present, no_nul; cbn [map fold_right i_name i_saved i_uid i_gid i_perm i_atime i_mtime i_ctime i_ea i_ea_size i_ea_off i_ea_crc i_fsa i_fsa_fam i_fsa_size i_fsa_off i_fsa_crc c_fds_write c_check c_base c_sig has_data]
    | |- exists s, ex_stars ?a = Some s /\ _ => eexists; split; [reflexivity|]; cbn
    | |- Forall _ _ => repeat constructor; discriminate
    | |- date _ => apply D
    | |- True => exact I
    | |- _ < _ => reflexivity
    | |- _ -> _ => intro
    | |- forall _, _ => intro
    | |- ?x <> None => congruence
    | _ => discriminate
    | H : Some _ = Some _ |- _ => injection H as <-; cbn
    end; try congruence.
  - intros a b sa sb. unfold ex_cat, k_stars, ex_stars. destruct (N.eqb_spec a 0), (N.eqb_spec b 0); [congruence| | |].
    + destruct (N.eqb_spec b 1); [|discriminate]. intros H1 H2 H3. injection H1 as <-. injection H2 as <-. discriminate H3.
    + destruct (N.eqb_spec a 1); [|discriminate]. intros H1 H2 H3. injection H1 as <-. injection H2 as <-. discriminate H3.
    + destruct (N.eqb_spec a 1), (N.eqb_spec b 1); try discriminate; congruence.
Qed.
(** eight nodes are found back below the root, the ignored file is not *)
Lemma ex_cat_back : exists bytes done c', cat_dump [] ex_cat = Ok (bytes, done) /\ cat_read Clzo (bytes ++ [1; 2]) = Ok (c', [1; 2]) /\ length (k_children c') = 7%nat.
Proof. eexists _, _, _. split; [vm_compute; reflexivity|]. split; [vm_compute; reflexivity|]. reflexivity. Qed.

(** ** limits *)
(** Writing the same catalogue a second time without reset_dump() produces a catalogue that cannot be read. *)
Theorem C37_twice_refuted : ~ (forall c algo bytes done bytes2 done2, catalogue_ok c -> cat_dump [] c = Ok (bytes, done) -> cat_dump done c = Ok (bytes2, done2) ->
  exists x, cat_read algo bytes2 = Ok x).
Proof.
  intro H. destruct (H ex_cat Cnone _ _ _ _ ex_cat_ok ltac:(vm_compute; reflexivity) ltac:(vm_compute; reflexivity)) as [x X]. vm_compute in X. discriminate X.
Qed.
(** Damage is not always reported as such: a catalogue damaged where the algorithm of a delta signature is recorded raises the exception reserved to internal errors
    (archive_aux.cpp:258, called from cat_delta_signature.cpp:66), and one cut in the middle of a checksum or before a one-byte field makes the program use a variable that was not set. *)
Theorem C37_damage_reported_refuted : ~ (forall algo f e, cat_read algo f = Err e -> e = Erange).
Proof.
  intro H. pose (b := match cat_dump [] ex_cat with Ok (b, _) => b | Err _ => [] end).
  assert (X : cat_read Cnone (firstn 151 b ++ [0]) = Err Ebug) by (vm_compute; reflexivity). apply H in X. discriminate X.
Qed.
Theorem C37_cut_refuted : ~ (forall algo f, cat_read algo f <> Err UB).
Proof.
  intro H. pose (b := match cat_dump [] ex_cat with Ok (b, _) => b | Err _ => [] end). apply (H Cnone (firstn 151 b)). vm_compute. reflexivity.
Qed.
(** A binary patch without the structure of a delta signature is written but not read back: the condition of [file_ok] is needed (set_patch_base_crc
    protects it, cat_file.cpp:1159). *)
Theorem C37_patch_refuted : ~ (forall c algo bytes done, (exists i, k_children c = [Eino i (Kfile (CF 20 40 60 false 0 0 Cnone Czstd (Some ex_crc) (Some ex_crc) None))]) ->
  cat_dump [] c = Ok (bytes, done) -> exists x, cat_read algo bytes = Ok x).
Proof.
  intro H. destruct (H (Cat [1; 2; 3; 4; 5; 6; 7; 8; 9; 10] (Path [[97; 98]] false false) (ex_ino [114] Ssaved)
    [Eino (ex_ino [112] Sdelta) (Kfile (CF 20 40 60 false 0 0 Cnone Czstd (Some ex_crc) (Some ex_crc) None))] (fun _ => None)) Cnone _ _ ltac:(eexists; reflexivity) ltac:(vm_compute; reflexivity)) as [x X].
  vm_compute in X. discriminate X.
Qed.
