(** * C32: typed lists, slice headers, archive version, header flags and archive headers survive storage. *)
From Verif Require Import Base NumModel InfinintModel InfinintProof InfinintProof2 CrcModel CrcProof PropCrc SliceModel
  HeaderModel HeaderProof HeaderProof2 HeaderProof3.
Open Scope N_scope.

(** ** typed lists (tlv_list) *)
(** whatever the list (types on 16 bits) and whatever follows it: the same list, and what follows is left unread *)
Theorem C32_typed_list : forall l rest, Forall (fun t => tlv_type t < 65536) l -> tlvs_read (tlvs_dump l ++ rest) = Ok (l, rest).
Proof. exact tlvs_read_app. Qed.
Print Assumptions C32_typed_list.
(** cut anywhere: refused *)
Theorem C32_typed_list_truncated : forall l p q, Forall (fun t => tlv_type t < 65536) l ->
  tlvs_dump l = p ++ q -> q <> [] -> tlvs_read p = Err Erange.
Proof.
  intros l p q H E Hq. unfold tlvs_read, tlvs_dump in *. destruct (app_cut _ _ _ _ E Hq) as [(q' & E1 & H1)|(p' & E1 & E2)].
  - rewrite (readN_prefix _ _ _ E1 H1). reflexivity.
  - subst p. rewrite readN_dumpN. cbn [bind]. destruct (N.ltb_spec (N.of_nat (length p')) (N.of_nat (length l))) as [G|G].
    + apply tlvs_loop_short. lia.
    + rewrite Nat2N.id. eapply tlvs_loop_prefix; eauto.
Qed.
Print Assumptions C32_typed_list_truncated.

(** ** slice header *)
(** the header of a slice as sar writes it at the start of each slice file (label of the archive, sizes of the slices), then
    read back from that file: same label, same layout. [fs] <> 0 when slicing is used; then [os] <> 0. *)
Theorem C32_slice_header : forall name data flag fs os as_first b h' rest pause z,
  length name = 10%nat -> length data = 10%nat -> fs <> 0 -> os <> 0 ->
  sh_write (mk_sh SAUV_MAGIC name data flag (mk_layout fs os 0 0 false)) as_first false 0 = Ok (b, h') ->
  sh_read (Some z) pause 0 (b ++ rest) = Ok (mk_sh SAUV_MAGIC name (if label_is_cleared data then name else data) flag (sh_sly h'), rest) /\
  sh_sly h' = mk_layout fs os (N.of_nat (length b)) (N.of_nat (length b)) false.
Proof.
  intros name data flag fs os as_first b h' rest pause z Hn Hd Hf Ho E. unfold sh_write in E.
  apply bind_ok in E as (b0 & Eb & E). cbn [sh_sly first_size other_size first_slice_header other_slice_header older_sar_than_v8
    negb andb N.eqb sh_magic sh_name sh_data sh_flag] in E. rewrite N.add_0_l in E.
  destruct (_ <? min_size); [discriminate|].
  replace (fs =? 0) with false in E by (symmetry; apply N.eqb_neq; auto).
  replace (os =? 0) with false in E by (symmetry; apply N.eqb_neq; auto). cbn [negb andb] in E.
  destruct (N.leb_spec fs (N.of_nat (length b0))) as [G1|G1]; [discriminate|].
  destruct (N.leb_spec os (N.of_nat (length b0))) as [G2|G2]; [discriminate|].
  assert (b0 = b) by congruence. subst b0. match type of E with Ok (_, ?x) = _ => assert (h' = x) as -> by congruence end.
  cbn [sh_sly]. split; [|reflexivity].
  pose proof (sh_read_tlv (Some z) pause 0 (mk_sh SAUV_MAGIC name data flag (mk_layout fs os 0 0 false)) as_first false b rest
    eq_refl Hn Hd eq_refl Eb) as R. cbn zeta in R.
  cbn [sh_sly first_size other_size first_slice_header other_slice_header sh_name sh_flag] in R.
  replace (fs =? 0) with false in R by (symmetry; apply N.eqb_neq; auto).
  replace (os =? 0) with false in R by (symmetry; apply N.eqb_neq; auto). rewrite N.add_0_l in R. rewrite R; auto.
Qed.
Print Assumptions C32_slice_header.
Example C32_slice_header_example : exists b h', sh_write (mk_sh SAUV_MAGIC (repeat 7 10) (repeat 9 10) 69 (mk_layout 1000 2000 0 0 false)) true false 0 = Ok (b, h') /\
  length b = 62%nat.
Proof. do 2 eexists. split; vm_compute; reflexivity. Qed.
(** cut anywhere: refused *)
Theorem C32_slice_header_truncated : forall h as_first b h' p q z pause pos,
  sh_magic h = SAUV_MAGIC -> length (sh_name h) = 10%nat -> older_sar_than_v8 (sh_sly h) = false ->
  sh_write h as_first false pos = Ok (b, h') -> b = p ++ q -> q <> [] -> sh_read z pause pos p = Err Erange.
Proof.
  intros h as_first b h' p q z pause pos H1 H2 H3 E Ep Hq. unfold sh_write in E. apply bind_ok in E as (b0 & Eb & E).
  assert (b0 = b).
  { repeat match type of E with (if ?c then _ else _) = _ => destruct c end; try discriminate; congruence. }
  subst b0. eapply sh_read_prefix; eauto.
Qed.
Print Assumptions C32_slice_header_truncated.
(** any bytes whatsoever: refused by a range error (or by the user, who is asked about unknown entries), or the sizes of the
    headers are not null and lower than those of the slices *)
Theorem C32_slice_header_any : forall fic pause pos f,
  match sh_read fic pause pos f with
  | Ok (h, rest) =>
      sh_magic h = SAUV_MAGIC /\ length (sh_name h) = 10%nat /\
      (first_size (sh_sly h) = 0 \/ first_slice_header (sh_sly h) < first_size (sh_sly h) \/ older_sar_than_v8 (sh_sly h) = true) /\
      (other_size (sh_sly h) = 0 \/ other_slice_header (sh_sly h) < other_size (sh_sly h)) /\
      first_slice_header (sh_sly h) <> 0 /\ other_slice_header (sh_sly h) <> 0
  | Err e => e = Erange \/ (pause = false /\ e = Euser_abort)
  end.
Proof. exact sh_read_any. Qed.
Print Assumptions C32_slice_header_any.
(** yet slices that can hold no data at all are accepted: one byte is left for the end flag and none for data, and no
    offset beyond the first slice has then an answer (C14_no_room) *)
Theorem C32_slice_header_room_refuted : exists fic f h rest, sh_read fic true 0 f = Ok (h, rest) /\
  other_size (sh_sly h) = other_slice_header (sh_sly h) + 1 /\ older_sar_than_v8 (sh_sly h) = false.
Proof.
  exists (Some 63), ([0; 0; 0; 123] ++ repeat 7 10 ++ [69; 84] ++ tlvs_dump [mk_tlv tlv_first_size_t (dumpN 63); mk_tlv tlv_size_t (dumpN 63);
    mk_tlv tlv_data_name_t (repeat 9 10)]).
  eexists. exists []. vm_compute. repeat split.
Qed.
Print Assumptions C32_slice_header_room_refuted.

(** ** archive version *)
Theorem C32_version : forall old v rest, av_version v < 65536 -> av_fix v < 256 ->
  av_read old (av_dump v ++ rest) = Ok (mk_aver (av_version v) (if 8 <=? av_version v then av_fix v else av_fix old), rest).
Proof. exact av_read_dump. Qed.
Print Assumptions C32_version.
(** from format 8 on the very same version *)
Corollary C32_version_8 : forall old v rest, 8 <= av_version v < 65536 -> av_fix v < 256 -> av_read old (av_dump v ++ rest) = Ok (v, rest).
Proof.
  intros old v rest H Hf. rewrite av_read_dump by lia. replace (8 <=? av_version v) with true by (symmetry; apply N.leb_le; lia).
  destruct v; reflexivity.
Qed.
Print Assumptions C32_version_8.
(** a version record cut anywhere is refused *)
Theorem C32_version_truncated : forall old v p q, av_version v < 65536 -> av_fix v < 256 -> av_dump v = p ++ q -> q <> [] -> av_read old p = Err Erange.
Proof.
  intros old v p q Hv Hf E Hq. unfold av_dump in E. destruct p as [|a [|b [|c [|d p]]]]; try reflexivity.
  - destruct (N.leb_spec 8 (av_version v)) as [G|G].
    + injection E as Ea Eb Ec _. subst. unfold av_read. rewrite !to_digit_char by lia.
      replace (_ <? 8) with false by (symmetry; apply N.ltb_ge; lia). reflexivity.
    + exfalso. apply Hq. cbn [app] in E. congruence.
  - exfalso. destruct (8 <=? av_version v); [|discriminate]. cbn [app] in E. destruct p; [|discriminate]. destruct q; [congruence|discriminate].
Qed.
Print Assumptions C32_version_truncated.
(** the fix number of a version below 8 is not stored *)
Theorem C32_version_fix_refuted : exists old v, av_version v < 65536 /\ av_fix v < 256 /\ av_read old (av_dump v) <> Ok (v, []).
Proof. exists (mk_aver 0 0), (mk_aver 7 3). vm_compute. repeat split. discriminate. Qed.
Print Assumptions C32_version_fix_refuted.
(** the "empty" version, by which a header made of zero bytes should be recognised, is not what zero bytes are read as *)
Theorem C32_blank_version_refuted : exists v, av_read (mk_aver 0 0) [0; 0; 0; 0] = Ok (v, []) /\ av_value v <> EMPTY_VALUE * 256.
Proof. eexists. vm_compute. split; [reflexivity|discriminate]. Qed.
Print Assumptions C32_blank_version_refuted.

(** ** header flags: any set of flags that does not use the lowest bit of one of its four bytes *)
Theorem C32_flags : forall bits rest, bits < 2 ^ 32 ->
  (forall k, In k [0; 8; 16; 24] -> N.testbit bits k = false) ->
  exists b, flags_dump bits = Ok b /\ flags_read 0 (b ++ rest) = Ok (bits, rest).
Proof.
  intros bits rest H K. destruct (flags_read_dump bits rest) as (b & E1 & E2 & _).
  - split; auto. repeat split; apply K; cbn; auto.
  - exists b. auto.
Qed.
Print Assumptions C32_flags.

(** ** archive header *)
(** what is asked of the reference slice header recorded in an isolated catalogue *)
Definition coherent_slicing (s : slice_header) : Prop :=
  sh_magic s = SAUV_MAGIC /\ length (sh_name s) = 10%nat /\ length (sh_data s) = 10%nat /\ label_is_cleared (sh_data s) = false /\
  older_sar_than_v8 (sh_sly s) = false /\ first_slice_header (sh_sly s) <> 0 /\ other_slice_header (sh_sly s) <> 0 /\
  (first_size (sh_sly s) = 0 -> other_size (sh_sly s) = 0) /\
  (first_size (sh_sly s) <> 0 -> first_slice_header (sh_sly s) < first_size (sh_sly s)) /\
  (other_size (sh_sly s) <> 0 -> other_slice_header (sh_sly s) < other_size (sh_sly s)).
(** a header as this library makes it: format 9 or more, ciphered exactly when an algorithm is set, key derivation
    parameters exactly when there is a salt *)
Definition plain_header (h : hver) : Prop :=
  9 <= av_version (hv_edition h) < 65536 /\ av_fix (hv_edition h) < 256 /\ av_value (hv_edition h) <> EMPTY_VALUE * 256 /\
  Forall (fun c => c <> 0) (hv_cmd h) /\ hv_ciphered h = negb (is_knone (hv_sym h)) /\
  match hv_rhead h with Some s => coherent_slicing s | None => True end /\ hv_only_layout h = false /\
  match hv_salt h with
  | [] => hv_has_kdf h = false /\ hv_iter h = PRE_FORMAT_10_ITERATION /\ hv_hash h = Hsha1
  | _ => hv_has_kdf h = true /\ is_hnone (hv_hash h) = false
  end.
(** with at most one nested header, that of the archive of reference *)
Definition good_header (h : hver) : Prop :=
  plain_header h /\ match hv_rver h with
                    | None => hv_rterm h = 0
                    | Some v => plain_header v /\ hv_ioff v <> 0 /\ hv_rver v = None /\ hv_rterm v = 0
                    end.
(** the same header is read back; when no initial offset was recorded, it is the place right after the header *)
Definition data_at (x : N) (h : hver) : hver :=
  mk_hv (hv_edition h) (hv_zip h) (hv_cmd h) x (hv_sym h) (hv_key h) (hv_rhead h) (hv_rver h) (hv_rterm h) (hv_only_layout h) (hv_marks h)
        (hv_ciphered h) (hv_signed h) (hv_has_kdf h) (hv_salt h) (hv_iter h) (hv_hash h) (hv_bs h).
Theorem C32_header : forall h pause pos rest, good_header h ->
  exists b, hv_write h = Ok b /\
    hv_read pause pos (b ++ rest) = Ok (if hv_ioff h =? 0 then data_at (pos + N.of_nat (length b)) h else h, rest).
Proof. exact hv_read_write. Qed.
Print Assumptions C32_header.
Definition sample_header : hver :=
  mk_hv (mk_aver 11 2) Czstd [100; 97; 114] 512 Kaes (Some [1; 2; 3])
    (Some (mk_sh SAUV_MAGIC (repeat 7 10) (repeat 8 10) 69 (mk_layout 1000 2000 53 53 false)))
    (Some (mk_hv (mk_aver 10 0) Cgzip [] 64 Knone None None None 0 false true false false false [] 2000 Hsha1 0)) 99
    false true true true true [5; 6; 0; 7] 200000 Hargon2 4096.
Example C32_header_example : good_header sample_header /\ exists b, hv_write sample_header = Ok b /\ length b = 148%nat.
Proof.
  split.
  - split; [|split; [|split; [discriminate|split; reflexivity]]]; unfold plain_header, sample_header; cbn [hv_edition av_version av_fix hv_cmd hv_ioff hv_sym hv_ciphered hv_rhead hv_only_layout hv_salt hv_rver
      hv_has_kdf hv_iter hv_hash].
    + repeat (apply conj); try reflexivity; try discriminate; try (vm_compute; lia); try (repeat constructor; discriminate).
      all: vm_compute; congruence.
    + repeat (apply conj); try reflexivity; try discriminate; try (vm_compute; lia); try (repeat constructor; discriminate).
      all: vm_compute; congruence.
  - eexists. split; vm_compute; reflexivity.
Qed.
(** any bytes accepted as a header of format 8 or more all of whose flags are known: the checksum of everything read before it
    stands right before what is left unread *)
Theorem C32_header_checksum : forall pause pos f h rest, hv_read pause pos f = Ok (h, rest) -> av_gt (hv_edition h) 7 = true ->
  (exists h0 bits g, hv_inner (S (length f)) pause pos f = Ok (h0, bits, g) /\ all_flags_known bits = false) \/
  exists body size, f = body ++ size ++ checksum 2 body ++ rest.
Proof.
  intros pause pos f h rest H A. destruct (hv_read_crc _ _ _ _ _ H) as (h0 & bits & g & body & HI & Ef & _ & K).
  destruct (all_flags_known bits) eqn:F; [right|left; eauto 10]. destruct (K A eq_refl) as (enc & ->).
  exists body, enc. rewrite checksum_spec. exact Ef.
Qed.
Print Assumptions C32_header_checksum.
(** an unknown flag makes a wrong checksum ignored: a header altered in two places (command line, flag) is accepted *)
Theorem C32_unknown_flag_refuted : exists h b b' h', good_header h /\ hv_write h = Ok b /\ length b' = length b /\
  hv_read true 0 b' = Ok (h', []) /\ hv_cmd h' <> hv_cmd h.
Proof.
  exists (mk_hv (mk_aver 11 2) Cnone [97] 512 Knone None None None 0 false false false true false [] 2000 Hsha1 0).
  exists [48; 59; 50; 0; 110; 97; 0; 3; 8; 128; 0; 0; 2; 0; 128; 0; 0; 0; 2; 102; 217],
         [48; 59; 50; 0; 110; 98; 0; 19; 8; 128; 0; 0; 2; 0; 128; 0; 0; 0; 2; 102; 217]. eexists.
  split; [split; [|reflexivity]|].
  { unfold plain_header. cbn [hv_edition av_version av_fix hv_cmd hv_ioff hv_sym hv_ciphered hv_rhead hv_only_layout hv_salt hv_rver hv_has_kdf hv_iter hv_hash].
    repeat (apply conj); try reflexivity; try discriminate; try (vm_compute; lia); try (repeat constructor; discriminate). all: vm_compute; congruence. }
  split; [vm_compute; reflexivity|]. split; [reflexivity|]. split; [vm_compute; reflexivity|discriminate].
Qed.
Print Assumptions C32_unknown_flag_refuted.
(** a header cut in the middle of the salt is never refused: the reading does not end, whatever time is given to it *)
Theorem C32_truncated_salt_refuted : forall salt p q, salt = p ++ q -> q <> [] ->
  forall fuel, read_string_size fuel (N.of_nat (length salt)) p = Err Fuel.
Proof.
  intros salt p q -> Hq fuel. unfold read_string_size.
  assert (L : (0 < length q)%nat) by (destruct q; [congruence|cbn; lia]).
  rewrite app_length. apply rss_short; lia.
Qed.
Print Assumptions C32_truncated_salt_refuted.
(** copying a header object loses the position recorded for the archive of reference when no slicing of reference is recorded *)
Theorem C32_header_copy_refuted : exists h, good_header h /\ hv_copy h <> h.
Proof.
  exists (mk_hv (mk_aver 11 2) Cnone [97] 512 Knone None None
    (Some (mk_hv (mk_aver 10 0) Cgzip [] 64 Knone None None None 0 false true false false false [] 2000 Hsha1 0)) 99
    false false false true false [] 2000 Hsha1 0).
  split; [|discriminate].
  split; [|split; [|split; [discriminate|split; reflexivity]]]; unfold plain_header; cbn [hv_edition av_version av_fix hv_cmd hv_ioff hv_sym hv_ciphered hv_rhead hv_only_layout hv_salt hv_rver hv_has_kdf hv_iter hv_hash];
    repeat (apply conj); try reflexivity; try discriminate; try (vm_compute; lia); try (repeat constructor; discriminate);
    vm_compute; congruence.
Qed.
Print Assumptions C32_header_copy_refuted.
(** with a slicing of reference, the copy is the same header *)
Theorem C32_header_copy : forall h, good_header h -> (hv_rver h <> None -> hv_rhead h <> None) -> hv_copy h = h.
Proof.
  intros h [P R] K.
  assert (S : forall v, hv_rver v = None -> hv_rterm v = 0 -> hv_copy v = v).
  { intros [ed zip cmd ioff sym key rh rv rt ol mk ci sg kd sa it ha bs] E1 E2. cbn in E1, E2. subst. cbn. destruct rh; reflexivity. }
  destruct (hv_rver h) as [v|] eqn:Ev.
  - destruct R as (_ & _ & R1 & R2). destruct h as [ed zip cmd ioff sym key rh rv rt ol mk ci sg kd sa it ha bs]. cbn in Ev, K. subst.
    cbn [hv_copy hv_edition hv_zip hv_cmd hv_ioff hv_sym hv_key hv_rhead hv_rver hv_rterm hv_only_layout
      hv_marks hv_ciphered hv_signed hv_has_kdf hv_salt hv_iter hv_hash hv_bs].
    rewrite (S v R1 R2). destruct rh; [reflexivity|]. destruct K; congruence.
  - apply S; auto.
Qed.
Print Assumptions C32_header_copy.
