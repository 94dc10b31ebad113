(** * Property C14: every archive byte has one place in one slice, and the stored layout is read back. *)
From Verif Require Import Base NumModel InfinintModel InfinintProof InfinintProof2 SliceModel.
Open Scope N_scope.

(** ** specification: the bytes of slice [n] *)
(** the trailing flag of each slice since format 8 *)
Definition flag_len (l : layout) : N := if older_sar_than_v8 l then 0 else 1.
Definition size_of (l : layout) (n : N) : N := if n =? 1 then first_size l else other_size l.
Definition header_of (l : layout) (n : N) : N := if n =? 1 then first_slice_header l else other_slice_header l.
(** place [o] of slice [n] holds archive data *)
Definition holds_data (l : layout) (n o : N) : Prop := 1 <= n /\ header_of l n <= o /\ o + flag_len l < size_of l n.
(** archive bytes stored in one slice, in all the slices before slice [n] *)
Definition payload (l : layout) (n : N) : N := size_of l n - flag_len l - header_of l n.
Definition before (l : layout) (n : N) : N := if n =? 1 then 0 else payload l 1 + (n - 2) * payload l 2.
(** slices are larger than what libdar adds in them; what slice_header.cpp:246-250 and sar.cpp check *)
Definition layout_ok (l : layout) : Prop :=
  first_size l <> 0 /\ other_size l <> 0 /\ first_slice_header l <> 0 /\ other_slice_header l <> 0 /\
  first_slice_header l + flag_len l <= first_size l /\ other_slice_header l + flag_len l < other_size l.

Theorem C14_before_is_the_sum : forall l n, 1 <= n -> before l (n + 1) = before l n + payload l n.
Proof.
  intros l n H. unfold before. destruct (N.eqb_spec (n + 1) 1); [lia|]. destruct (N.eqb_spec n 1) as [->|].
  - cbn. lia.
  - assert (payload l n = payload l 2) as ->.
    { unfold payload, size_of, header_of. destruct (N.eqb_spec n 1); [lia|]. reflexivity. }
    replace (n + 1 - 2) with (n - 2 + 1) by lia. lia.
Qed.

(** Every offset is given a place, which holds data, at the right rank: all the data of the previous slices and of this
    slice before it count for exactly [offset] bytes. *)
Theorem C14_offset_placed : forall l offset, layout_ok l ->
  exists n o, which_slice l offset = Ok (n, o) /\ holds_data l n o /\ before l n + (o - header_of l n) = offset.
Proof.
  intros [fs os fh oh old] offset (H1 & H2 & H3 & H4 & H5 & H6). unfold which_slice, holds_data, before, payload, size_of, header_of, flag_len in *.
  cbn [first_size other_size first_slice_header other_slice_header older_sar_than_v8] in *.
  destruct (N.eqb_spec fs 0); [lia|]. destruct (N.eqb_spec os 0); [lia|]. cbn [orb].
  destruct (N.ltb_spec fs fh); [destruct old; lia|]. destruct (N.ltb_spec os oh); [destruct old; lia|].
  destruct (N.eqb_spec fh 0); [lia|]. destruct (N.eqb_spec oh 0); [lia|].
  rewrite !nsub_ok by lia. cbn [bind].
  assert (Hp : exists p1 p2, (if old then Ok (fs - fh, os - oh) else let* a := nsub (fs - fh) 1 in let* b := nsub (os - oh) 1 in Ok (a, b)) = Ok (p1, p2) /\
     p1 = fs - (if old then 0 else 1) - fh /\ p2 = os - (if old then 0 else 1) - oh /\ 0 < p2).
  { destruct old.
    - exists (fs - fh), (os - oh). split; [reflexivity|]. lia.
    - rewrite !nsub_ok by lia. cbn [bind]. eexists _, _. split; [reflexivity|]. lia. }
  destruct Hp as (p1 & p2 & -> & E1 & E2 & Hp2). cbn [bind].
  destruct (N.ltb_spec offset p1) as [L|L].
  - exists 1, (offset + fh). split; [reflexivity|]. change (1 =? 1) with true. cbn iota. split; [lia|]. lia.
  - rewrite nsub_ok by lia. cbn [bind]. unfold neuclide. destruct (N.eqb_spec p2 0); [lia|]. cbn [bind].
    set (d := offset - p1). exists (d / p2 + 2), (d mod p2 + oh). split; [reflexivity|].
    assert (D : p2 * (d / p2) + d mod p2 = d) by (symmetry; apply N.div_mod; lia).
    assert (R : d mod p2 < p2) by (apply N.mod_lt; lia).
    generalize dependent (d / p2). intros q D. generalize dependent (d mod p2). intros r D R.
    destruct (N.eqb_spec (q + 2) 1); [lia|]. change (1 =? 1) with true. change (2 =? 1) with false. cbn iota. split; [lia|].
    replace (q + 2 - 2) with q by lia. rewrite <- E1, <- E2. lia.
Qed.
Print Assumptions C14_offset_placed.

(** Conversely every place holding data is the place of one offset: nothing is lost, nothing is stored twice. *)
Theorem C14_place_reached : forall l n o, layout_ok l -> holds_data l n o ->
  which_slice l (before l n + (o - header_of l n)) = Ok (n, o).
Proof.
  intros l n o Hl Ho. destruct (C14_offset_placed l (before l n + (o - header_of l n)) Hl) as (n' & o' & E & Ho' & B).
  rewrite E. assert (n' = n /\ o' = o) as [-> ->]; [|reflexivity].
  destruct l as [fs os fh oh old]. destruct Hl as (H1 & H2 & H3 & H4 & H5 & H6).
  unfold holds_data, before, payload, size_of, header_of, flag_len in *.
  cbn [first_size other_size first_slice_header other_slice_header older_sar_than_v8] in *.
  set (fl := if old then 0 else 1) in *. change (1 =? 1) with true in *. change (2 =? 1) with false in *. cbn iota in *.
  destruct (N.eqb_spec n 1) as [->|Hn]; destruct (N.eqb_spec n' 1) as [->|Hn'].
  - lia.
  - exfalso. generalize dependent ((n' - 2) * (os - fl - oh)). intros x B. lia.
  - exfalso. generalize dependent ((n - 2) * (os - fl - oh)). intros x E B. lia.
  - set (p := os - fl - oh) in *. set (a := n - 2) in *. set (b := n' - 2) in *.
    assert (Q : b * p + (o' - oh) = a * p + (o - oh)) by lia.
    assert (R1 : o - oh < p) by lia. assert (R2 : o' - oh < p) by lia.
    assert (b = a) by (apply (N.div_mod_unique p b a (o' - oh) (o - oh)); lia).
    subst b. assert (n' = n) by lia. subst n'. split; [reflexivity|]. fold a in Q. lia.
Qed.
Print Assumptions C14_place_reached.

Theorem C14_places_distinct : forall l x y n o, layout_ok l -> which_slice l x = Ok (n, o) -> which_slice l y = Ok (n, o) -> x = y.
Proof.
  intros l x y n o Hl Hx Hy.
  destruct (C14_offset_placed l x Hl) as (n1 & o1 & E1 & _ & B1). destruct (C14_offset_placed l y Hl) as (n2 & o2 & E2 & _ & B2).
  rewrite Hx in E1. rewrite Hy in E2. injection E1 as <- <-. injection E2 as <- <-. congruence.
Qed.
(** consecutive bytes are in the same slice side by side, or the second one opens the next slice when the first one closes
    its slice (when each slice holds data) *)
Theorem C14_consecutive : forall l x n o, layout_ok l -> 0 < payload l 1 -> which_slice l x = Ok (n, o) ->
  which_slice l (x + 1) = if o + 1 + flag_len l <? size_of l n then Ok (n, o + 1) else Ok (n + 1, header_of l (n + 1)).
Proof.
  intros l x n o Hl Hp Hx. destruct (C14_offset_placed l x Hl) as (n1 & o1 & E1 & Ho & B1).
  rewrite Hx in E1. injection E1 as <- <-.
  destruct (N.ltb_spec (o + 1 + flag_len l) (size_of l n)) as [L|L].
  - rewrite <- (C14_place_reached l n (o + 1) Hl); [|unfold holds_data in *; lia].
    f_equal. unfold holds_data in Ho. lia.
  - rewrite <- (C14_place_reached l (n + 1) (header_of l (n + 1)) Hl).
    + f_equal. rewrite C14_before_is_the_sum by (destruct Ho; lia). unfold payload, holds_data in *. lia.
    + destruct Hl as (_ & _ & _ & _ & H5 & H6). split; [lia|]. split; [lia|].
      unfold header_of, size_of. destruct Ho as [Ho _]. destruct (N.eqb_spec (n + 1) 1); [lia|]. exact H6.
Qed.
Print Assumptions C14_consecutive.

(** an archive that is not sliced *)
Theorem C14_single_slice : forall l offset, first_size l = 0 \/ other_size l = 0 ->
  which_slice l offset = Ok (1, offset + first_slice_header l).
Proof.
  intros l offset H. unfold which_slice. destruct H as [-> | ->]; [reflexivity|]. rewrite orb_comm. reflexivity.
Qed.

(** slices having no room for data are refused by an exception, never by a wrong answer *)
Theorem C14_no_room : forall l offset, first_size l <> 0 -> other_size l <> 0 ->
  other_size l <= other_slice_header l + flag_len l -> before l 2 <= offset ->
  exists e, which_slice l offset = Err e /\ e <> UB /\ e <> Fuel.
Proof.
  intros [fs os fh oh old] offset H1 H2 H3 H4. unfold which_slice, before, payload, size_of, header_of, flag_len in *.
  cbn [first_size other_size first_slice_header other_slice_header older_sar_than_v8] in *.
  change (2 =? 1) with false in *. change (1 =? 1) with true in *. cbn iota in *. replace (2 - 2) with 0 in * by lia. rewrite N.mul_0_l, N.add_0_r in *.
  destruct (N.eqb_spec fs 0); [lia|]. destruct (N.eqb_spec os 0); [lia|]. cbn [orb].
  destruct (N.ltb_spec fs fh); [eexists; split; [reflexivity|split; discriminate]|].
  destruct (N.ltb_spec os oh); [eexists; split; [reflexivity|split; discriminate]|].
  destruct (N.eqb_spec fh 0); [eexists; split; [reflexivity|split; discriminate]|].
  destruct (N.eqb_spec oh 0); [eexists; split; [reflexivity|split; discriminate]|].
  rewrite !nsub_ok by lia. cbn [bind]. destruct old.
  - cbn [bind]. destruct (N.ltb_spec offset (fs - fh)); [lia|]. rewrite nsub_ok by lia. cbn [bind]. unfold neuclide.
    destruct (N.eqb_spec (os - oh) 0); [|lia]. eexists; split; [reflexivity|split; discriminate].
  - unfold nsub at 1. destruct (N.ltb_spec (fs - fh) 1); [eexists; split; [reflexivity|split; discriminate]|]. cbn [bind].
    unfold nsub at 1. destruct (N.ltb_spec (os - oh) 1); [eexists; split; [reflexivity|split; discriminate]|]. cbn [bind].
    destruct (N.ltb_spec offset (fs - fh - 1)); [lia|]. rewrite nsub_ok by lia. cbn [bind]. unfold neuclide.
    destruct (N.eqb_spec (os - oh - 1) 0); [|lia]. eexists; split; [reflexivity|split; discriminate].
Qed.
Print Assumptions C14_no_room.

(** the layout stored in an archive is read back, and leaves what follows *)
Theorem C14_layout_roundtrip : forall l rest, layout_read (layout_write l ++ rest) = Ok (l, rest).
Proof.
  intros [a b c d old] rest. unfold layout_read, layout_write. cbn [first_size other_size first_slice_header other_slice_header older_sar_than_v8].
  rewrite <- !app_assoc. rewrite readN_dumpN. cbn [bind]. rewrite readN_dumpN. cbn [bind]. rewrite readN_dumpN. cbn [bind].
  rewrite readN_dumpN. cbn [bind]. destruct old; reflexivity.
Qed.
Print Assumptions C14_layout_roundtrip.
(** a truncated record is reported *)
Theorem C14_layout_truncated : forall l p q, layout_write l = p ++ q -> q <> [] -> layout_read p = Err Erange.
Proof.
  intros [a b c d old] p q E Hq. unfold layout_write in E.
  cbn [first_size other_size first_slice_header other_slice_header older_sar_than_v8] in E. unfold layout_read.
  assert (Step : forall n r p q, dumpN n ++ r = p ++ q ->
     (exists p1 p2, dumpN n = p1 ++ p2 /\ p2 <> [] /\ p = p1) \/ (exists p2, p = dumpN n ++ p2 /\ r = p2 ++ q)).
  { intros n r p0 q0 E0. destruct (Nat.lt_ge_cases (length p0) (length (dumpN n))) as [L|L].
    - left. exists p0, (skipn (length p0) (dumpN n)). split; [|split; [|reflexivity]].
      + apply (f_equal (firstn (length p0))) in E0. rewrite firstn_app_exact, firstn_app in E0.
        replace (length p0 - length (dumpN n))%nat with 0%nat in E0 by lia. cbn [firstn] in E0. rewrite app_nil_r in E0.
        rewrite <- E0 at 1. symmetry. apply firstn_skipn.
      + intro Q. apply (f_equal (@length N)) in Q. rewrite skipn_length in Q. cbn in Q. lia.
    - right. exists (skipn (length (dumpN n)) p0).
      assert (F : firstn (length (dumpN n)) p0 = dumpN n).
      { apply (f_equal (firstn (length (dumpN n)))) in E0. rewrite firstn_app_exact, firstn_app in E0.
        replace (length (dumpN n) - length p0)%nat with 0%nat in E0 by lia. cbn [firstn] in E0. rewrite app_nil_r in E0. auto. }
      split; [rewrite <- F at 1; symmetry; apply firstn_skipn|].
      apply (f_equal (skipn (length (dumpN n)))) in E0. rewrite skipn_app_exact, skipn_app in E0.
      replace (length (dumpN n) - length p0)%nat with 0%nat in E0 by lia. exact E0. }
  destruct (Step _ _ _ _ E) as [(p1 & p2 & E1 & N1 & ->)|(p2 & -> & E1)]; [rewrite (readN_prefix _ _ _ E1 N1); reflexivity|].
  rewrite readN_dumpN. cbn [bind]. clear E.
  destruct (Step _ _ _ _ E1) as [(p1 & p3 & E2 & N1 & ->)|(p3 & -> & E2)]; [rewrite (readN_prefix _ _ _ E2 N1); reflexivity|].
  rewrite readN_dumpN. cbn [bind]. clear E1.
  destruct (Step _ _ _ _ E2) as [(p1 & p4 & E3 & N1 & ->)|(p4 & -> & E3)]; [rewrite (readN_prefix _ _ _ E3 N1); reflexivity|].
  rewrite readN_dumpN. cbn [bind]. clear E2.
  destruct (Step _ _ _ _ E3) as [(p1 & p5 & E4 & N1 & ->)|(p5 & -> & E4)]; [rewrite (readN_prefix _ _ _ E4 N1); reflexivity|].
  rewrite readN_dumpN. cbn [bind]. destruct p5 as [|x p5]; [reflexivity|]. exfalso.
  injection E4 as <- E4. symmetry in E4. apply app_eq_nil in E4. destruct E4 as [_ E4]. auto.
Qed.
Print Assumptions C14_layout_truncated.

Example C14_instance : let l := mk_layout 100 80 20 10 false in layout_ok l /\ 0 < payload l 1 /\
  which_slice l 78 = Ok (1, 98) /\ which_slice l 79 = Ok (2, 10) /\ which_slice l 147 = Ok (2, 78) /\ which_slice l 148 = Ok (3, 10).
Proof. cbn zeta. unfold layout_ok, flag_len. cbn. repeat split; lia. Qed.
