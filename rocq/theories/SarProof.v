(** * Proofs about the model of sar: writing. *)
From Verif Require Import Base NumModel InfinintModel SliceModel HeaderModel FileModel PropSlice PropHeader SarModel.
Open Scope nat_scope.

(** ** the directory *)
Lemma d_get_mid : forall (X Y : disk) c, d_get (X ++ Some c :: Y) (S (length X)) = Some c.
Proof. intros. cbn [d_get]. rewrite app_nth2 by lia. rewrite Nat.sub_diag. reflexivity. Qed.
Lemma d_get_end : forall (X : disk), d_get X (S (length X)) = None.
Proof. intros. cbn [d_get]. apply nth_overflow. lia. Qed.
Lemma d_set_mid : forall (X Y : disk) x c, d_set (X ++ x :: Y) (S (length X)) c = X ++ Some c :: Y.
Proof.
  intros. unfold d_set. replace (S (length X) - 1) with (length X) by lia. rewrite firstn_app_exact. rewrite app_length. cbn [length].
  replace (length X - (length X + S (length Y))) with 0 by lia. cbn [repeat app].
  replace (skipn (S (length X)) (X ++ x :: Y)) with Y; [reflexivity|].
  replace (X ++ x :: Y) with ((X ++ [x]) ++ Y) by (rewrite <- app_assoc; reflexivity).
  replace (S (length X)) with (length (X ++ [x])) by (rewrite app_length; cbn [length]; lia). symmetry. apply skipn_app_exact.
Qed.
Lemma d_set_end : forall (X : disk) c, d_set X (S (length X)) c = X ++ [Some c].
Proof.
  intros. unfold d_set. replace (S (length X) - 1) with (length X) by lia. rewrite firstn_all, Nat.sub_diag.
  rewrite skipn_all2 by lia. reflexivity.
Qed.
Lemma overwrite_end : forall (c w : list N), overwrite c (length c) w = c ++ w.
Proof. intros. unfold overwrite. rewrite firstn_all, Nat.sub_diag, skipn_all2 by lia. cbn [repeat app]. rewrite app_nil_r. reflexivity. Qed.
Lemma overwrite_start : forall (b c : list N), overwrite (b ++ c) 0 b = b ++ c.
Proof. intros. unfold overwrite. cbn [firstn app Nat.sub repeat Nat.add]. rewrite skipn_app_exact. reflexivity. Qed.

(** ** the header of the slices *)
Section Writer.
Variables (name dname : list N) (fs os : N) (b : list N) (h1 : slice_header).
Hypothesis Hname : length name = 10.
Hypothesis Hdname : length dname = 10.
Hypothesis Hhdr : sh_write (mk_sh SAUV_MAGIC name dname flag_at_end (mk_layout fs os 0 0 false)) true false 0 = Ok (b, h1).
Let H := length b.
Let a := N.to_nat fs - H - 1.
Let o := N.to_nat os - H - 1.
Hypothesis Hfs : H + 1 <= N.to_nat fs.
Hypothesis Hos : H + 1 <= N.to_nat os.
Let hl := N.of_nat H.
Lemma h1_eq : h1 = mk_sh SAUV_MAGIC name dname flag_at_end (mk_layout fs os hl hl false) /\ (0 < H).
Proof.
  clear Hfs Hos a o.
  assert (E := Hhdr). unfold sh_write in E. apply HeaderProof3.bind_ok in E as (b0 & Eb & E).
  cbn [sh_sly first_size other_size first_slice_header other_slice_header older_sar_than_v8 negb andb N.eqb sh_magic sh_name sh_data sh_flag] in E.
  rewrite N.add_0_l in E. destruct (N.ltb_spec (N.of_nat (length b0)) min_size) as [G|G]; [discriminate|].
  destruct (_ && _); [discriminate|]. destruct (_ && _); [discriminate|].
  assert (b0 = b) by congruence. subst b0. assert (h1 = mk_sh SAUV_MAGIC name dname flag_at_end (mk_layout fs os (N.of_nat (length b)) (N.of_nat (length b)) false)) by congruence.
  split; [assumption|]. unfold min_size in G. unfold H. lia.
Qed.
Lemma write_again : forall first, sh_write h1 first false 0 = Ok (b, h1).
Proof.
  intro first. destruct h1_eq as [-> HH].
  assert (E := Hhdr). unfold sh_write in E. apply HeaderProof3.bind_ok in E as (b0 & Eb & E).
  assert (b0 = b). { repeat match type of E with (if ?c then _ else _) = _ => destruct c end; try discriminate; congruence. }
  subst b0. unfold sh_write. unfold sh_bytes in *. cbn [negb andb sh_sly older_sar_than_v8] in *. unfold build_tlv in *.
  cbn [sh_sly first_size other_size first_slice_header other_slice_header sh_magic sh_name sh_flag andb sh_data] in *. rewrite Eb. cbn [bind].
  replace (hl =? 0)%N with false by (unfold hl; symmetry; apply N.eqb_neq; lia). reflexivity.
Qed.

Definition cap (n : nat) : nat := if n =? 1 then a else o.
Lemma size_h1 : forall s n, s_hdr s = h1 \/ s_hdr s = mk_sh SAUV_MAGIC name dname (sh_flag (s_hdr s)) (mk_layout fs os hl hl false) ->
  sl_size s n = H + cap n + 1 /\ sl_head s n = H.
Proof.
  intros s n E. assert (Es : sh_sly (s_hdr s) = mk_layout fs os hl hl false).
  { destruct E as [->| ->]; [destruct h1_eq as [-> _]|]; reflexivity. }
  unfold sl_size, sl_head, cap. rewrite Es. cbn [first_size other_size first_slice_header other_slice_header].
  unfold a, o, hl. destruct (n =? 1); rewrite ?Nat2N.id; lia.
Qed.

(** a slice that is not the last one, and the last one *)
Definition full (c : list N) : option (list N) := Some (b ++ c ++ [flag_non_terminal]).
Definition final (c : list N) : option (list N) := Some (b ++ c ++ [flag_terminal]).
Definition okpre (pre : list (list N)) : Prop := forall i, i < length pre -> length (nth i pre []) = cap (S i).
Lemma okpre_snoc : forall pre l, okpre pre -> length l = cap (S (length pre)) -> okpre (pre ++ [l]).
Proof.
  intros pre l P L i Hi. rewrite app_length in Hi. cbn [length] in Hi. destruct (Nat.eq_dec i (length pre)) as [->|].
  - rewrite app_nth2, Nat.sub_diag by lia. exact L.
  - rewrite app_nth1 by lia. apply P. lia.
Qed.
Definition W (s : sar) (pre : list (list N)) (l : list N) : Prop :=
  okpre pre /\ length l <= cap (S (length pre)) /\
  exists m, s = mk_sar (map full pre ++ [Some (b ++ l)]) h1 false (Some (S (length pre), H + length l)) (S (length pre)) (H + length l) (S (length pre)) None m.

Lemma content_W : forall pre l h i f c off m la z,
  content (mk_sar (map full pre ++ [Some (b ++ l)]) h i f c off m la z) (S (length pre)) = b ++ l.
Proof. intros. unfold content. cbn [s_disk]. rewrite <- (map_length full pre). rewrite d_get_mid. reflexivity. Qed.
Lemma d_set_W : forall pre x c, d_set (map full pre ++ [x]) (S (length pre)) c = map full pre ++ [Some c].
Proof. intros. rewrite <- (map_length full pre). apply d_set_mid. Qed.

(** closing the current slice *)
Lemma close_W : forall s pre l, W s pre l -> length l = cap (S (length pre)) ->
  exists m, close_w false s = (Ok tt, mk_sar (map full (pre ++ [l])) h1 false None (S (length pre)) (H + length l) (S (length pre)) None m).
Proof.
  intros s pre l (P & L & m & ->) E. exists m. unfold close_w. cbn [s_fd is_none]. unfold mbind.
  match goal with |- context[sl_size ?s ?n] => destruct (size_h1 s n (or_introl eq_refl)) as [-> _] end.
  cbn [s_cur]. set (k := if 1 <? S (length pre) then 2 else 1).
  assert (Ek : cap k = length l). { rewrite E. unfold k, cap. destruct pre; reflexivity. }
  rewrite Ek. unfold sub. replace (H + length l + 1 <? 1) with false by (symmetry; apply Nat.ltb_ge; lia).
  replace (H + length l + 1 - 1) with (H + length l) by lia. unfold fd_skip. cbn [s_fd]. unfold set_fd at 1. unfold fd_pos at 1. cbn [s_fd].
  rewrite Nat.ltb_irrefl. unfold fd_write, set_fd. cbn [s_fd s_disk s_hdr s_init s_cur s_off s_max s_last s_szcur]. rewrite content_W, d_set_W.
  unfold upd, set_fd, set_disk. cbn [s_fd s_disk s_hdr s_init s_cur s_off s_max s_last s_szcur].
  replace (H + length l) with (length (b ++ l)) at 1 by (rewrite app_length; reflexivity). rewrite overwrite_end.
  rewrite map_app. cbn [map]. unfold full at 3. rewrite <- app_assoc. reflexivity.
Qed.
Lemma terminate_W : forall s pre l, W s pre l ->
  exists m, w_terminate s = (Ok tt, mk_sar (map full pre ++ [final l]) h1 false None (S (length pre)) (H + length l) (S (length pre)) None m).
Proof.
  intros s pre l (P & L & m & ->). exists m. unfold w_terminate, close_w. cbn [s_fd is_none]. unfold mbind.
  match goal with |- context[sl_size ?s ?n] => destruct (size_h1 s n (or_introl eq_refl)) as [-> _] end.
  cbn [s_cur]. set (k := if 1 <? S (length pre) then 2 else 1).
  assert (Ek : cap k = cap (S (length pre))). { unfold k, cap. destruct pre; reflexivity. }
  rewrite Ek. unfold sub. replace (_ <? 1) with false by (symmetry; apply Nat.ltb_ge; lia).
  unfold fd_skip_eof. cbn [s_fd]. rewrite content_W. unfold set_fd at 1. unfold fd_pos at 1. cbn [s_fd].
  replace (_ <? length (b ++ l)) with false by (symmetry; apply Nat.ltb_ge; rewrite app_length; fold H; lia).
  unfold fd_write, set_fd. cbn [s_fd s_disk s_hdr s_init s_cur s_off s_max s_last s_szcur]. rewrite content_W, d_set_W.
  unfold upd, set_fd, set_disk. cbn [s_fd s_disk s_hdr s_init s_cur s_off s_max s_last s_szcur].
  rewrite overwrite_end. unfold final. rewrite <- app_assoc. reflexivity.
Qed.
(** opening the next one *)
Lemma open_next_W : forall ow s pre l, W s pre l -> length l = cap (S (length pre)) ->
  exists s', open_file_w ow (S (s_cur s)) s = (Ok tt, s') /\ W s' (pre ++ [l]) [].
Proof.
  intros ow s pre l Hw E. destruct (close_W s pre l Hw E) as (m & C). destruct Hw as (P & L & m' & ->). cbn [s_cur].
  set (X := map full (pre ++ [l])).
  assert (LP : S (S (length pre)) = S (length X)) by (unfold X; rewrite map_length, app_length; cbn [length]; lia).
  unfold open_file_w at 1. cbn [s_fd is_none s_cur]. replace (S (length pre) =? S (S (length pre))) with false by (symmetry; apply Nat.eqb_neq; lia).
  cbn [orb negb]. unfold mbind. rewrite C. rewrite LP. unfold upd, set_init. cbn [s_fd s_disk s_hdr s_init s_cur s_off s_max s_last s_szcur].
  unfold open_writeonly. cbn [s_disk]. fold X.
  rewrite d_get_end, d_set_end. unfold set_flag, set_disk, set_hdr. cbn [s_fd s_disk s_hdr s_init s_cur s_off s_max s_last s_szcur].
  replace (mk_sh _ _ _ flag_at_end _) with h1 by (destruct h1_eq as [-> _]; reflexivity).
  rewrite write_again. unfold mbind, upd, fd_write, set_fd, set_disk, set_hdr, set_szcur. cbn [s_fd s_disk s_hdr s_init s_cur s_off s_max s_last s_szcur].
  eexists. split; [reflexivity|]. split; [apply okpre_snoc; auto|]. split; [cbn [length]; lia|].
  unfold set_cur, set_off, set_max. cbn [s_fd s_disk s_hdr s_init s_cur s_off s_max s_last s_szcur].
  match goal with |- context[sl_head ?s ?n] => destruct (size_h1 s n (or_introl eq_refl)) as [_ ->] end.
  fold X. replace (S (length (pre ++ [l]))) with (S (length X)) by (unfold X; rewrite map_length; reflexivity).
  cbn [length]. rewrite Nat.add_0_r, app_nil_r. rewrite Nat.max_r by lia.
  unfold content. cbn [s_disk]. rewrite d_get_mid, d_set_mid. rewrite Nat.add_0_l.
  change 0 with (length (@nil N)) at 1. rewrite (overwrite_end []). eexists. reflexivity.
Qed.
(** when nothing fits in the slices after the first one *)
Lemma endless_W : forall ow x w fuel s pre l, o = 0 -> pre <> [] -> W s pre l -> fst (write_loop fuel ow (x :: w) s) = Err Fuel.
Proof.
  intros ow x w. induction fuel as [|k IH]; intros s pre l Ho Np Hw; [reflexivity|].
  change (write_loop (S k) ow (x :: w) s) with
      ((match (let* r := sub (sl_size s (s_cur s)) (s_off s) in sub r 1) with
        | Err e => (Err e, s)
        | Ok room => let n := Nat.min room (length (x :: w)) in
          if 0 <? n then (let! _ := fd_write (firstn n (x :: w)) in let! _ := upd (fun s => set_off (s_off s + n) s) in write_loop k ow (skipn n (x :: w))) s
          else (let! _ := open_file_w ow (S (s_cur s)) in write_loop k ow (x :: w)) s end)).
  assert (Hw' := Hw). destruct Hw' as (P & L & m & Es).
  assert (Ec : cap (S (length pre)) = 0) by (unfold cap; destruct pre; [congruence|]; cbn [length Nat.eqb]; exact Ho).
  assert (Er : (let* r := sub (sl_size s (s_cur s)) (s_off s) in sub r 1) = Ok 0).
  { destruct (size_h1 s (s_cur s)) as [-> _]; [left; rewrite Es; reflexivity|]. rewrite Es. cbn [s_cur s_off]. unfold sub.
    replace (_ <? H + length l) with false by (symmetry; apply Nat.ltb_ge; lia). cbn [bind].
    replace (_ <? 1) with false by (symmetry; apply Nat.ltb_ge; lia). f_equal. lia. }
  rewrite Er. cbn [Nat.min Nat.ltb Nat.leb].
  destruct (open_next_W ow s pre l Hw ltac:(lia)) as (s1 & E1 & W1). unfold mbind. rewrite E1. apply (IH s1 (pre ++ [l]) []); auto. intro Q. destruct pre; discriminate.
Qed.
Hypothesis Pfs : H + 1 < N.to_nat fs.
Hypothesis Pos : H + 1 < N.to_nat os.
Lemma cap_pos : forall n, 0 < cap n.
Proof. intro n. unfold cap, a, o. destruct (n =? 1); lia. Qed.
Lemma okpre_len : forall pre, okpre pre -> length pre <= length (concat pre).
Proof.
  induction pre as [|c pre IH] using rev_ind; intro P; [cbn; lia|].
  rewrite concat_app, !app_length. cbn [concat length]. rewrite app_nil_r.
  assert (P' : okpre pre). { intros i Hi. rewrite <- (P i) by (rewrite app_length; lia). rewrite app_nth1 by lia. reflexivity. }
  specialize (IH P'). specialize (P (length pre) ltac:(rewrite app_length; cbn [length]; lia)). rewrite app_nth2, Nat.sub_diag in P by lia. cbn [nth] in P.
  pose proof (cap_pos (S (length pre))). lia.
Qed.
(** writing *)
Lemma write_W : forall ow fuel w s pre l, W s pre l ->
  2 * length w <= fuel + (if length l <? cap (S (length pre)) then 1 else 0) ->
  exists s' pre' l', write_loop fuel ow w s = (Ok tt, s') /\ W s' pre' l' /\ concat pre' ++ l' = concat pre ++ l ++ w /\
    (l' <> [] \/ (w = [] /\ pre' = pre /\ l' = l)).
Proof.
  intros ow. induction fuel as [|k IH]; intros w s pre l Hw Hf.
  - destruct w as [|x w]; [|cbn [length] in Hf; destruct (_ <? _); lia]. exists s, pre, l. rewrite app_nil_r. cbn [write_loop]. split; [reflexivity|]. split; [exact Hw|]. auto.
  - destruct w as [|x w]; [exists s, pre, l; rewrite app_nil_r; cbn [write_loop]; split; [reflexivity|]; split; [exact Hw|]; auto|]. set (ww := x :: w) in *.
    assert (Lw : 0 < length ww) by (cbn; lia). change (write_loop (S k) ow ww s) with
      ((match (let* r := sub (sl_size s (s_cur s)) (s_off s) in sub r 1) with
        | Err e => (Err e, s)
        | Ok room => let n := Nat.min room (length ww) in
          if 0 <? n then (let! _ := fd_write (firstn n ww) in let! _ := upd (fun s => set_off (s_off s + n) s) in write_loop k ow (skipn n ww)) s
          else (let! _ := open_file_w ow (S (s_cur s)) in write_loop k ow ww) s end)).
    assert (Hw' := Hw). destruct Hw' as (P & L & m & Es).
    assert (Er : (let* r := sub (sl_size s (s_cur s)) (s_off s) in sub r 1) = Ok (cap (S (length pre)) - length l)).
    { destruct (size_h1 s (s_cur s)) as [-> _]; [left; rewrite Es; reflexivity|]. rewrite Es. cbn [s_cur s_off]. unfold sub.
      replace (_ <? H + length l) with false by (symmetry; apply Nat.ltb_ge; lia). cbn [bind].
      replace (_ <? 1) with false by (symmetry; apply Nat.ltb_ge; lia). f_equal. lia. }
    rewrite Er. cbn zeta. set (room := cap (S (length pre)) - length l).
    destruct (Nat.ltb_spec 0 (Nat.min room (length ww))) as [G|G].
    + set (n := Nat.min room (length ww)) in *.
      assert (St : exists s1, (let! _ := fd_write (firstn n ww) in upd (fun s => set_off (s_off s + n) s)) s = (Ok tt, s1) /\ W s1 pre (l ++ firstn n ww)).
      { rewrite Es. unfold mbind, fd_write, upd, set_fd, set_disk, set_off. cbn [s_fd s_disk s_hdr s_init s_cur s_off s_max s_last s_szcur].
        rewrite content_W, d_set_W. eexists. split; [reflexivity|]. split; [auto|].
        assert (Ln : length (firstn n ww) = n) by (rewrite firstn_length; lia).
        split; [rewrite app_length, Ln; unfold n, room; lia|]. exists m. f_equal.
        - rewrite (app_assoc b), <- (overwrite_end (b ++ l)), app_length. reflexivity.
        - rewrite app_length. do 2 f_equal. lia.
        - rewrite app_length. lia. }
      destruct St as (s1 & E1 & W1).
      destruct (IH (skipn n ww) s1 pre (l ++ firstn n ww) W1) as (s' & pre' & l' & E2 & W2 & C & K).
      { rewrite skipn_length, app_length, firstn_length. destruct (Nat.ltb_spec (length l) (cap (S (length pre)))); unfold room in *; destruct (_ <? _) eqn:?; lia. }
      exists s', pre', l'. split; [|split; [exact W2|split]].
      * unfold mbind in E1 |- *. destruct (fd_write (firstn n ww) s) as [[u|e] s2]; [|discriminate]. rewrite E1. exact E2.
      * rewrite C, <- app_assoc, firstn_skipn. reflexivity.
      * destruct K as [K|(K1 & K2 & K3)]; [left; exact K|]. left. rewrite K3. intro Z. apply app_eq_nil in Z as [_ Z].
        assert (length (firstn n ww) = 0) by (rewrite Z; reflexivity). rewrite firstn_length in *. lia.
    + assert (Lf : length l = cap (S (length pre))) by (unfold room in G; lia).
      destruct (open_next_W ow s pre l Hw Lf) as (s1 & E1 & W1).
      destruct (IH ww s1 (pre ++ [l]) [] W1) as (s' & pre' & l' & E2 & W2 & C & K).
      { pose proof (cap_pos (S (length (pre ++ [l])))) as CP. cbn [length] in *. destruct (Nat.ltb_spec 0 (cap (S (length (pre ++ [l]))))); [|lia].
        rewrite Lf, Nat.ltb_irrefl in Hf. lia. }
      exists s', pre', l'. split; [unfold mbind; rewrite E1; exact E2|]. split; [exact W2|]. split.
      * rewrite C. rewrite concat_app. cbn [concat app]. rewrite app_nil_r, <- app_assoc. reflexivity.
      * destruct K as [K|(K1 & _)]; [left; exact K|discriminate].
Qed.
(** creating the archive *)
Lemma make_W : forall ow, exists s, w_make ow [] os fs name dname = (Ok tt, s) /\ W s [] [].
Proof.
  intro ow. unfold w_make. destruct h1_eq as [Eh HH]. assert (E := Hhdr).
  assert (Lb : 16 <= H). 
  { unfold sh_write in E. apply HeaderProof3.bind_ok in E as (b0 & Eb & E).
    cbn [sh_sly first_size other_size first_slice_header other_slice_header older_sar_than_v8 negb andb N.eqb sh_magic sh_name sh_data sh_flag] in E.
    rewrite N.add_0_l in E. destruct (N.ltb_spec (N.of_nat (length b0)) min_size) as [G|G]; [discriminate|].
    destruct (_ && _); [discriminate|]. destruct (_ && _); [discriminate|]. assert (b0 = b) by congruence. subst b0. unfold min_size in G. unfold H. lia. }
  replace (os <? min_size + 1)%N with false by (unfold min_size; symmetry; apply N.ltb_ge; lia).
  replace (fs <? min_size + 1)%N with false by (unfold min_size; symmetry; apply N.ltb_ge; lia).
  unfold open_file_w. cbn [s_fd is_none orb]. unfold mbind, close_w, upd, set_init. cbn [s_fd is_none s_disk s_hdr s_init s_cur s_off s_max s_last s_szcur].
  unfold open_writeonly. cbn [s_disk d_get nth]. change (d_set [] 1 []) with [Some (@nil N)].
  unfold set_flag, set_disk, set_hdr. cbn [s_fd s_disk s_hdr s_init s_cur s_off s_max s_last s_szcur sh_magic sh_name sh_data sh_sly].
  change (1 =? 1) with true. rewrite E. unfold mbind, upd, fd_write, set_fd, set_disk, set_hdr, set_szcur. cbn [s_fd s_disk s_hdr s_init s_cur s_off s_max s_last s_szcur].
  eexists. split; [reflexivity|]. split; [intros i Hi; cbn in Hi; lia|]. split; [cbn [length]; lia|].
  unfold set_cur, set_off, set_max. cbn [s_fd s_disk s_hdr s_init s_cur s_off s_max s_last s_szcur].
  match goal with |- context[sl_head ?s ?n] => destruct (size_h1 s n (or_introl eq_refl)) as [_ ->] end.
  cbn [length map app]. rewrite Nat.add_0_r, app_nil_r. unfold content. cbn [s_disk d_get nth]. change (d_set [Some []] 1) with (d_set ([] ++ [Some (@nil N)]) (S (length (@nil (option (list N)))))).
  rewrite d_set_mid. cbn [app]. rewrite (overwrite_end []). cbn [app Nat.add Nat.max]. eexists. reflexivity.
Qed.

(** ** places *)
Definition base (n : nat) : nat := match n with 0 | 1 => 0 | S (S k) => a + k * o end.
Lemma base_S : forall n, 1 <= n -> base (S n) = base n + cap n.
Proof. intros [|[|n]] L; [lia|unfold cap; cbn; lia|]. unfold cap. replace (S (S n) =? 1) with false by reflexivity. cbn [base]. nia. Qed.
Lemma okpre_app : forall pre post, okpre (pre ++ post) -> okpre pre.
Proof. intros pre post P i Hi. rewrite <- (P i) by (rewrite app_length; lia). rewrite app_nth1 by lia. reflexivity. Qed.
Lemma base_concat : forall pre, okpre pre -> length (concat pre) = base (S (length pre)).
Proof.
  induction pre as [|c pre IH] using rev_ind; intro P; [reflexivity|].
  rewrite concat_app, !app_length. cbn [concat length]. rewrite app_nil_r.
  replace (S (length pre + 1)) with (S (S (length pre))) by lia. rewrite base_S by lia. rewrite IH by (eapply okpre_app; eauto).
  f_equal. specialize (P (length pre) ltac:(rewrite app_length; cbn [length]; lia)). rewrite app_nth2, Nat.sub_diag in P by lia. exact P.
Qed.
Lemma place_exists : forall p, exists n r, 1 <= n /\ p = base n + r /\ r < cap n.
Proof.
  induction p as [|p (n & r & L & E & R)].
  - exists 1, 0. pose proof (cap_pos 1). cbn [base]. lia.
  - destruct (Nat.eq_dec (S r) (cap n)) as [Q|Q].
    + exists (S n), 0. rewrite base_S by auto. pose proof (cap_pos (S n)). lia.
    + exists n, (S r). lia.
Qed.
Lemma base_mono : forall n k, 1 <= n -> base n + k <= base (n + k).
Proof.
  intros n k L. induction k as [|k IH]; [replace (n + 0) with n by lia; lia|]. replace (n + S k) with (S (n + k)) by lia. rewrite base_S by lia. pose proof (cap_pos (n + k)). lia.
Qed.
Lemma place_unique : forall n r m q, 1 <= n -> 1 <= m -> base n + r = base m + q -> r < cap n -> q < cap m -> n = m /\ r = q.
Proof.
  assert (K : forall n r m q, 1 <= n -> n < m -> base n + r = base m + q -> r < cap n -> False).
  { intros n r m q L1 L2 E R. replace m with (S n + (m - S n)) in E by lia. pose proof (base_mono (S n) (m - S n) ltac:(lia)) as B. rewrite base_S in B by auto. lia. }
  intros n r m q L1 L2 E R Q. destruct (Nat.lt_trichotomy n m) as [C|[->|C]]; [exfalso; eauto|lia|exfalso; eapply (K m q n r); eauto].
Qed.
Definition good_layout (s : sar) : Prop := sh_sly (s_hdr s) = mk_layout fs os hl hl false.
Lemma size_gl : forall s n, good_layout s -> sl_size s n = H + cap n + 1 /\ sl_head s n = H.
Proof.
  intros s n Es. unfold good_layout in Es. unfold sl_size, sl_head, cap. rewrite Es. cbn [first_size other_size first_slice_header other_slice_header].
  unfold a, o, hl. destruct (n =? 1); rewrite ?Nat2N.id; lia.
Qed.
Lemma which_place : forall s n r, good_layout s -> 1 <= n -> r < cap n -> which s (base n + r) = Ok (n, H + r).
Proof.
  intros s n r G L R. unfold which. rewrite G. destruct h1_eq as [_ HH]. set (l := mk_layout fs os hl hl false).
  assert (LO : layout_ok l).
  { unfold layout_ok, l, flag_len, hl. cbn [first_size other_size first_slice_header other_slice_header older_sar_than_v8]. lia. }
  assert (SZ : size_of l (N.of_nat n) = N.of_nat (H + cap n + 1)).
  { unfold size_of, l, cap, a, o. cbn [first_size other_size]. destruct (N.eqb_spec (N.of_nat n) 1), (Nat.eqb_spec n 1); lia. }
  assert (HD : forall k, header_of l k = hl) by (intro k; unfold header_of, l; cbn [first_slice_header other_slice_header]; destruct (k =? 1)%N; reflexivity).
  assert (PL : holds_data l (N.of_nat n) (N.of_nat (H + r))).
  { unfold holds_data. rewrite HD, SZ. unfold flag_len, l, hl. cbn [older_sar_than_v8]. lia. }
  pose proof (C14_place_reached l _ _ LO PL) as E. rewrite HD in E.
  assert (B : before l (N.of_nat n) = N.of_nat (base n)).
  { unfold before, payload. rewrite !HD. unfold size_of, flag_len, l. cbn [first_size other_size older_sar_than_v8].
    change (1 =? 1)%N with true. change (2 =? 1)%N with false. cbn iota. destruct n as [|[|k]]; [lia|reflexivity|].
    replace (N.of_nat (S (S k)) =? 1)%N with false by (symmetry; apply N.eqb_neq; lia). cbn [base]. unfold a, o, hl.
    replace (N.of_nat (S (S k)) - 2)%N with (N.of_nat k) by lia.
    replace (os - 1 - N.of_nat H)%N with (N.of_nat (N.to_nat os - H - 1)) by lia. rewrite Nat2N.inj_add, Nat2N.inj_mul.
    replace (fs - 1 - N.of_nat H)%N with (N.of_nat (N.to_nat fs - H - 1)) by lia. reflexivity. }
  rewrite B in E. replace (N.of_nat (base n) + (N.of_nat (H + r) - hl))%N with (N.of_nat (base n + r)) in E by (unfold hl; lia).
  rewrite E. cbn [bind]. rewrite !Nat2N.id. reflexivity.
Qed.
Lemma position_place : forall s n r, good_layout s -> 1 <= n -> s_cur s = n -> s_off s = H + r -> position s = Ok (base n + r).
Proof.
  intros s n r G L Ec Eo. unfold position. destruct (size_gl s 1 G) as [-> ->]. destruct (size_gl s 2 G) as [-> ->]. rewrite Ec, Eo.
  unfold sub. destruct n as [|[|k]]; [lia| |].
  - change (1 <? 1) with false. cbn iota. replace (_ <? H) with false by (symmetry; apply Nat.ltb_ge; lia). f_equal. cbn [base]. lia.
  - replace (1 <? S (S k)) with true by reflexivity. cbn iota.
    replace (H + cap 1 + 1 <? H) with false by (symmetry; apply Nat.ltb_ge; lia). cbn [bind].
    replace (H + cap 1 + 1 - H <? 1) with false by (symmetry; apply Nat.ltb_ge; lia). cbn [bind].
    replace (H + cap 2 + 1 <? H) with false by (symmetry; apply Nat.ltb_ge; lia). cbn [bind].
    replace (H + cap 2 + 1 - H <? 1) with false by (symmetry; apply Nat.ltb_ge; lia). cbn [bind].
    change (cap 1) with a. change (cap 2) with o. replace (S (S k) - 2) with k by lia. replace (H + a + 1 - H - 1) with a by lia.
    replace (H + o + 1 - H - 1) with o by lia. cbn [base]. generalize (k * o). intro X'.
    destruct (Nat.ltb_spec (a + X' + (H + r)) H) as [Q|Q]; [exfalso; clear - Q; lia|]. f_equal. clear. lia.
Qed.
Lemma read_header : forall rest z pause, sh_read (Some z) pause 0 (b ++ rest) =
  Ok (mk_sh SAUV_MAGIC name (if label_is_cleared dname then name else dname) flag_at_end (mk_layout fs os hl hl false), rest).
Proof.
  intros rest z pause. destruct (C32_slice_header name dname flag_at_end fs os true b h1 rest pause z) as [E1 E2]; auto; try lia.
  rewrite E1. do 3 f_equal. rewrite E2. reflexivity.
Qed.

(** ** truncating *)
Lemma W_position : forall s pre l, W s pre l -> position s = Ok (length (concat pre ++ l)) /\ good_layout s.
Proof.
  intros s pre l (P & L & m & ->).
  assert (G : good_layout (mk_sar (map full pre ++ [Some (b ++ l)]) h1 false (Some (S (length pre), H + length l)) (S (length pre)) (H + length l) (S (length pre)) None m)).
  { unfold good_layout. cbn [s_hdr]. destruct h1_eq as [-> _]. reflexivity. }
  split; auto. rewrite (position_place _ (S (length pre)) (length l)); auto; [|lia]. rewrite app_length, base_concat by auto. reflexivity.
Qed.
Lemma firstn_concat : forall pre (c : list N) post r, r <= length c ->
  firstn (length (concat pre) + r) (concat (pre ++ c :: post)) = concat pre ++ firstn r c.
Proof.
  intros pre c post r L. rewrite concat_app. rewrite firstn_app_2. f_equal. cbn [concat]. rewrite firstn_app.
  replace (r - length c) with 0 by lia. cbn [firstn]. rewrite app_nil_r. reflexivity.
Qed.
Lemma name_eqb_refl : forall n, name_eqb n n = true.
Proof. intro n. unfold name_eqb. destruct (list_eq_dec N.eq_dec n n); congruence. Qed.
Lemma close_any_W : forall s pre l, W s pre l ->
  exists junk m, close_w false s = (Ok tt, mk_sar (map full pre ++ [Some junk]) h1 false None (S (length pre)) (H + length l) (S (length pre)) None m).
Proof.
  intros s pre l (P & L & m & ->). eexists. exists m. unfold close_w. cbn [s_fd is_none]. unfold mbind.
  match goal with |- context[sl_size ?s ?n] => destruct (size_h1 s n (or_introl eq_refl)) as [-> _] end.
  cbn [s_cur]. set (k := if 1 <? S (length pre) then 2 else 1).
  unfold sub. replace (H + cap k + 1 <? 1) with false by (symmetry; apply Nat.ltb_ge; lia).
  unfold fd_skip. cbn [s_fd]. unfold set_fd at 1. unfold fd_pos at 1. cbn [s_fd].
  rewrite Nat.ltb_irrefl. unfold fd_write, set_fd. cbn [s_fd s_disk s_hdr s_init s_cur s_off s_max s_last s_szcur]. rewrite content_W, d_set_W.
  unfold upd, set_fd, set_disk. cbn [s_fd s_disk s_hdr s_init s_cur s_off s_max s_last s_szcur]. reflexivity.
Qed.
(** going back to slice [S (length pre)] *)
Lemma reopen_W : forall ow s pre c mid l, W s (pre ++ c :: mid) l ->
  exists s' junk, open_file_w ow (S (length pre)) s = (Ok tt, s') /\
    exists m z, s' = mk_sar (map full pre ++ full c :: map full mid ++ [Some junk]) h1 false (Some (S (length pre), H)) (S (length pre)) H m None z.
Proof.
  intros ow s pre c mid l Hw. destruct (close_any_W s _ l Hw) as (junk & z & C). destruct Hw as (P & L & m & ->). unfold open_file_w. cbn [s_fd is_none s_cur].
  assert (LL : length (pre ++ c :: mid) = length pre + S (length mid)) by (rewrite app_length; reflexivity).
  replace (S (length (pre ++ c :: mid)) =? S (length pre)) with false by (symmetry; apply Nat.eqb_neq; lia). cbn [orb negb].
  unfold mbind. rewrite C. unfold upd, set_init. cbn [s_fd s_disk s_hdr s_init s_cur s_off s_max s_last s_szcur].
  rewrite map_app. cbn [map]. rewrite <- app_assoc. cbn [app]. set (X := map full pre). replace (S (length pre)) with (S (length X)) by (unfold X; rewrite map_length; reflexivity).
  unfold open_writeonly. cbn [s_disk s_hdr].
  change (full c) with (Some (b ++ c ++ [flag_non_terminal])). rewrite d_get_mid, read_header. cbn [sh_name]. destruct h1_eq as [Eh _].
  replace (sh_name h1) with name by (rewrite Eh; reflexivity).
  rewrite name_eqb_refl. rewrite d_set_mid. unfold set_flag, set_disk, set_hdr. cbn [s_fd s_disk s_hdr s_init s_cur s_off s_max s_last s_szcur].
  replace (mk_sh _ _ _ flag_at_end _) with h1 by (rewrite Eh; reflexivity).
  rewrite write_again. unfold mbind, upd, fd_write, set_fd, set_disk, set_hdr, set_szcur. cbn [s_fd s_disk s_hdr s_init s_cur s_off s_max s_last s_szcur].
  unfold content. cbn [s_disk]. rewrite d_get_mid, d_set_mid, overwrite_start.
  unfold set_cur, set_off, set_max. cbn [s_fd s_disk s_hdr s_init s_cur s_off s_max s_last s_szcur].
  match goal with |- context[sl_head ?s ?n] => destruct (size_h1 s n (or_introl eq_refl)) as [_ ->] end.
  rewrite Nat.add_0_l. fold H. eexists. exists junk. split; [reflexivity|]. eauto.
Qed.
Lemma d_remove_mid : forall (X : disk) x Y, d_remove_above (X ++ x :: Y) (S (length X)) = X ++ [x].
Proof.
  intros. unfold d_remove_above. replace (X ++ x :: Y) with ((X ++ [x]) ++ Y) by (rewrite <- app_assoc; reflexivity).
  replace (S (length X)) with (length (X ++ [x])) by (rewrite app_length; cbn; lia). apply firstn_app_exact.
Qed.
Lemma d_remove_W : forall pre x Y, d_remove_above (map full pre ++ x :: Y) (S (length pre)) = map full pre ++ [x].
Proof. intros. rewrite <- (map_length full pre). apply d_remove_mid. Qed.
Lemma firstn_head : forall r (c t : list N), r <= length c -> firstn (H + r) (b ++ c ++ t) = b ++ firstn r c.
Proof.
  intros r c t L. unfold H. rewrite firstn_app_2. f_equal. rewrite firstn_app. replace (r - length c) with 0 by lia. cbn [firstn]. apply app_nil_r.
Qed.
Lemma truncate_W : forall ow s pre l pos, W s pre l -> pos <= length (concat pre ++ l) ->
  exists s' pre' l', w_truncate ow pos s = (Ok tt, s') /\ W s' pre' l' /\ concat pre' ++ l' = firstn pos (concat pre ++ l).
Proof.
  intros ow s pre l pos Hw Hp. destruct (W_position s pre l Hw) as [Epos G]. assert (Hw' := Hw). destruct Hw' as (P & L & m & Es).
  destruct (place_exists pos) as (n & r & Ln & Ep & Lr).
  unfold w_truncate, mbind at 1. rewrite Ep, which_place by auto. rewrite <- Ep. unfold mbind at 1. rewrite Epos.
  destruct (Nat.ltb_spec pos (length (concat pre ++ l))) as [C|C].
  2: { (* nothing to cut *)
    assert (pos = length (concat pre ++ l)) by lia. rewrite app_length, base_concat in H0 by auto. unfold mbind, ret.
    assert (F : firstn pos (concat pre ++ l) = concat pre ++ l) by (apply firstn_all2; lia).
    destruct (Nat.eq_dec (length l) (cap (S (length pre)))) as [Q|Q].
    - rewrite Q in H0. rewrite <- base_S in H0 by lia.
      destruct (place_unique n r (S (S (length pre))) 0) as [E1 E2]; auto; try lia; [apply cap_pos|]. subst n r.
      assert (Ec : s_cur s = S (length pre)) by (rewrite Es; reflexivity). rewrite Ec.
      replace (S (S (length pre)) <? S (length pre)) with false by (symmetry; apply Nat.ltb_ge; lia).
      replace (S (length pre) <? S (S (length pre))) with true by (symmetry; apply Nat.ltb_lt; lia).
      exists s, pre, l. auto.
    - destruct (place_unique n r (S (length pre)) (length l)) as [E1 E2]; auto; try lia. subst n r.
      assert (Ec : s_cur s = S (length pre)) by (rewrite Es; reflexivity). rewrite Ec, Nat.ltb_irrefl.
      rewrite Es. cbn [s_fd s_disk]. rewrite content_W. rewrite firstn_all2 by (rewrite app_length; fold H; lia). rewrite d_set_W.
      unfold set_disk, set_max, set_last. cbn [s_fd s_disk s_hdr s_init s_cur s_off s_max s_last s_szcur].
      rewrite d_remove_W. eexists. exists pre, l. split; [reflexivity|]. split; [|auto]. split; [auto|]. split; [auto|]. eauto. }
  assert (Sk : s_skip (open_file_w ow) pos s = match (let! _ := open_file_w ow n in let! _ := set_offset (H + r) in upd (set_off (H + r))) s with
              | (Ok _, s) => (Ok true, s) | (Err Erange, s) => (Ok false, s) | (Err e, s) => (Err e, s) end).
  { unfold s_skip. unfold mbind at 1. replace (s_init s) with false by (rewrite Es; reflexivity). unfold mbind at 1. rewrite Epos. unfold ret at 1.
    replace (_ =? pos) with false by (symmetry; apply Nat.eqb_neq; lia). unfold mbind at 1. rewrite Ep, which_place by auto.
    replace (s_last s) with (@None nat) by (rewrite Es; reflexivity). reflexivity. }
  unfold mbind at 1. unfold mbind at 1. rewrite Sk. clear Sk.
  assert (Cn : n <= S (length pre)).
  { destruct (Nat.le_gt_cases n (S (length pre))) as [|Q]; auto. exfalso. rewrite app_length, base_concat in C by auto.
    replace n with (S (S (length pre)) + (n - S (S (length pre)))) in Ep by lia.
    pose proof (base_mono (S (S (length pre))) (n - S (S (length pre))) ltac:(lia)). rewrite base_S in H0 by lia. lia. }
  destruct (Nat.eq_dec n (S (length pre))) as [En|Nn].
  - (* in the current slice *)
    subst n. assert (Lr' : r <= length l) by (rewrite app_length, base_concat in C by auto; lia).
    rewrite Es. unfold open_file_w, mbind, set_offset, fd_skip, upd, set_off, set_fd, ret. cbn [s_fd is_none s_cur s_disk s_hdr s_init s_off s_max s_last s_szcur].
    rewrite Nat.eqb_refl. cbn [orb negb s_fd is_none s_cur s_disk s_hdr s_init s_off s_max s_last s_szcur]. rewrite Nat.ltb_irrefl. rewrite content_W, d_set_W.
    unfold set_disk, set_max, set_last. cbn [s_fd s_disk s_hdr s_init s_cur s_off s_max s_last s_szcur].
    rewrite d_remove_W.
    replace (firstn (H + r) (b ++ l)) with (b ++ firstn r l) by (rewrite <- (firstn_head r l [] Lr'), app_nil_r; reflexivity).
    eexists. exists pre, (firstn r l). split; [reflexivity|]. assert (LF : length (firstn r l) = r) by (rewrite firstn_length; lia).
    split; [split; [auto|split; [lia|]]; rewrite LF; eauto|].
    rewrite Ep, <- base_concat by auto. rewrite firstn_app_2. reflexivity.
  - (* in an earlier slice *)
    assert (Ex : exists p0 c mid, pre = p0 ++ c :: mid /\ n = S (length p0)).
    { exists (firstn (n - 1) pre), (nth (n - 1) pre []), (skipn n pre). split.
      - rewrite <- (firstn_skipn (n - 1) pre) at 1. f_equal. replace n with (S (n - 1)) at 3 by lia.
        assert (Q : n - 1 < length pre) by lia. revert Q. generalize (n - 1). clear. intros k. revert pre. induction k as [|k IH]; intros [|x pre] Q; cbn in *; try lia; auto. apply IH. lia.
      - rewrite firstn_length. lia. }
    destruct Ex as (p0 & c & mid & Epre & En). subst n pre.
    assert (Lc : length c = cap (S (length p0))).
    { specialize (P (length p0) ltac:(rewrite app_length; cbn; lia)). rewrite app_nth2, Nat.sub_diag in P by lia. exact P. }
    destruct (reopen_W ow s p0 c mid l Hw) as (s1 & junk & E1 & m' & z & Es1).
    unfold mbind. rewrite E1, Es1. unfold set_offset, fd_skip, upd, set_off, set_fd, ret. cbn [s_fd is_none s_cur s_disk s_hdr s_init s_off s_max s_last s_szcur].
    rewrite Nat.ltb_irrefl. unfold content. cbn [s_disk]. change (full c) with (Some (b ++ c ++ [flag_non_terminal])).
    set (X := map full p0). replace (S (length p0)) with (S (length X)) by (unfold X; rewrite map_length; reflexivity). rewrite d_get_mid, d_set_mid.
    unfold set_disk, set_max, set_last. cbn [s_fd s_disk s_hdr s_init s_cur s_off s_max s_last s_szcur]. rewrite d_remove_mid.
    rewrite firstn_head by lia. replace (length X) with (length p0) by (unfold X; rewrite map_length; reflexivity).
    eexists. exists p0, (firstn r c). split; [reflexivity|]. assert (LF : length (firstn r c) = r) by (rewrite firstn_length; lia).
    assert (Pp : okpre p0) by (eapply okpre_app; eauto).
    split; [split; [exact Pp|split; [lia|]]; rewrite LF; eauto|].
    rewrite Ep, <- base_concat by auto. rewrite concat_app, <- app_assoc, firstn_app_2. f_equal. cbn [concat]. rewrite <- app_assoc, firstn_app.
    replace (r - length c) with 0 by lia. cbn [firstn]. rewrite app_nil_r. reflexivity.
Qed.

(** ** reading *)
Lemma skipn_skipn' : forall (A : Type) x y (z : list A), skipn x (skipn y z) = skipn (y + x) z.
Proof. intros. rewrite Nat.add_comm. apply FileModel.skipn_skipn. Qed.
Variables (pre : list (list N)) (l : list N) (seq : bool).
Hypothesis Ppre : okpre pre.
Hypothesis Ll : length l <= cap (S (length pre)).
Let K := S (length pre).
Let D := concat pre ++ l.
Let dk := map full pre ++ [final l].
Definition chunk (n : nat) : list N := nth (n - 1) (pre ++ [l]) [].
Definition fl (n : nat) : N := if n =? K then flag_terminal else flag_non_terminal.
Definition dn : list N := if label_is_cleared dname then name else dname.
Definition hdr (f : N) : slice_header := mk_sh SAUV_MAGIC name dn f (mk_layout fs os hl hl false).

Lemma chunk_last : chunk K = l.
Proof. unfold chunk, K. rewrite app_nth2 by lia. replace (S (length pre) - 1 - length pre) with 0 by lia. reflexivity. Qed.
Lemma chunk_len : forall n, 1 <= n -> n < K -> length (chunk n) = cap n.
Proof. intros n L1 L2. unfold chunk, K in *. rewrite app_nth1 by lia. rewrite Ppre by lia. f_equal. lia. Qed.
Lemma chunk_le : forall n, 1 <= n -> n <= K -> length (chunk n) <= cap n.
Proof. intros n L1 L2. destruct (Nat.eq_dec n K) as [->|]; [rewrite chunk_last; exact Ll|]. rewrite chunk_len by lia. lia. Qed.
Lemma dk_get : forall n, 1 <= n -> n <= K -> d_get dk n = Some (b ++ chunk n ++ [fl n]).
Proof.
  intros [|n] L1 L2; [lia|]. cbn [d_get]. unfold dk, chunk, fl, K in *. replace (S n - 1) with n by lia.
  destruct (Nat.eqb_spec (S n) (S (length pre))) as [E|E].
  - assert (n = length pre) by lia. subst n. rewrite app_nth2 by (rewrite map_length; lia). rewrite map_length, Nat.sub_diag. cbn [nth].
    rewrite app_nth2, Nat.sub_diag by lia. reflexivity.
  - rewrite app_nth1 by (rewrite map_length; lia). rewrite app_nth1 by lia.
    rewrite (nth_indep _ None (full [])) by (rewrite map_length; lia). rewrite map_nth. reflexivity.
Qed.
Lemma data_at : forall n r, 1 <= n -> n <= K -> r <= length (chunk n) ->
  exists t, skipn (base n + r) D = skipn r (chunk n) ++ t /\ (n = K -> t = []).
Proof.
  intros n r L1 L2 Lr. unfold D. destruct (Nat.eq_dec n K) as [->|].
  - rewrite chunk_last in *. exists []. split; auto. rewrite app_nil_r. unfold K. rewrite <- base_concat by auto. rewrite <- skipn_skipn'.
    rewrite skipn_app_exact. reflexivity.
  - assert (E : pre = firstn (n - 1) pre ++ chunk n :: skipn n pre).
    { unfold chunk. rewrite app_nth1 by (unfold K in *; lia). rewrite <- (firstn_skipn (n - 1) pre) at 1. f_equal. replace n with (S (n - 1)) at 3 by lia.
      assert (Q : n - 1 < length pre) by (unfold K in *; lia). revert Q. generalize (n - 1). clear. intros k. revert k. induction pre as [|x p IH]; intros [|k] Q; cbn in *; try lia; auto. apply IH. lia. }
    assert (Pf : okpre (firstn (n - 1) pre)) by (rewrite E in Ppre; eapply okpre_app; eauto).
    assert (Lf : length (firstn (n - 1) pre) = n - 1) by (rewrite firstn_length; unfold K in *; lia).
    exists (concat (skipn n pre) ++ l). split; [|lia].
    rewrite E at 1. rewrite concat_app. cbn [concat]. rewrite <- !app_assoc.
    replace (base n) with (length (concat (firstn (n - 1) pre))) by (rewrite base_concat, Lf by auto; f_equal; lia).
    rewrite <- skipn_skipn'. rewrite skipn_app_exact. rewrite skipn_app. replace (r - length (chunk n)) with 0 by lia. reflexivity.
Qed.

Definition flag_good (f : N) (n : nat) : Prop := (f = flag_terminal -> n = K) /\ (seq = false -> n = K -> f = flag_terminal).
Definition last_ok (la : option nat) : Prop := la = None \/ la = Some K.
Definition R (s : sar) (p : nat) : Prop :=
  exists n r q f m la, 1 <= n /\ n <= K /\ p = base n + r /\
    s = mk_sar dk (hdr f) false (Some (n, q)) n (H + r) m la (H + length (chunk n) + 1) /\
    (n < K -> r <= cap n) /\ (seq = true -> r <= length (chunk n)) /\
    (q = H + r \/ (r = length (chunk n) /\ q = H + r + 1 /\ (n = K -> la = Some K))) /\
    flag_good f n /\ last_ok la /\ (seq = false -> n = K -> la = Some K).

Lemma open_R : forall h0 i fd cur off m la z n, (i = true \/ sh_name h0 = name) -> last_ok la -> (fd = None \/ cur <> n) -> 1 <= n -> n <= K ->
  exists f m' la', open_file_r seq n (mk_sar dk h0 i fd cur off m la z) =
    (Ok tt, mk_sar dk (if i then hdr f else mk_sh (sh_magic h0) (sh_name h0) (sh_data h0) f (sh_sly h0)) false (Some (n, H)) n
              (N.to_nat (if n =? 1 then first_slice_header (if i then mk_layout fs os hl hl false else sh_sly h0) else other_slice_header (if i then mk_layout fs os hl hl false else sh_sly h0))) m' la' (H + length (chunk n) + 1)) /\
    flag_good f n /\ last_ok la' /\ (seq = false -> n = K -> la' = Some K) /\ (la <> None -> la' = la).
Proof.
  intros h0 i fd cur off m la z n Hi Hla Hfd L1 L2. unfold open_file_r. cbn [s_fd s_cur].
  replace (is_none fd || negb (cur =? n)) with true.
  2: { symmetry. destruct Hfd as [->|Q]; [reflexivity|]. apply Nat.eqb_neq in Q. rewrite Q. apply orb_true_r. }
  unfold mbind, upd, set_fd. cbn [s_fd s_disk s_hdr s_init s_cur s_off s_max s_last s_szcur].
  unfold open_readonly. cbn [s_disk]. rewrite dk_get by auto. set (c := b ++ chunk n ++ [fl n]).
  assert (Lc : length c = H + length (chunk n) + 1) by (unfold c; rewrite !app_length; cbn [length]; fold H; lia).
  match goal with |- context[sh_read (Some ?z) false 0 c] => pose proof (read_header (chunk n ++ [fl n]) z false) as Er; fold c in Er; rewrite Er end. fold dn. cbn [sh_sly older_sar_than_v8 sh_name sh_flag]. unfold set_szcur. cbn [s_fd s_disk s_hdr s_init s_cur s_off s_max s_last s_szcur].
  replace (negb i && negb (name_eqb (sh_name h0) name)) with false.
  2: { destruct Hi as [->|E]; [reflexivity|]. rewrite E, name_eqb_refl. symmetry. apply andb_false_r. }
  rewrite N.eqb_refl.
  replace (length c - length (chunk n ++ [fl n])) with H by (rewrite Lc, app_length; cbn [length]; lia).
  assert (Elast : last c 0%N = fl n) by (unfold c; rewrite app_assoc; apply last_last). rewrite Elast. rewrite Lc.
  assert (FT : flag_terminal <> flag_non_terminal) by discriminate.
  destruct seq eqn:Sq.
  - cbn [negb]. rewrite N.eqb_refl. replace (flag_non_terminal =? flag_terminal)%N with false by reflexivity.
    exists flag_non_terminal, (Nat.max m n), la. split.
    + destruct i; cbn [set_disk set_hdr set_init set_fd set_cur set_off set_max set_last set_szcur set_flag sl_head s_fd s_disk s_hdr s_init s_cur s_off s_max s_last s_szcur sh_sly sh_magic sh_name sh_data]; reflexivity.
    + split; [split; congruence|]. split; [auto|]. split; [congruence|auto].
  - unfold fl. destruct (Nat.eqb_spec n K) as [E|E].
    + rewrite N.eqb_refl. cbn [orb]. rewrite N.eqb_refl. exists flag_terminal, (Nat.max m n), (Some K).
      split.
      * destruct Hla as [->| ->].
        -- destruct i; cbn [set_disk set_hdr set_init set_fd set_cur set_off set_max set_last set_szcur set_flag sl_head s_fd s_disk s_hdr s_init s_cur s_off s_max s_last s_szcur sh_sly sh_magic sh_name sh_data]; rewrite E; reflexivity.
        -- destruct i; cbn [set_disk set_hdr set_init set_fd set_cur set_off set_max set_last set_szcur set_flag sl_head s_fd s_disk s_hdr s_init s_cur s_off s_max s_last s_szcur sh_sly sh_magic sh_name sh_data]; rewrite E, Nat.eqb_refl; reflexivity.
      * split; [split; auto|]. split; [right; auto|]. split; [auto|]. intro Q. destruct Hla; congruence.
    + replace (flag_non_terminal =? flag_terminal)%N with false by reflexivity. rewrite N.eqb_refl. cbn [orb].
      replace (flag_non_terminal =? flag_terminal)%N with false by reflexivity.
      exists flag_non_terminal, (Nat.max m n), la. split.
      * destruct i; cbn [set_disk set_hdr set_init set_fd set_cur set_off set_max set_last set_szcur set_flag sl_head s_fd s_disk s_hdr s_init s_cur s_off s_max s_last s_szcur sh_sly sh_magic sh_name sh_data]; reflexivity.
      * split; [split; congruence|]. split; [auto|]. split; [congruence|auto].
Qed.

(** the slice [n] is open, anywhere in it *)
Definition at_slice (s : sar) (n : nat) : Prop :=
  1 <= n /\ n <= K /\ exists off q f m la, s = mk_sar dk (hdr f) false (Some (n, q)) n off m la (H + length (chunk n) + 1) /\
    flag_good f n /\ last_ok la /\ (seq = false -> n = K -> la = Some K).
Definition fresh (s : sar) : Prop := s = r_make dk.
Lemma open_at : forall s n, (fresh s \/ exists k, at_slice s k) -> 1 <= n -> n <= K ->
  exists s', open_file_r seq n s = (Ok tt, s') /\ at_slice s' n /\ (s_cur s <> n -> s_off s' = H /\ fd_pos s' = H) /\ (s_last s <> None -> s_last s' = s_last s).
Proof.
  intros s n Hs L1 L2. assert (HL : N.to_nat hl = H) by (unfold hl; apply Nat2N.id). destruct Hs as [->|(k & Lk1 & Lk2 & off & q & f & m & la & -> & F & La & Lt)].
  - unfold r_make. destruct (open_R (mk_sh SAUV_MAGIC label_zero label_zero 0%N (mk_layout 0 0 0 0 false)) true None 0 0 0 None 0 n) as (f & m' & la' & E & F & La & Lt & _);
      auto; [left; auto|]. rewrite E. eexists. split; [reflexivity|]. cbn [first_slice_header other_slice_header] in *.
    assert (EH : N.to_nat (if n =? 1 then hl else hl) = H) by (destruct (n =? 1); exact HL). rewrite EH.
    split; [split; [auto|split; [auto|]]; eauto 10|]. split; [auto|]. cbn [s_last]. congruence.
  - destruct (Nat.eq_dec k n) as [->|Nk].
    + unfold open_file_r. cbn [s_fd is_none s_cur]. rewrite Nat.eqb_refl. cbn [orb negb]. eexists. split; [reflexivity|].
      split; [split; [auto|split; [auto|]]; eauto 10|]. split; [cbn [s_cur]; congruence|auto].
    + destruct (open_R (hdr f) false (Some (k, q)) k off m la (H + length (chunk k) + 1) n) as (f' & m' & la' & E & F' & La' & Lt' & Kp); auto.
      rewrite E. eexists. split; [reflexivity|]. cbn [hdr sh_sly sh_magic sh_name sh_data first_slice_header other_slice_header] in *.
      assert (EH : N.to_nat (if n =? 1 then hl else hl) = H) by (destruct (n =? 1); exact HL). rewrite EH.
      split; [split; [auto|split; [auto|]]|split; [auto|cbn [s_last]; auto]]. exists H, H, f', m', la'. auto.
Qed.
Lemma R_at : forall s p, R s p -> exists n, at_slice s n.
Proof. intros s p (n & r & q & f & m & la & L1 & L2 & -> & -> & _ & _ & _ & F & La & Lt). exists n. split; [auto|split; [auto|]]. eauto 10. Qed.
Lemma seek_R : forall s n r, at_slice s n -> (n < K -> r <= cap n) -> (seq = true -> r <= length (chunk n)) ->
  exists s', (let! _ := set_offset (H + r) in upd (set_off (H + r))) s = (Ok tt, s') /\ R s' (base n + r) /\ set_offset (H + r) (set_off (H + r) s) = (Ok tt, s').
Proof.
  intros s n r (L1 & L2 & off & q & f & m & la & -> & F & La & Lt) C1 C2.
  unfold mbind, set_offset, fd_skip, upd, set_off, set_fd. cbn [s_fd is_none s_disk s_hdr s_init s_cur s_off s_max s_last s_szcur].
  eexists. split; [reflexivity|]. split; [|reflexivity]. exists n, r, (H + r), f, m, la. repeat (split; auto).
Qed.
Lemma R_pos : forall s p, R s p -> position s = Ok p /\ s_init s = false /\ good_layout s /\ (s_last s = None \/ s_last s = Some K) /\ 1 <= s_cur s <= K /\ s_fd s <> None.
Proof.
  intros s p (n & r & q & f & m & la & L1 & L2 & -> & -> & _ & _ & _ & F & La & Lt).
  assert (G : good_layout (mk_sar dk (hdr f) false (Some (n, q)) n (H + r) m la (H + length (chunk n) + 1))) by reflexivity.
  split; [apply (position_place _ n r); auto|]. split; [auto|]. split; [auto|]. split; [exact La|]. cbn [s_cur s_fd]. split; [auto|discriminate].
Qed.
(** skip *)
Lemma skip_R : forall s p n r, R s p -> 1 <= n -> n <= K -> r < cap n -> (seq = true -> r <= length (chunk n)) ->
  exists s', s_skip (open_file_r seq) (base n + r) s = (Ok true, s') /\ R s' (base n + r).
Proof.
  intros s p n r HR L1 L2 Lr C2. destruct (R_pos s p HR) as (Ep & Ei & G & La & _). unfold s_skip. unfold mbind at 1. rewrite Ei. unfold mbind at 1. rewrite Ep.
  unfold ret at 1. destruct (Nat.eqb_spec p (base n + r)) as [E|E].
  - unfold ret. exists s. subst p. auto.
  - unfold mbind at 1. rewrite which_place by auto.
    assert (Q : match s_last s with Some x => (x <? n) = false | None => True end).
    { destruct La as [-> | ->]; auto. apply Nat.ltb_ge. exact L2. }
    destruct (open_at s n (or_intror (R_at s p HR)) L1 L2) as (s1 & E1 & A1 & _ & _).
    destruct (seek_R s1 n r A1) as (s2 & E2 & R2 & _); auto; [intro; lia|].
    assert (E3 : (let! _ := open_file_r seq n in let! _ := set_offset (H + r) in upd (set_off (H + r))) s = (Ok tt, s2)).
    { unfold mbind at 1. rewrite E1. exact E2. }
    rewrite E3. destruct (s_last s) as [x|]; [rewrite Q|]; exists s2; auto.
Qed.
Lemma skip_fresh : forall s n r, fresh s -> 1 <= n -> n <= K -> r < cap n -> (seq = true -> r <= length (chunk n)) ->
  exists s', s_skip (open_file_r seq) (base n + r) s = (Ok true, s') /\ R s' (base n + r).
Proof.
  intros s n r Hf L1 L2 Lr C2. unfold s_skip. unfold mbind at 1. replace (s_init s) with true by (rewrite Hf; reflexivity).
  destruct (open_at s 1 (or_introl Hf)) as (s0 & E0 & A0 & _ & _); [lia|unfold K; lia|]. unfold mbind at 1. rewrite E0.
  assert (Ei : s_init s0 = false) by (destruct A0 as (_ & _ & ? & ? & ? & ? & ? & -> & _); reflexivity). rewrite Ei. unfold mbind at 1.
  assert (G : good_layout s0) by (destruct A0 as (_ & _ & ? & ? & ? & ? & ? & -> & _); reflexivity). rewrite which_place by auto.
  assert (Q : match s_last s0 with Some x => (x <? n) = false | None => True end).
  { destruct A0 as (_ & _ & ? & ? & ? & ? & la & -> & _ & La & _). cbn [s_last]. destruct La as [-> | ->]; auto. apply Nat.ltb_ge. exact L2. }
  destruct (open_at s0 n (or_intror (ex_intro _ 1 A0)) L1 L2) as (s1 & E1 & A1 & _ & _).
  destruct (seek_R s1 n r A1) as (s2 & E2 & R2 & _); auto; [intro; lia|].
  assert (E3 : (let! _ := open_file_r seq n in let! _ := set_offset (H + r) in upd (set_off (H + r))) s0 = (Ok tt, s2)).
  { unfold mbind at 1. rewrite E1. exact E2. }
  rewrite E3. destruct (s_last s0) as [x|]; [rewrite Q|]; exists s2; auto.
Qed.
Lemma fetch_R : forall s p, R s p \/ (fresh s /\ p = 0) -> exists s', fetch (open_file_r seq) s = (Ok tt, s') /\ R s' p.
Proof.
  intros s p [HR|[Hf ->]]; unfold fetch.
  - destruct (R_pos s p HR) as (_ & -> & _). rewrite andb_false_r. exists s. auto.
  - replace ((s_cur s =? 0) && s_init s) with true by (rewrite Hf; reflexivity). unfold mbind.
    destruct (skip_fresh s 1 0 Hf) as (s' & E & R'); [lia|unfold K; lia|apply cap_pos|intro; lia|]. cbn [base Nat.add] in *. rewrite E.
    destruct (R_pos s' 0 R') as (_ & -> & _). exists s'. auto.
Qed.
(** skip_to_eof *)
Lemma d_high_some : forall (X : disk) c, d_high (X ++ [Some c]) = S (length X).
Proof. intros X c. induction X as [|x X IH]; [reflexivity|]. cbn [app d_high length]. rewrite IH. reflexivity. Qed.
Lemma d_high_dk : d_high dk = K.
Proof. unfold dk, K, final. rewrite d_high_some, map_length. reflexivity. Qed.
Lemma eof_R : forall s p, seq = false -> R s p \/ (fresh s /\ p = 0) -> exists s', r_skip_eof seq s = (Ok true, s') /\ R s' (length D).
Proof.
  intros s p Sq HR.
  assert (O : exists s1, open_last_r seq s = (Ok tt, s1) /\ at_slice s1 K).
  { unfold open_last_r. assert (Hs : fresh s \/ exists k, at_slice s k) by (destruct HR as [HR|[HR _]]; [right; eapply R_at; eauto|auto]).
    destruct (open_at s K Hs) as (s1 & E1 & A1 & _ & _); [unfold K; lia|lia|].
    destruct (s_last s) as [x|] eqn:Es.
    - assert (x = K). { destruct HR as [HR|[-> _]]; [|discriminate]. destruct (R_pos s p HR) as (_ & _ & _ & [Q|Q] & _); congruence. } subst x. exists s1. auto.
    - assert (T : negb (is_none (s_fd s)) && (flag_of s =? flag_terminal)%N = false).
      { destruct HR as [HR|[-> _]]; [|reflexivity]. destruct HR as (n & r & q & f & m & la & _ & _ & _ & -> & _ & _ & _ & F & _ & Lt). cbn [s_last] in Es. subst la.
        unfold flag_of. cbn [s_hdr hdr sh_flag s_fd is_none negb andb]. apply N.eqb_neq. intro Q. destruct F as [F _]. specialize (F Q). specialize (Lt Sq F). discriminate. }
      rewrite T. replace (d_high (s_disk s)) with K.
      2: { destruct HR as [HR|[-> _]]; [|symmetry; apply d_high_dk]. destruct HR as (n & r & q & f & m & la & _ & _ & _ & -> & _). symmetry. apply d_high_dk. }
      unfold K at 1. unfold mbind at 1. fold K. rewrite E1. exists s1. split; [|exact A1].
      (* the slice opened has the flag *)
      assert (FK : flag_of s1 = flag_terminal) by (destruct A1 as (_ & _ & off & q & f & m & la & -> & [_ F] & _); unfold flag_of; cbn [s_hdr hdr sh_flag]; auto).
      rewrite FK, N.eqb_refl. reflexivity. }
  destruct O as (s1 & E1 & A1). unfold r_skip_eof. unfold mbind at 1. rewrite E1.
  destruct A1 as (L1 & L2 & off & q & f & m & la & -> & F & La & Lt).
  unfold mbind, fd_skip_eof, upd, set_fd, set_off, ret, content, fd_pos. cbn [s_fd s_disk s_hdr s_init s_cur s_off s_max s_last s_szcur].
  rewrite dk_get, chunk_last by auto.
  replace (length (b ++ l ++ [fl K]) - 1) with (H + length l) by (rewrite !app_length; fold H; cbn [length]; lia).
  eexists. split; [reflexivity|]. exists K, (length l), (H + length l), f, m, la. rewrite chunk_last.
  assert (LD : length D = base K + length l) by (unfold D; rewrite app_length, base_concat by auto; reflexivity).
  repeat (split; auto).
Qed.
(** skip_relative *)
Lemma fwd_R : forall fuel s n y m r, good_layout s -> last_ok (s_last s) -> 1 <= n -> n <= m -> m <= K -> base n + y = base m + r -> r < cap m -> m - n < fuel ->
  fwd_loop fuel s n (H + y) = Ok (m, H + r).
Proof.
  induction fuel as [|k IH]; intros s n y m r G La L1 L2 L3 E Lr Hf; [lia|].
  cbn [fwd_loop]. destruct (size_gl s n G) as [-> _]. destruct (size_gl s 2 G) as [_ ->].
  destruct (Nat.leb_spec (H + cap n + 1) (H + y + 1)) as [C|C].
  - assert (n < m). { destruct (Nat.eq_dec n m) as [->|]; lia. }
    replace (match s_last s with None => true | Some x => n <=? x end) with true.
    2: { symmetry. destruct La as [-> | ->]; auto. apply Nat.leb_le. lia. }
    cbn [andb]. unfold sub. replace (_ <? 1) with false by (symmetry; apply Nat.ltb_ge; lia). cbn [bind].
    replace (_ <? _) with false by (symmetry; apply Nat.ltb_ge; lia). cbn [bind].
    replace (H + y - (H + cap n + 1 - 1) + H) with (H + (y - cap n)) by lia. apply IH; auto; try lia. rewrite base_S by lia. lia.
  - cbn [andb]. destruct (place_unique n y m r) as [-> ->]; auto; lia.
Qed.
Lemma bwd_R : forall fuel s n y x, good_layout s -> 1 <= n -> x <= base n + y -> n < fuel + 1 -> 0 < fuel ->
  exists m z neg, bwd_loop fuel s n (H + y) x = Ok (m, H + z, neg) /\ 1 <= m <= n /\ base m + z - neg = base n + y - x /\ neg <= z /\ (m < n -> z < cap m) /\ (m = n -> z = y).
Proof.
  induction fuel as [|k IH]; intros s n y x G L1 Lx Hf Hp; [lia|].
  cbn [bwd_loop]. destruct (size_gl s (n - 1) G) as [-> _]. destruct (size_gl s 2 G) as [_ ->].
  destruct (Nat.ltb_spec 1 n) as [C1|C1]; [destruct (Nat.ltb_spec (H + y) (x + H)) as [C2|C2]|]; cbn [andb].
  - unfold sub. replace (H + y <? H) with false by (symmetry; apply Nat.ltb_ge; lia). cbn [bind].
    replace (_ <? _) with false by (symmetry; apply Nat.ltb_ge; lia). cbn [bind].
    replace (_ <? 1) with false by (symmetry; apply Nat.ltb_ge; lia). cbn [bind].
    pose proof (cap_pos (n - 1)) as CP.
    replace (_ <? 1) with false by (symmetry; apply Nat.ltb_ge; lia). cbn [bind].
    replace (H + cap (n - 1) + 1 - 1 - 1) with (H + (cap (n - 1) - 1)) by lia.
    replace (x - (H + y - H + 1)) with (x - (y + 1)) by lia.
    assert (B : base n = base (n - 1) + cap (n - 1)) by (replace n with (S (n - 1)) at 1 by lia; apply base_S; lia).
    destruct (IH s (n - 1) (cap (n - 1) - 1) (x - (y + 1)) G) as (m & z & neg & E & Lm & Ez & Ln & Lz & Lq); try lia.
    exists m, z, neg. split; [exact E|]. split; [lia|]. split; [lia|]. split; [lia|]. split; [|lia].
    intro. destruct (Nat.eq_dec m (n - 1)) as [Q|Q]; [rewrite (Lq Q), Q; lia|apply Lz; lia].
  - exists n, y, x. split; [reflexivity|]. repeat split; auto; lia.
  - assert (n = 1) by lia. subst n. cbn [base] in *. exists 1, y, x. split; [reflexivity|]. repeat split; auto; lia.
Qed.
Lemma rel_R : forall s p x, R s p \/ (fresh s /\ p = 0) -> (0 <= Z.of_nat p + x)%Z -> 
  ((x <= 0)%Z \/ exists n r, Z.to_nat (Z.of_nat p + x) = base n + r /\ 1 <= n /\ n <= K /\ r < cap n /\ (seq = true -> r <= length (chunk n))) ->
  exists s', s_relative (open_file_r seq) x s = (Ok true, s') /\ (R s' (Z.to_nat (Z.of_nat p + x)) \/ (fresh s' /\ Z.to_nat (Z.of_nat p + x) = 0)).
Proof.
  intros s p x HR Hx Ht. unfold s_relative. destruct (Z.ltb_spec 0 x) as [C|C]; [|destruct (Z.ltb_spec x 0) as [C'|C']].
  - destruct Ht as [Ht|(n & r & Et & L1 & L2 & Lr & Cs)]; [lia|]. rewrite Et. destruct (fetch_R s p HR) as (s1 & E1 & R1). clear HR.
    unfold s_forward. unfold mbind at 1. rewrite E1. assert (R1' := R1). destruct (R_pos s1 p R1) as (_ & _ & G & La & _).
    destruct R1 as (k & y & q & f & m & la & K1 & K2 & Ep & Es & _). unfold mbind at 1.
    assert (Eo : s_off s1 + Z.to_nat x = H + (y + Z.to_nat x)) by (rewrite Es; cbn [s_off]; lia).
    replace (s_cur s1) with k by (rewrite Es; reflexivity). rewrite Eo.
    assert (EE : base k + (y + Z.to_nat x) = base n + r) by lia.
    assert (Lkn : k <= n).
    { destruct (Nat.le_gt_cases k n) as [|Q]; auto. exfalso. replace k with (S n + (k - S n)) in EE by lia. pose proof (base_mono (S n) (k - S n) ltac:(lia)) as B. rewrite base_S in B by lia. lia. }
    rewrite (fwd_R _ s1 k (y + Z.to_nat x) n r); auto.
    2: { assert (n - k <= y + Z.to_nat x).
         { destruct (Nat.eq_dec n k) as [->|]; [lia|]. replace n with (k + (n - k)) in EE by lia. pose proof (base_mono k (n - k) ltac:(lia)). lia. } lia. }
    destruct (size_gl s1 n G) as [-> _]. replace (H + r + 1 <? H + cap n + 1) with true by (symmetry; apply Nat.ltb_lt; lia).
    destruct (open_at s1 n (or_intror (R_at s1 p R1')) L1 L2) as (s2 & E2 & A2 & _ & _).
    destruct (seek_R s2 n r A2) as (s3 & _ & R3 & E3); auto; [intro; lia|].
    unfold mbind at 1. rewrite E2. unfold mbind at 1. unfold upd at 1. unfold mbind. rewrite E3. exists s3. auto.
  - clear Ht. destruct (fetch_R s p HR) as (s1 & E1 & R1). clear HR.
    unfold s_backward. unfold mbind at 1. rewrite E1. assert (R1' := R1). destruct (R_pos s1 p R1) as (_ & _ & G & La & _).
    destruct R1 as (k & y & q & f & m & la & K1 & K2 & Ep & Es & C1 & C2 & _). unfold mbind at 1.
    assert (Eo : s_off s1 = H + y) by (rewrite Es; reflexivity).
    replace (s_cur s1) with k by (rewrite Es; reflexivity). rewrite Eo.
    destruct (bwd_R (S k) s1 k y (Z.to_nat (- x)) G) as (n & z & neg & E & Ln & Ez & Lneg & Lz & Lq); try lia.
    rewrite E. replace (sl_head s1 (if 1 <? n then 2 else 1)) with H by (destruct (size_gl s1 (if 1 <? n then 2 else 1) G); auto).
    replace (neg + H <=? H + z) with true by (symmetry; apply Nat.leb_le; lia).
    replace (H + z - neg) with (H + (z - neg)) by lia.
    destruct (open_at s1 n (or_intror (R_at s1 p R1'))) as (s2 & E2 & A2 & _ & _); [lia|lia|].
    destruct (seek_R s2 n (z - neg) A2) as (s3 & _ & R3 & E3).
    { intro. destruct (Nat.eq_dec n k) as [Q|Q]; [specialize (Lq Q); subst n; specialize (C1 H0); lia|]. specialize (Lz ltac:(lia)). lia. }
    { intro Sq. destruct (Nat.eq_dec n k) as [Q|Q]; [specialize (Lq Q); subst n; specialize (C2 Sq); lia|]. specialize (Lz ltac:(lia)). rewrite chunk_len by lia. lia. }
    unfold mbind at 1. rewrite E2. unfold mbind at 1. unfold upd at 1. unfold mbind. rewrite E3. exists s3. split; [reflexivity|].
    left. replace (Z.to_nat (Z.of_nat p + x)) with (base n + (z - neg)) by lia. exact R3.
  - assert (x = 0%Z) by lia. subst x. replace (Z.to_nat (Z.of_nat p + 0)) with p by lia. exists s. unfold ret. auto.
Qed.

(** read *)
Definition mu (s : sar) : nat := if (s_cur s <? K) && (s_off s =? H + cap (s_cur s)) then 1 else 0.
Lemma content_R : forall n h i fd cur off m la z, 1 <= n -> n <= K -> content (mk_sar dk h i fd cur off m la z) n = b ++ chunk n ++ [fl n].
Proof. intros. unfold content. cbn [s_disk]. rewrite dk_get by auto. reflexivity. Qed.
Lemma skip_content : forall n r, r <= length (chunk n) -> skipn (H + r) (b ++ chunk n ++ [fl n]) = skipn r (chunk n) ++ [fl n].
Proof.
  intros n r L. rewrite <- skipn_skipn'. unfold H. rewrite skipn_app_exact, skipn_app. replace (r - length (chunk n)) with 0 by lia. reflexivity.
Qed.
(** what the loop does when nothing has been read *)
Lemma empty_R : forall want n r q f m la, 1 <= n -> n <= K -> length (chunk n) <= r -> (n < K -> r <= cap n) -> (seq = true -> r <= length (chunk n)) ->
  flag_good f n -> last_ok la -> (seq = false -> n = K -> la = Some K) -> (n = K -> la = Some K) -> (q = H + r \/ (r = length (chunk n) /\ q = H + r + 1)) ->
  let s := mk_sar dk (hdr f) false (Some (n, q)) n (H + r) m la (H + length (chunk n) + 1) in
  (if (flag_of s =? flag_terminal)%N || match s_last s with Some l => l <=? s_cur s | None => false end then (Ok None, s)
    else
      (let! e := fun s => (normal_end s, s) in
       if e : bool then let! _ := open_file_r seq (S (s_cur s)) in ret (Some [])
       else fun s =>
              let place := Nat.min (sl_size s (s_cur s) - 1 - s_off s) want in
              (Ok (Some (repeat 0%N place)), set_off (s_off s + place) s)) s)
  = (if n =? K then (Ok None, s) else let '(_, s') := open_file_r seq (S n) s in (Ok (Some []), s')) /\
  (n = K -> R s (base n + r)) /\ (n < K -> exists s', open_file_r seq (S n) s = (Ok tt, s') /\ R s' (base n + r) /\ mu s' = 0 /\ mu s = 1).
Proof.
  intros want n r q f m la L1 L2 Lr C1 C2 F La Lt LK Q s.
  assert (G : good_layout s) by reflexivity. destruct (Nat.eqb_spec n K) as [E|E].
  - assert (la = Some K) by auto. subst la. split; [|split; [intros _|intro; lia]].
    + replace (match s_last s with Some l0 => l0 <=? s_cur s | None => false end) with true; [rewrite orb_true_r; reflexivity|].
      cbn [s s_last s_cur]. symmetry. apply Nat.leb_le. lia.
    + exists n, r, q, f, m, (Some K). repeat (split; auto). destruct Q as [Q|[Q1 Q2]]; auto.
  - assert (Lk : n < K) by lia. assert (Er : r = cap n). { rewrite chunk_len in Lr by auto. specialize (C1 Lk). lia. }
    assert (O : exists s', open_file_r seq (S n) s = (Ok tt, s') /\ R s' (base n + r) /\ mu s' = 0 /\ mu s = 1).
    { assert (As : at_slice s n) by (split; [auto|split; [auto|]]; exists (H + r), q, f, m, la; auto).
      destruct (open_at s (S n) (or_intror (ex_intro _ n As))) as (s' & E1 & A1 & Fr & _); [lia|lia|].
      assert (Nc : s_cur s <> S n) by (cbn [s s_cur]; lia). destruct (Fr Nc) as [Fo Fp].
      exists s'. split; [exact E1|]. assert (A1' := A1). destruct A1 as (K1 & K2 & off & q' & f' & m' & la' & Es & F' & La' & Lt'). 
      rewrite Es in Fo, Fp. cbn [s_off fd_pos s_fd] in Fo, Fp. split; [|split].
      - rewrite Er, <- base_S by auto. exists (S n), 0, q', f', m', la'. rewrite !Nat.add_0_r. repeat (split; auto; try lia).
        + rewrite Es, Fo. reflexivity.
      - unfold mu. rewrite Es. cbn [s_cur s_off]. rewrite Fo. pose proof (cap_pos (S n)). replace (H =? H + cap (S n)) with false by (symmetry; apply Nat.eqb_neq; lia). rewrite andb_false_r. reflexivity.
      - unfold mu. cbn [s s_cur s_off]. rewrite Er. rewrite Nat.eqb_refl. replace (n <? K) with true by (symmetry; apply Nat.ltb_lt; lia). reflexivity. }
    destruct O as (s' & E1 & R1 & M1 & M2). split; [|split; [intro; lia|intro; eauto]].
    replace (flag_of s =? flag_terminal)%N with false.
    2: { symmetry. apply N.eqb_neq. intro Z. destruct F as [F _]. unfold flag_of in Z. cbn [s s_hdr hdr sh_flag] in Z. specialize (F Z). lia. }
    replace (match s_last s with Some l0 => l0 <=? s_cur s | None => false end) with false.
    2: { cbn [s s_last s_cur]. destruct La as [-> | ->]; auto. symmetry. apply Nat.leb_gt. lia. }
    cbn [orb]. unfold mbind at 1.
    assert (EN : normal_end s = Ok true).
    { unfold normal_end. cbn [s s_last s_cur]. destruct (size_gl s n G) as [Esz _]. unfold sub.
      replace (match la with Some l0 => if l0 =? n then Ok true else _ | None => _ end) with
         (let* z := (if sl_size s n <? 1 then Err Erange else Ok (sl_size s n - 1)) in Ok (z <=? s_off s)).
      2: { destruct La as [-> | ->]; [reflexivity|]. replace (K =? n) with false by (symmetry; apply Nat.eqb_neq; lia). reflexivity. }
      rewrite Esz. replace (_ <? 1) with false by (symmetry; apply Nat.ltb_ge; lia). cbn [bind s s_off]. f_equal. apply Nat.leb_le. lia. }
    rewrite EN. unfold mbind. change (s_cur s) with n. rewrite E1. reflexivity.
Qed.
(** the two halves of a turn *)
Definition eos (got : list N) (want : nat) (s : sar) : res (list N) * sar :=
  if ((negb (s_szcur s =? 0) && (fd_pos s =? s_szcur s)) || ((s_szcur s =? 0) && (length got <? want))) && (0 <? length got) then
    if is_none (s_last s) then
      let f := last got 0%N in
      if (f =? flag_terminal)%N then (Ok (removelast got), set_flag flag_terminal (set_last (Some (s_cur s)) s))
      else if (f =? flag_non_terminal)%N then (Ok (removelast got), s)
      else (Err Erange, s)
    else (Ok (removelast got), s)
  else (Ok got, s).
Definition after (want : nat) (tmp : list N) : M (option (list N)) :=
  match tmp with
  | [] => fun s =>
    if (flag_of s =? flag_terminal)%N || match s_last s with Some l => l <=? s_cur s | None => false end then (Ok None, s)
    else
      (let! e := fun s => (normal_end s, s) in
       if e : bool then let! _ := open_file_r seq (S (s_cur s)) in ret (Some [])
       else fun s =>
              let place := Nat.min (sl_size s (s_cur s) - 1 - s_off s) want in
              (Ok (Some (repeat 0%N place)), set_off (s_off s + place) s)) s
  | _ :: _ => let! _ := upd (fun s => set_off (s_off s + length tmp) s) in ret (Some tmp)
  end.
Lemma turn_eq : forall want dk h i n q cur off m la z,
  read_turn seq want (mk_sar dk h i (Some (n, q)) cur off m la z) =
  (let got := firstn want (skipn q (content (mk_sar dk h i (Some (n, q)) cur off m la z) n)) in
   let '(r, s) := eos got want (mk_sar dk h i (Some (n, q + length got)) cur off m la z) in
   match r with Ok t => after want t s | Err e => (Err e, s) end).
Proof. intros. reflexivity. Qed.
Lemma turn_R : forall s p want, R s p -> 0 < want ->
  (exists s', read_turn seq want s = (Ok None, s') /\ R s' p /\ length D <= p) \/
  (exists s' d, read_turn seq want s = (Ok (Some d), s') /\ R s' (p + length d) /\ d = firstn (length d) (skipn p D) /\ length d <= want /\
     2 * (want - length d) + mu s' < 2 * want + mu s).
Proof.
  intros s p want (n & r & q & f & m & la & L1 & L2 & -> & -> & C1 & C2 & Q & F & La & Lt) Hw.
  set (sz := H + length (chunk n) + 1). pose proof (chunk_le n L1 L2) as LC.
  assert (LD : n = K -> length D = base n + length (chunk n)) by (intros ->; unfold D; rewrite app_length, base_concat, chunk_last by auto; reflexivity).
  rewrite turn_eq, content_R by auto. cbn zeta.
  destruct (Nat.lt_ge_cases r (length (chunk n))) as [Cr|Cr].
  - (* some data left in the slice *)
    assert (q = H + r) by (destruct Q as [|[Q _]]; lia). subst q. clear Q. right.
    destruct (data_at n r L1 L2 ltac:(lia)) as (t & Ed & _).
    assert (Lsk : length (skipn r (chunk n)) = length (chunk n) - r) by apply skipn_length.
    rewrite skip_content by lia. set (got := firstn want (skipn r (chunk n) ++ [fl n])).
    unfold eos. cbn [s_fd s_disk s_hdr s_init s_cur s_off s_max s_last s_szcur fd_pos].
    replace (sz =? 0) with false by (symmetry; apply Nat.eqb_neq; unfold sz; lia). cbn [negb andb orb]. rewrite orb_false_r.
    destruct (Nat.le_gt_cases want (length (chunk n) - r)) as [Cw|Cw].
    + assert (Eg : got = firstn want (skipn r (chunk n))).
      { unfold got. rewrite firstn_app. replace (want - _) with 0 by lia. cbn [firstn]. apply app_nil_r. }
      assert (Lg : length got = want) by (rewrite Eg, firstn_length; lia).
      replace (H + r + length got =? sz) with false by (symmetry; apply Nat.eqb_neq; unfold sz; lia). cbn [andb].
      unfold after. destruct got as [|g0 gs] eqn:Egot; [cbn in Lg; lia|]. rewrite <- Egot in *. unfold mbind, upd, ret, set_off. cbn [s_fd s_disk s_hdr s_init s_cur s_off s_max s_last s_szcur].
      eexists. exists got. split; [reflexivity|]. split; [|split; [|split; [lia|]]].
      * exists n, (r + length got), (H + r + length got), f, m, la. split; [auto|]. split; [auto|]. split; [lia|]. split; [f_equal; lia|].
        split; [intro; lia|]. split; [intro; lia|]. split; [left; lia|auto].
      * rewrite Lg, Ed. rewrite firstn_app. replace (want - _) with 0 by lia. cbn [firstn]. rewrite app_nil_r. exact Eg.
      * rewrite Lg. unfold mu. destruct (_ && _), (_ && _); lia.
    + assert (Eg : got = skipn r (chunk n) ++ [fl n]) by (unfold got; apply firstn_all2; rewrite app_length; cbn [length]; lia).
      assert (Lg : length got = length (chunk n) - r + 1) by (rewrite Eg, app_length, Lsk; reflexivity).
      replace (H + r + length got =? sz) with true by (symmetry; apply Nat.eqb_eq; unfold sz; lia).
      replace (0 <? length got) with true by (symmetry; apply Nat.ltb_lt; lia). cbn [andb].
      assert (Er : removelast got = skipn r (chunk n)) by (rewrite Eg; apply removelast_last).
      assert (Eq : last got 0%N = fl n) by (rewrite Eg; apply last_last).
      set (d := skipn r (chunk n)) in *.
      assert (Res : exists f' la', (if is_none la then
              let f0 := last got 0%N in
              if (f0 =? flag_terminal)%N then (Ok (removelast got), set_flag flag_terminal (set_last (Some n) (mk_sar dk (hdr f) false (Some (n, H + r + length got)) n (H + r) m la sz)))
              else if (f0 =? flag_non_terminal)%N then (Ok (removelast got), mk_sar dk (hdr f) false (Some (n, H + r + length got)) n (H + r) m la sz)
              else (Err Erange, mk_sar dk (hdr f) false (Some (n, H + r + length got)) n (H + r) m la sz)
            else (Ok (removelast got), mk_sar dk (hdr f) false (Some (n, H + r + length got)) n (H + r) m la sz)) =
            (Ok d, mk_sar dk (hdr f') false (Some (n, H + r + length got)) n (H + r) m la' sz) /\ flag_good f' n /\ last_ok la' /\ (n = K -> la' = Some K)).
      { destruct La as [-> | ->]; cbn [is_none].
        - rewrite Eq, Er. unfold fl. destruct (Nat.eqb_spec n K) as [EK|EK].
          + rewrite N.eqb_refl. exists flag_terminal, (Some K). split; [rewrite EK; reflexivity|]. split; [split; auto|]. split; [right; auto|auto].
          + replace (flag_non_terminal =? flag_terminal)%N with false by reflexivity. rewrite N.eqb_refl. exists f, None. split; [reflexivity|]. split; [auto|]. split; [left; auto|intro; lia].
        - rewrite Er. exists f, (Some K). split; [reflexivity|]. split; [auto|]. split; [right; auto|auto]. }
      destruct Res as (f' & la' & Eres & F' & La' & Lt'). cbn zeta in Eres. rewrite Eres. clear Eres. unfold after.
      destruct d as [|d0 ds] eqn:Edd; [cbn in Lsk; lia|]. rewrite <- Edd in *. unfold mbind, upd, ret, set_off. cbn [s_fd s_disk s_hdr s_init s_cur s_off s_max s_last s_szcur].
      eexists. exists d. split; [reflexivity|]. split; [|split; [|split; [lia|]]].
      * exists n, (r + length d), (H + r + length got), f', m, la'. split; [auto|]. split; [auto|]. split; [lia|]. split; [f_equal; lia|].
        split; [intro; lia|]. split; [intro; lia|]. split; [right; split; [lia|]; split; [lia|auto]|auto].
      * rewrite Ed. rewrite firstn_app, Nat.sub_diag, firstn_all. cbn [firstn]. rewrite app_nil_r. reflexivity.
      * unfold mu. destruct (_ && _), (_ && _); lia.
  - (* nothing left *)
    assert (St : exists q' f' la', (let got := firstn want (skipn q (b ++ chunk n ++ [fl n])) in eos got want (mk_sar dk (hdr f) false (Some (n, q + length got)) n (H + r) m la sz))
         = (Ok [], mk_sar dk (hdr f') false (Some (n, q')) n (H + r) m la' sz) /\
         flag_good f' n /\ last_ok la' /\ (seq = false -> n = K -> la' = Some K) /\ (n = K -> la' = Some K) /\ (q' = H + r \/ (r = length (chunk n) /\ q' = H + r + 1))).
    { cbn zeta. unfold eos. cbn [s_fd s_disk s_hdr s_init s_cur s_off s_max s_last s_szcur fd_pos].
      replace (sz =? 0) with false by (symmetry; apply Nat.eqb_neq; unfold sz; lia). cbn [negb andb orb]. rewrite orb_false_r.
      assert (LT : length (b ++ chunk n ++ [fl n]) = sz) by (rewrite !app_length; fold H; cbn [length]; unfold sz; lia).
      assert (Past : sz <= q -> skipn q (b ++ chunk n ++ [fl n]) = []) by (intro; apply skipn_all2; lia).
      destruct Q as [Q|(Q1 & Q2 & Q3)].
      - subst q. destruct (Nat.eq_dec r (length (chunk n))) as [Eq|Nq].
        + rewrite skip_content by lia. rewrite Eq, skipn_all. cbn [app]. destruct want as [|w]; [lia|]. cbn [firstn]. rewrite firstn_nil. cbn [length].
          replace (H + length (chunk n) + 1 =? sz) with true by (symmetry; apply Nat.eqb_eq; reflexivity). cbn [andb Nat.ltb Nat.leb last removelast].
          destruct La as [-> | ->]; cbn [is_none].
          * unfold fl. destruct (Nat.eqb_spec n K) as [EK|EK].
            -- rewrite N.eqb_refl. exists (H + length (chunk n) + 1), flag_terminal, (Some K). split; [rewrite EK; reflexivity|]. split; [split; auto|]. split; [right; auto|auto].
            -- replace (flag_non_terminal =? flag_terminal)%N with false by reflexivity. rewrite N.eqb_refl. exists (H + length (chunk n) + 1), f, None. split; [reflexivity|]. split; [auto|]. split; [left; auto|]. split; [intro; lia|]. split; [intro; lia|auto].
          * exists (H + length (chunk n) + 1), f, (Some K). split; [reflexivity|]. split; [auto|]. split; [right; auto|auto].
        + assert (Sq : seq = false) by (destruct seq; auto; specialize (C2 eq_refl); lia).
          assert (EK : n = K). { destruct (Nat.eq_dec n K); auto. specialize (C1 ltac:(lia)). rewrite chunk_len in Cr, Nq by lia. lia. }
          rewrite Past by (unfold sz; lia). rewrite firstn_nil. cbn [length Nat.ltb Nat.leb]. rewrite andb_false_r. rewrite Nat.add_0_r.
          exists (H + r), f, la. split; [reflexivity|]. auto 10.
      - rewrite Past by (unfold sz; lia). rewrite firstn_nil. cbn [length Nat.ltb Nat.leb]. rewrite andb_false_r. rewrite Nat.add_0_r.
        exists q, f, la. split; [reflexivity|]. auto 10. }
    destruct St as (q' & f' & la' & Est & F' & La' & Lt' & LK' & Q'). cbn zeta in Est. rewrite Est. clear Est. unfold after.
    destruct (empty_R want n r q' f' m la' L1 L2 Cr C1 C2 F' La' Lt' LK' Q') as (E & ER1 & ER2). fold sz in E, ER1, ER2. cbn zeta in E. rewrite E. clear E.
    destruct (Nat.eqb_spec n K) as [EK|EK].
    + left. eexists. split; [reflexivity|]. split; [auto|]. rewrite LD by auto. lia.
    + right. destruct (ER2 ltac:(lia)) as (s' & E1 & R1 & M1 & M2). rewrite E1. exists s', []. split; [reflexivity|]. cbn [length]. rewrite Nat.add_0_r.
      split; [auto|]. split; [reflexivity|]. split; [lia|]. rewrite M1. unfold mu in *. cbn [s_cur s_off] in *. rewrite M2. lia.
Qed.
Lemma loop_R : forall fuel want acc s p, R s p -> 2 * want + mu s < fuel ->
  exists s', read_loop fuel seq want acc s = (Ok (acc ++ firstn want (skipn p D)), s') /\ R s' (p + length (firstn want (skipn p D))).
Proof.
  induction fuel as [|k IH]; intros want acc s p HR Hf; [lia|]. destruct want as [|w].
  - cbn [read_loop firstn length]. rewrite app_nil_r, Nat.add_0_r. exists s. auto.
  - cbn [read_loop]. set (want := S w) in *. unfold mbind at 1.
    destruct (turn_R s p want HR ltac:(unfold want; lia)) as [(s' & E & R' & Lp)|(s' & d & E & R' & Ed & Ld & Lm)]; rewrite E.
    + rewrite skipn_all2 by lia. rewrite firstn_nil. rewrite app_nil_r. cbn [length]. rewrite Nat.add_0_r. exists s'. auto.
    + destruct (IH (want - length d) (acc ++ d) s' (p + length d) R' ltac:(lia)) as (s2 & E2 & R2). exists s2. rewrite E2.
      assert (ES : firstn want (skipn p D) = d ++ firstn (want - length d) (skipn (p + length d) D)).
      { rewrite <- skipn_skipn'. replace want with (length d + (want - length d)) at 1 by lia.
        rewrite <- (firstn_skipn (length d) (skipn p D)) at 1. rewrite <- Ed. apply firstn_app_2. }
      rewrite ES, app_assoc, app_length, Nat.add_assoc. auto.
Qed.
Lemma read_R : forall n s p, R s p \/ (fresh s /\ p = 0) ->
  exists s', r_read seq n s = (Ok (firstn n (skipn p D)), s') /\ R s' (p + length (firstn n (skipn p D))).
Proof.
  intros n s p HR. unfold r_read, mbind at 1. destruct HR as [HR|[Hf ->]].
  - destruct (R_pos s p HR) as (_ & _ & _ & _ & Lc & _). replace (s_cur s =? 0) with false by (symmetry; apply Nat.eqb_neq; lia).
    apply (loop_R _ n [] s p HR). unfold mu. destruct (_ && _); lia.
  - replace (s_cur s =? 0) with true by (rewrite Hf; reflexivity). unfold mbind.
    destruct (skip_fresh s 1 0 Hf) as (s1 & E & R1); [lia|unfold K; lia|apply cap_pos|intro; lia|]. cbn [base Nat.add] in *. rewrite E. unfold ret.
    apply (loop_R _ n [] s1 0 R1). unfold mu. destruct (_ && _); lia.
Qed.
End Writer.
