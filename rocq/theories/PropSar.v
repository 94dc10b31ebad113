(** * C31: an archive cut in slices and read back is the archive that was written. *)
From Verif Require Import Base NumModel InfinintModel SliceModel HeaderModel FileModel ClientSpec PropSlice PropHeader SarModel SarProof.
Open Scope nat_scope.

(** ** Specification *)
(** what the program writes: data appended, or the archive cut at some offset *)
Inductive wop := Append (w : list N) | Cut (p : nat).
Definition plain (o : wop) (data : list N) : list N := match o with Append w => data ++ w | Cut p => firstn p data end.
Definition written (ops : list wop) : list N := fold_left (fun data o => plain o data) ops [].
(** it does not cut beyond what it has written *)
Fixpoint cuts_ok (ops : list wop) (data : list N) : Prop :=
  match ops with
  | [] => True
  | o :: r => (match o with Cut p => p <= length data | _ => True end) /\ cuts_ok r (plain o data)
  end.
(** [d]: the slices of [data]. All start with the same header and end with one byte telling whether more follow; all but the last have
    exactly the size asked (first slice and others), the last one is not larger. *)
Definition slice_size (first other : N) (i : nat) : nat := N.to_nat (if i =? 0 then first else other).
Definition slices_of (header : list N) (first other : N) (data : list N) (d : disk) : Prop :=
  exists chunks, concat chunks = data /\ chunks <> [] /\ length d = length chunks /\
    forall i, i < length chunks ->
      exists c, nth i d None = Some c /\ c = header ++ nth i chunks [] ++ [if S i =? length chunks then 84%N else 78%N] /\
        (S i < length chunks -> length c = slice_size first other i) /\ (S i = length chunks -> length c <= slice_size first other i).
(** how many bytes of data the slices can hold *)
Definition room (header : list N) (first other : N) (d : disk) : nat :=
  list_sum (map (fun i => slice_size first other i - length header - 1) (seq 0 (length d))).

(** the client of an archive being read: reads and asks its position freely; goes where it wants within the slices (in sequential
    mode, [sq], within the data and without asking for the end); never before the start *)
Fixpoint client_ok (sq : bool) (room : nat) (ops : list gop) (f : gfile) : Prop :=
  match ops with
  | [] => True
  | o :: r =>
    match o with
    | GRead _ | GPos => True
    | GWrite _ => False
    | GSkip p => p = fpos f \/ (p < room /\ (sq = true -> p <= length (fdata f)))
    | GEof => sq = false
    | GRel x => let p := (Z.of_nat (fpos f) + x)%Z in
                (0 <= p)%Z /\ ((x <= 0)%Z \/ ((p < Z.of_nat room)%Z /\ (sq = true -> (p <= Z.of_nat (length (fdata f)))%Z)))
    end /\ client_ok sq room r (snd (g_op o f))
  end.

(** ** the program *)
Definition w_op (ow : bool) (o : wop) : M unit := match o with Append w => w_write ow w | Cut p => w_truncate ow p end.
Fixpoint w_run (ow : bool) (ops : list wop) : M unit :=
  match ops with [] => ret tt | o :: r => let! _ := w_op ow o in w_run ow r end.
(** creating the archive in an empty directory, writing, closing *)
Definition w_archive (ow : bool) (other first : N) (name dname : list N) (ops : list wop) : res unit * sar :=
  let '(r, s) := w_make ow [] other first name dname in
  match r with Ok _ => (let! _ := w_run ow ops in w_terminate) s | Err e => (Err e, s) end.
Definition r_op (sq : bool) (o : gop) : M gout :=
  match o with
  | GRead n => let! d := r_read sq n in ret (OData d)
  | GWrite _ => throw Ebug
  | GSkip p => let! b := s_skip (open_file_r sq) p in ret (OBool b)
  | GEof => let! b := r_skip_eof sq in ret (OBool b)
  | GRel x => let! b := s_relative (open_file_r sq) x in ret (OBool b)
  | GPos => let! p := s_position (open_file_r sq) in ret (OPos p)
  end.
Fixpoint r_run (sq : bool) (ops : list gop) : M (list gout) :=
  match ops with [] => ret [] | o :: r => let! a := r_op sq o in let! l := r_run sq r in ret (a :: l) end.

(** ** Proofs *)
Lemma make_ok : forall ow first other name dname s, w_make ow [] other first name dname = (Ok tt, s) ->
  exists b h1, sh_write (mk_sh SAUV_MAGIC name dname flag_at_end (mk_layout first other 0 0 false)) true false 0 = Ok (b, h1) /\
    s_disk s = [Some b].
Proof.
  intros ow first other name dname s E. unfold w_make in E. destruct (other <? min_size + 1)%N; [discriminate|]. destruct (first <? min_size + 1)%N; [discriminate|].
  unfold open_file_w in E. cbn [s_fd is_none orb] in E. unfold mbind, close_w, upd, set_init in E. cbn [s_fd is_none s_disk s_hdr s_init s_cur s_off s_max s_last s_szcur] in E.
  unfold open_writeonly in E. cbn [s_disk d_get nth] in E. unfold set_flag, set_disk, set_hdr in E.
  cbn [s_fd s_disk s_hdr s_init s_cur s_off s_max s_last s_szcur sh_magic sh_name sh_data sh_sly] in E. change (1 =? 1) with true in E.
  destruct (sh_write _ true false 0) as [[b h1]|e] eqn:Eh; [|discriminate]. exists b, h1. split; [reflexivity|].
  unfold mbind, upd, fd_write, set_fd, set_disk, set_hdr, set_szcur in E. cbn [s_fd s_disk s_hdr s_init s_cur s_off s_max s_last s_szcur] in E.
  injection E as <-. cbn [set_cur set_off set_max s_disk]. unfold content. cbn [s_disk d_get nth].
  change (d_set [] 1 []) with [Some (@nil N)]. cbn [nth]. unfold d_set. cbn [Nat.sub firstn length repeat app skipn]. do 2 f_equal.
  unfold overwrite. cbn [firstn Nat.sub repeat app]. rewrite skipn_nil, app_nil_r. reflexivity.
Qed.
Lemma chunks_split : forall (chunks : list (list N)), chunks <> [] -> exists pre l, chunks = pre ++ [l].
Proof. intros chunks H. destruct (exists_last H) as (pre & l & E). eauto. Qed.
Section S.
Variables (name dname : list N) (fs os : N) (b : list N) (h1 : slice_header).
Hypothesis Hname : length name = 10.
Hypothesis Hdname : length dname = 10.
Hypothesis Hhdr : sh_write (mk_sh SAUV_MAGIC name dname flag_at_end (mk_layout fs os 0 0 false)) true false 0 = Ok (b, h1).
Hypothesis Pfs : length b + 1 < N.to_nat fs.
Hypothesis Pos : length b + 1 < N.to_nat os.
Let Hfs := Nat.lt_le_incl _ _ Pfs.
Let Hos := Nat.lt_le_incl _ _ Pos.
Let Wr := W fs os b h1.
Lemma w_run_W : forall ow ops s pre l, Wr s pre l -> cuts_ok ops (concat pre ++ l) ->
  exists s' pre' l', w_run ow ops s = (Ok tt, s') /\ Wr s' pre' l' /\ concat pre' ++ l' = fold_left (fun data o => plain o data) ops (concat pre ++ l) /\
    ((forall p, ~ In (Cut p) ops) -> l' <> [] \/ (pre' = pre /\ l' = l)).
Proof.
  intro ow. induction ops as [|o ops IH]; intros s pre l Hw Hc.
  - exists s, pre, l. cbn. auto 10.
  - destruct Hc as [Ho Hc]. cbn [w_run fold_left].
    assert (St : exists s1 pre1 l1, w_op ow o s = (Ok tt, s1) /\ Wr s1 pre1 l1 /\ concat pre1 ++ l1 = plain o (concat pre ++ l) /\
                 ((forall p, o <> Cut p) -> l1 <> [] \/ (pre1 = pre /\ l1 = l))).
    { destruct o as [w|p]; cbn [w_op plain].
      - destruct (write_W name dname fs os b h1 Hname Hdname Hhdr Hfs Hos Pfs Pos ow (2 * length w) w s pre l Hw ltac:(lia)) as (s1 & pre1 & l1 & E & W1 & C & Z).
        exists s1, pre1, l1. split; [exact E|]. split; [exact W1|]. split; [rewrite C, app_assoc; reflexivity|]. intros _. tauto.
      - destruct (truncate_W name dname fs os b h1 Hname Hdname Hhdr Hfs Hos Pfs Pos ow s pre l p Hw Ho) as (s1 & pre1 & l1 & E & W1 & C).
        exists s1, pre1, l1. split; [exact E|]. split; [exact W1|]. split; [exact C|]. intro Q. exfalso. eapply Q; eauto. }
    destruct St as (s1 & pre1 & l1 & E1 & W1 & C1 & Z1). rewrite <- C1 in Hc.
    destruct (IH s1 pre1 l1 W1 Hc) as (s2 & pre2 & l2 & E2 & W2 & C2 & Z2). exists s2, pre2, l2.
    split; [unfold mbind; rewrite E1; exact E2|]. split; [exact W2|]. split; [rewrite C2, C1; reflexivity|].
    intro Q. destruct Z2 as [Z2|[-> ->]]; [intros p Hp; apply (Q p); right; exact Hp|left; exact Z2|]. apply Z1. intros p ->. apply (Q p). left. reflexivity.
Qed.
Lemma slices_pre : forall pre l, okpre fs os b pre -> length l <= cap fs os b (S (length pre)) ->
  slices_of b fs os (concat pre ++ l) (map (full b) pre ++ [final b l]).
Proof.
  intros pre l P L. exists (pre ++ [l]). split; [rewrite concat_app; cbn; rewrite app_nil_r; reflexivity|]. split; [intro Q; destruct pre; discriminate|].
  split; [rewrite !app_length, map_length; reflexivity|]. intros i Hi. rewrite app_length in *. cbn [length] in *.
  assert (CS : forall k, length b + cap fs os b (S k) + 1 = slice_size fs os k).
  { intro k. unfold cap, slice_size. destruct k as [|k]; cbn [Nat.eqb]; lia. }
  destruct (Nat.eq_dec i (length pre)) as [->|Ni].
  - exists (b ++ l ++ [84%N]). rewrite app_nth2 by (rewrite map_length; lia). rewrite map_length, Nat.sub_diag. split; [reflexivity|].
    rewrite (app_nth2 pre) by lia. rewrite Nat.sub_diag. cbn [nth]. replace (S (length pre) =? length pre + 1) with true by (symmetry; apply Nat.eqb_eq; lia).
    split; [reflexivity|]. split; [intro; lia|]. intros _. rewrite !app_length. cbn [length]. rewrite <- CS. lia.
  - exists (b ++ nth i pre [] ++ [78%N]). rewrite app_nth1 by (rewrite map_length; lia).
    rewrite (nth_indep _ None (full b [])) by (rewrite map_length; lia). rewrite map_nth. split; [reflexivity|].
    rewrite (app_nth1 pre) by lia. replace (S i =? length pre + 1) with false by (symmetry; apply Nat.eqb_neq; lia).
    split; [reflexivity|]. split; [|intro; lia]. intros _. rewrite !app_length. cbn [length]. rewrite (P i) by lia. rewrite <- CS. lia.
Qed.
Lemma slices_inv : forall data d, slices_of b fs os data d -> exists pre l, data = concat pre ++ l /\ d = map (full b) pre ++ [final b l] /\
  okpre fs os b pre /\ length l <= cap fs os b (S (length pre)).
Proof.
  intros data d (chunks & Ec & Nn & Ld & Hd). destruct (chunks_split chunks Nn) as (pre & l & ->). exists pre, l.
  rewrite concat_app in Ec. cbn [concat] in Ec. rewrite app_nil_r in Ec. rewrite app_length in *. cbn [length] in *.
  assert (CS : forall k, length b + cap fs os b (S k) + 1 = slice_size fs os k).
  { intro k. unfold cap, slice_size. destruct k as [|k]; cbn [Nat.eqb]; lia. }
  split; [auto|]. split; [|split].
  - apply (nth_ext _ _ None None); [rewrite app_length, map_length; exact Ld|]. intros i Hi. destruct (Hd i ltac:(lia)) as (c & -> & -> & _).
    destruct (Nat.eq_dec i (length pre)) as [->|Ni].
    + rewrite !app_nth2 by (rewrite ?map_length; lia). rewrite map_length, !Nat.sub_diag. replace (S (length pre) =? length pre + 1) with true by (symmetry; apply Nat.eqb_eq; lia). reflexivity.
    + rewrite !app_nth1 by (rewrite ?map_length; lia). rewrite (nth_indep (map _ _) None (full b [])) by (rewrite map_length; lia). rewrite map_nth.
      replace (S i =? length pre + 1) with false by (symmetry; apply Nat.eqb_neq; lia). reflexivity.
  - intros i Hi. destruct (Hd i ltac:(lia)) as (c & _ & -> & Hf & _). specialize (Hf ltac:(lia)). rewrite app_nth1 in Hf by lia. rewrite !app_length in Hf. cbn [length] in Hf.
    rewrite <- CS in Hf. lia.
  - destruct (Hd (length pre) ltac:(lia)) as (c & _ & -> & _ & Hf). specialize (Hf ltac:(lia)). rewrite app_nth2, Nat.sub_diag in Hf by lia. cbn [nth] in Hf. rewrite !app_length in Hf. cbn [length] in Hf.
    rewrite <- CS in Hf. lia.
Qed.
Lemma room_base : forall (d : disk), room b fs os d = base fs os b (S (length d)).
Proof.
  intro d. unfold room. generalize (length d). intro k. induction k as [|k IH]; [reflexivity|].
  rewrite seq_S, map_app, list_sum_app, IH. cbn [map list_sum Nat.add]. rewrite (base_S name dname fs os b Hname Hdname Hfs Hos Pfs Pos (S k)) by lia. unfold list_sum. cbn [fold_right].
  unfold cap, slice_size. destruct k as [|k]; cbn [Nat.eqb]; lia.
Qed.

Variables (pre : list (list N)) (l : list N) (sq : bool).
Hypothesis Ppre : okpre fs os b pre.
Hypothesis Ll : length l <= cap fs os b (S (length pre)).
Let Rd := R name dname fs os b pre l sq.
Let D := concat pre ++ l.
Let fr (s : sar) := fresh b pre l s.
Definition st (s : sar) (f : gfile) : Prop := fdata f = D /\ (Rd s (fpos f) \/ (fr s /\ fpos f = 0)).
Lemma place_room : forall p, p < base fs os b (S (S (length pre))) -> (sq = true -> p <= length D) ->
  exists n r, p = base fs os b n + r /\ 1 <= n /\ n <= S (length pre) /\ r < cap fs os b n /\ (sq = true -> r <= length (chunk pre l n)).
Proof.
  intros p Hp Hs. destruct (place_exists name dname fs os b Hname Hdname Hfs Hos Pfs Pos p) as (n & r & L1 & E & Lr). exists n, r. split; [exact E|]. split; [exact L1|].
  assert (Ln : n <= S (length pre)).
  { destruct (Nat.le_gt_cases n (S (length pre))) as [|Q]; auto. exfalso. replace n with (S (S (length pre)) + (n - S (S (length pre)))) in E by lia.
    pose proof (base_mono name dname fs os b Hname Hdname Hfs Hos Pfs Pos (S (S (length pre))) (n - S (S (length pre))) ltac:(lia)). lia. }
  split; [exact Ln|]. split; [exact Lr|]. intro Q. specialize (Hs Q). unfold D in Hs. rewrite app_length, (base_concat name dname fs os b Hname Hdname Hfs Hos Pfs Pos) in Hs by auto.
  destruct (Nat.eq_dec n (S (length pre))) as [En|Nn].
  - subst n. rewrite (chunk_last name dname fs os b Hname Hdname Hfs Hos Pfs Pos pre l Ll). lia.
  - rewrite (chunk_len name dname fs os b Hname Hdname Hfs Hos Pfs Pos pre l Ppre Ll) by lia. lia.
Qed.
Lemma r_op_st : forall o s f r, st s f -> client_ok sq (base fs os b (S (S (length pre)))) (o :: r) f ->
  exists s', r_op sq o s = (Ok (fst (g_op o f)), s') /\ st s' (snd (g_op o f)).
Proof.
  intros o s f r [Ed HR] [Hc _]. destruct f as [data p]. cbn [fdata fpos] in *. subst data. destruct o as [n|w|q| |x|]; cbn [r_op g_op fst snd].
  - destruct (read_R name dname fs os b h1 Hname Hdname Hhdr Hfs Hos Pfs Pos pre l sq Ppre Ll n s p HR) as (s' & E & R').
    unfold mbind. rewrite E. unfold g_read, ret. cbn [fdata fpos]. exists s'. split; [reflexivity|]. split; [reflexivity|]. left. exact R'.
  - destruct Hc.
  - unfold g_skip. cbn [fdata fpos].
    assert (Q : exists s', s_skip (open_file_r sq) q s = (Ok true, s') /\ Rd s' q).
    { assert (Hq : (q = p /\ Rd s p) \/ (q < base fs os b (S (S (length pre))) /\ (sq = true -> q <= length D))).
      { destruct Hc as [Hc|Hc]; [|right; exact Hc]. destruct HR as [HR|[Hf ->]]; [left; auto|]. right. subst q. split; [|lia].
        pose proof (base_mono name dname fs os b Hname Hdname Hfs Hos Pfs Pos 1 (S (length pre)) ltac:(lia)). replace (1 + S (length pre)) with (S (S (length pre))) in H by lia. lia. }
      destruct Hq as [[-> HR']|[Hq1 Hq2]].
      - unfold s_skip. destruct (R_pos name dname fs os b Hname Hdname Hfs Hos Pfs Pos pre l sq s p HR') as (Ep & Ei & _). unfold mbind at 1. rewrite Ei. unfold mbind at 1. rewrite Ep. unfold ret. rewrite Nat.eqb_refl. exists s. auto.
      - destruct (place_room q Hq1 Hq2) as (n & z & -> & L1 & L2 & Lz & Ls). destruct HR as [HR|[Hf _]].
        + apply (skip_R name dname fs os b h1 Hname Hdname Hhdr Hfs Hos Pfs Pos pre l sq Ll s p n z HR L1 L2 Lz Ls).
        + apply (skip_fresh name dname fs os b h1 Hname Hdname Hhdr Hfs Hos Pfs Pos pre l sq Ll s n z Hf L1 L2 Lz Ls). }
    destruct Q as (s' & E & R'). unfold mbind. rewrite E. exists s'. split; [reflexivity|]. split; [reflexivity|]. left. exact R'.
  - destruct (eof_R name dname fs os b h1 Hname Hdname Hhdr Hfs Hos Pfs Pos pre l sq Ppre Ll s p Hc HR) as (s' & E & R'). unfold mbind. rewrite E.
    exists s'. split; [reflexivity|]. split; [reflexivity|]. left. exact R'.
  - destruct Hc as [Hx Ht].
    destruct (rel_R name dname fs os b h1 Hname Hdname Hhdr Hfs Hos Pfs Pos pre l sq Ppre Ll s p x HR Hx) as (s' & E & R').
    { destruct Ht as [Ht|[Ht1 Ht2]]; [left; exact Ht|right]. apply place_room; [lia|]. intro Q. specialize (Ht2 Q). lia. }
    unfold mbind. rewrite E. unfold g_skip_relative. cbn [fdata fpos]. replace (Z.of_nat p + x <? 0)%Z with false by (symmetry; apply Z.ltb_ge; exact Hx).
    exists s'. split; [reflexivity|]. split; [reflexivity|]. exact R'.
  - unfold s_position. unfold mbind at 1. unfold mbind at 1.
    destruct (fetch_R name dname fs os b h1 Hname Hdname Hhdr Hfs Hos Pfs Pos pre l sq Ll s p HR) as (s' & E & R'). rewrite E.
    destruct (R_pos name dname fs os b Hname Hdname Hfs Hos Pfs Pos pre l sq s' p R') as (Ep & _). rewrite Ep. exists s'. split; [reflexivity|]. split; [reflexivity|]. left. exact R'.
Qed.
Lemma r_run_st : forall ops s f, st s f -> client_ok sq (base fs os b (S (S (length pre)))) ops f ->
  exists s', r_run sq ops s = (Ok (fst (g_run ops f)), s').
Proof.
  induction ops as [|o ops IH]; intros s f Hs Hc; [exists s; reflexivity|].
  destruct (r_op_st o s f ops Hs Hc) as (s1 & E1 & S1). destruct Hc as [_ Hc]. destruct (IH s1 _ S1 Hc) as (s2 & E2).
  exists s2. cbn [r_run g_run]. unfold mbind. rewrite E1, E2. destruct (g_op o f) as [a f1]. cbn [fst snd]. destruct (g_run ops f1) as [x f2]. reflexivity.
Qed.
End S.

(** ** C31 *)
(** Creating an archive in an empty directory, then any sequence of writes and cuts, then closing: the directory holds exactly the slices of
    the data written. [header]: what the creation has put in the first slice. Hypothesis of the sizes: one byte of data fits in each slice. *)
Theorem C31_write : forall ow first other name dname ops s0 header,
  length name = 10 -> length dname = 10 ->
  w_make ow [] other first name dname = (Ok tt, s0) -> s_disk s0 = [Some header] ->
  length header + 1 < N.to_nat first -> length header + 1 < N.to_nat other ->
  cuts_ok ops [] ->
  exists s, w_archive ow other first name dname ops = (Ok tt, s) /\ slices_of header first other (written ops) (s_disk s).
Proof.
  intros ow fs os name dname ops s0 b Hn Hd Em Eb Hf Ho Hc. destruct (make_ok _ _ _ _ _ _ Em) as (b' & h1 & Eh & Eb'). assert (b' = b) by congruence. subst b'.
  destruct (make_W name dname fs os b h1 Hn Hd Eh (Nat.lt_le_incl _ _ Hf) (Nat.lt_le_incl _ _ Ho) Hf Ho ow) as (s & E & Hw). rewrite Em in E. injection E as <-.
  destruct (w_run_W name dname fs os b h1 Hn Hd Eh Hf Ho ow ops s0 [] [] Hw Hc) as (s1 & pre & l & E1 & W1 & C & _).
  destruct (terminate_W name dname fs os b h1 Hn Hd Eh (Nat.lt_le_incl _ _ Hf) (Nat.lt_le_incl _ _ Ho) s1 pre l W1) as (m & E2).
  unfold w_archive. rewrite Em. unfold mbind. rewrite E1, E2. eexists. split; [reflexivity|]. cbn [s_disk]. unfold written. cbn [concat app] in C. rewrite <- C.
  destruct W1 as (P & L & _). eapply slices_pre; eauto.
Qed.
(** Without cuts no slice but a single one is empty. *)
Theorem C31_write_no_empty_slice : forall ow first other name dname ops s0 header s,
  length name = 10 -> length dname = 10 ->
  w_make ow [] other first name dname = (Ok tt, s0) -> s_disk s0 = [Some header] ->
  length header + 1 < N.to_nat first -> length header + 1 < N.to_nat other ->
  (forall p, ~ In (Cut p) ops) -> w_archive ow other first name dname ops = (Ok tt, s) ->
  forall i c, nth i (s_disk s) None = Some c -> 1 < length (s_disk s) -> length header + 1 < length c.
Proof.
  intros ow fs os name dname ops s0 b s Hn Hd Em Eb Hf Ho Nc Ea i c Hi Ld. destruct (make_ok _ _ _ _ _ _ Em) as (b' & h1 & Eh & Eb'). assert (b' = b) by congruence. subst b'.
  destruct (make_W name dname fs os b h1 Hn Hd Eh (Nat.lt_le_incl _ _ Hf) (Nat.lt_le_incl _ _ Ho) Hf Ho ow) as (s' & E & Hw). rewrite Em in E. injection E as <-.
  assert (Hc : cuts_ok ops []).
  { generalize (@nil N). clear - Nc. induction ops as [|o ops IH]; intro d; [exact I|]. split; [destruct o; auto; exfalso; eapply Nc; left; reflexivity|]. apply IH. intros p Hp. apply (Nc p). right. exact Hp. }
  destruct (w_run_W name dname fs os b h1 Hn Hd Eh Hf Ho ow ops s0 [] [] Hw Hc) as (s1 & pre & l & E1 & W1 & C & Z). specialize (Z Nc).
  destruct (terminate_W name dname fs os b h1 Hn Hd Eh (Nat.lt_le_incl _ _ Hf) (Nat.lt_le_incl _ _ Ho) s1 pre l W1) as (m & E2).
  unfold w_archive in Ea. rewrite Em in Ea. unfold mbind in Ea. rewrite E1, E2 in Ea. injection Ea as <-. cbn [s_disk] in *.
  destruct W1 as (P & L & _). rewrite app_length, map_length in Ld. cbn [length] in Ld.
  destruct Z as [Z|[-> _]]; [|cbn in Ld; lia].
  destruct (Nat.lt_trichotomy i (length pre)) as [Q|[Q|Q]].
  - rewrite app_nth1 in Hi by (rewrite map_length; exact Q). rewrite (nth_indep _ None (full b [])) in Hi by (rewrite map_length; exact Q). rewrite map_nth in Hi. injection Hi as <-.
    rewrite !app_length. cbn [length]. rewrite (P i Q). pose proof (cap_pos name dname fs os b Hn Hd (Nat.lt_le_incl _ _ Hf) (Nat.lt_le_incl _ _ Ho) Hf Ho (S i)). lia.
  - subst i. rewrite app_nth2 in Hi by (rewrite map_length; lia). rewrite map_length, Nat.sub_diag in Hi. injection Hi as <-. rewrite !app_length. cbn [length]. destruct l; [congruence|cbn; lia].
  - rewrite nth_overflow in Hi by (rewrite app_length, map_length; cbn; lia). discriminate.
Qed.
(** Reading: on the slices of any data, with the header of any archive, a client gets what a plain file holding the data gives. *)
Theorem C31_read : forall name dname first other header h1 data d sq ops,
  length name = 10 -> length dname = 10 ->
  sh_write (mk_sh SAUV_MAGIC name dname flag_at_end (mk_layout first other 0 0 false)) true false 0 = Ok (header, h1) ->
  length header + 1 < N.to_nat first -> length header + 1 < N.to_nat other ->
  slices_of header first other data d ->
  client_ok sq (room header first other d) ops (mk_file data 0) ->
  fst (r_run sq ops (r_make d)) = Ok (fst (g_run ops (mk_file data 0))).
Proof.
  intros name dname fs os b h1 data d sq ops Hn Hd Eh Hf Ho Hs Hc. destruct (slices_inv name dname fs os b h1 Hn Hd Hf Ho data d Hs) as (pre & l & -> & -> & P & L).
  rewrite (room_base name dname fs os b Hn Hd Hf Ho) in Hc. rewrite app_length, map_length in Hc. cbn [length] in Hc. replace (length pre + 1) with (S (length pre)) in Hc by lia.
  destruct (r_run_st name dname fs os b h1 Hn Hd Eh Hf Ho pre l sq P L ops (r_make (map (full b) pre ++ [final b l])) (mk_file (concat pre ++ l) 0)) as (s' & E); auto.
  - split; [reflexivity|]. right. split; reflexivity.
  - rewrite E. reflexivity.
Qed.
(** Both: what is written in slices is read back, in any order. *)
Theorem C31_roundtrip : forall ow first other name dname wops s0 header sq ops s,
  length name = 10 -> length dname = 10 ->
  w_make ow [] other first name dname = (Ok tt, s0) -> s_disk s0 = [Some header] ->
  length header + 1 < N.to_nat first -> length header + 1 < N.to_nat other ->
  cuts_ok wops [] -> w_archive ow other first name dname wops = (Ok tt, s) ->
  client_ok sq (room header first other (s_disk s)) ops (mk_file (written wops) 0) ->
  fst (r_run sq ops (r_make (s_disk s))) = Ok (fst (g_run ops (mk_file (written wops) 0))).
Proof.
  intros ow fs os name dname wops s0 b sq ops s Hn Hd Em Eb Hf Ho Hc Ea Hcl. destruct (make_ok _ _ _ _ _ _ Em) as (b' & h1 & Eh & Eb'). assert (b' = b) by congruence. subst b'.
  destruct (C31_write ow fs os name dname wops s0 b Hn Hd Em Eb Hf Ho Hc) as (s' & E & Hs). rewrite E in Ea. injection Ea as <-.
  apply (C31_read name dname fs os b h1); assumption.
Qed.
(** In particular reading everything from the start gives the data, in both modes. *)
Corollary C31_read_all : forall ow first other name dname wops s0 header sq n s,
  length name = 10 -> length dname = 10 ->
  w_make ow [] other first name dname = (Ok tt, s0) -> s_disk s0 = [Some header] ->
  length header + 1 < N.to_nat first -> length header + 1 < N.to_nat other ->
  cuts_ok wops [] -> w_archive ow other first name dname wops = (Ok tt, s) -> length (written wops) <= n ->
  fst (r_run sq [GRead n] (r_make (s_disk s))) = Ok [OData (written wops)].
Proof.
  intros ow fs os name dname wops s0 b sq n s Hn Hd Em Eb Hf Ho Hc Ea Hl. rewrite (C31_roundtrip ow fs os name dname wops s0 b sq [GRead n] s); auto; [|cbn; auto]. cbn. rewrite firstn_all2 by auto. reflexivity.
Qed.

(** an archive of 100 bytes in slices of 90 (first) and 80 bytes, cut once, closed and read in disorder *)
Definition c31_wops : list wop := [Append (repeat 1%N 70); Append (repeat 2%N 40); Cut 90; Append (repeat 3%N 10)].
Definition c31_rops : list gop := [GPos; GRead 3; GSkip 75; GRead 20; GRel (-40); GRead 10; GEof; GPos; GRel (-100); GRead 200; GPos; GRead 1].
Definition c31_name : list N := repeat 7%N 10.
Definition c31_dname : list N := repeat 9%N 10.
Example C31_example : exists s0 header s, w_make false [] 80 90 c31_name c31_dname = (Ok tt, s0) /\ s_disk s0 = [Some header] /\
  length header = 62 /\ cuts_ok c31_wops [] /\ w_archive false 80 90 c31_name c31_dname c31_wops = (Ok tt, s) /\ length (s_disk s) = 6 /\
  client_ok false (room header 90 80 (s_disk s)) c31_rops (mk_file (written c31_wops) 0) /\
  client_ok true (room header 90 80 (s_disk s)) [GRead 20; GRel (-3); GSkip 99; GRead 5; GPos; GRead 1] (mk_file (written c31_wops) 0).
Proof.
  eexists. eexists. eexists. split; [vm_compute; reflexivity|]. split; [reflexivity|]. split; [reflexivity|]. split; [cbn; lia|].
  split; [vm_compute; reflexivity|]. split; [reflexivity|].
  match goal with |- client_ok _ ?r _ _ /\ _ => let v := eval vm_compute in r in replace r with v by (vm_compute; reflexivity) end.
  match goal with |- context[written c31_wops] => let v := eval vm_compute in (written c31_wops) in replace (written c31_wops) with v by (vm_compute; reflexivity) end.
  cbn. repeat split; try lia; auto.
Qed.

(** ** damaged sets of slices *)
(** a slice that is missing or that belongs to another archive is never read: the program asks the user for the good one *)
Theorem C31_missing_slice : forall sq s n, (s_fd s = None \/ s_cur s <> n) -> d_get (s_disk s) n = None -> fst (open_file_r sq n s) = Err Euser_abort.
Proof.
  intros sq s n Hs Hd. unfold open_file_r. replace (is_none (s_fd s) || negb (s_cur s =? n)) with true.
  2: { symmetry. destruct Hs as [->|Q]; [reflexivity|]. apply Nat.eqb_neq in Q. rewrite Q. apply orb_true_r. }
  unfold mbind, upd, open_readonly. destruct s as [d h i fd cur off m la z]. cbn [set_fd s_disk s_fd s_hdr s_init s_cur s_off s_max s_last s_szcur] in *. rewrite Hd. reflexivity.
Qed.
Theorem C31_foreign_slice : forall sq s n name dname first other as_first header h1 rest,
  (s_fd s = None \/ s_cur s <> n) -> s_init s = false ->
  length name = 10 -> length dname = 10 -> name <> sh_name (s_hdr s) ->
  sh_write (mk_sh SAUV_MAGIC name dname flag_at_end (mk_layout first other 0 0 false)) as_first false 0 = Ok (header, h1) ->
  length header < N.to_nat first -> length header < N.to_nat other ->
  d_get (s_disk s) n = Some (header ++ rest) -> fst (open_file_r sq n s) = Err Euser_abort.
Proof.
  intros sq s n name dname fs os af b h1 rest Hs Hi Hn Hd Nn Eh Hf Ho Hg. unfold open_file_r. replace (is_none (s_fd s) || negb (s_cur s =? n)) with true.
  2: { symmetry. destruct Hs as [->|Q]; [reflexivity|]. apply Nat.eqb_neq in Q. rewrite Q. apply orb_true_r. }
  unfold mbind, upd, open_readonly. destruct s as [d h i fd cur off m la z]. cbn [set_fd s_disk s_fd s_hdr s_init s_cur s_off s_max s_last s_szcur] in *. rewrite Hg.
  match goal with |- context[sh_read (Some ?z) false 0 (b ++ rest)] => destruct (C32_slice_header name dname flag_at_end fs os af b h1 rest false z) as [E1 E2]; auto; try lia end.
  rewrite E1. cbn [sh_sly older_sar_than_v8 sh_name]. cbn [set_szcur s_init s_hdr]. rewrite E2. cbn [sh_sly older_sar_than_v8]. subst i. cbn [negb andb].
  cbn [set_fd s_init s_hdr negb andb]. replace (name_eqb (sh_name h) name) with false; [reflexivity|]. unfold name_eqb. destruct (list_eq_dec N.eq_dec (sh_name h) name); congruence.
Qed.

(** The sample: 66 bytes in four slices. *)
Definition c31_data : list N := repeat 1%N 27 ++ repeat 2%N 17 ++ repeat 3%N 17 ++ repeat 4%N 5.
Definition c31_disk (w : list N) : disk := s_disk (snd (w_archive true 80 90 c31_name c31_dname [Append w])).
Definition c31_slice (n : nat) : list N := match d_get (c31_disk c31_data) n with Some c => c | None => [] end.
Definition answers (sq : bool) (ops : list gop) (d : disk) : res (list gout) := fst (r_run sq ops (r_make d)).
Definition file_answers (ops : list gop) (data : list N) : list gout := fst (g_run ops (mk_file data 0)).
Example C31_sample : answers false [GRead 100] (c31_disk c31_data) = Ok [OData c31_data].
Proof. vm_compute. reflexivity. Qed.
(** Slices given in the wrong order are not noticed: the headers do not hold the number of the slice. *)
Theorem C31_swapped_slices_refuted : exists d, d = d_set (d_set (c31_disk c31_data) 2 (c31_slice 3)) 3 (c31_slice 2) /\
  answers false [GRead 100] d = Ok [OData (repeat 1%N 27 ++ repeat 3%N 17 ++ repeat 2%N 17 ++ repeat 4%N 5)].
Proof. eexists. split; [reflexivity|]. vm_compute. reflexivity. Qed.
(** A slice that lost its end is not always noticed: when the last byte left is an N (78), zeros replace silently the missing bytes; when it is a T
    (84) the archive stops there. *)
Theorem C31_truncated_slice_refuted : exists data d c,
  d_get (c31_disk data) 2 = Some c /\ d = d_set (c31_disk data) 2 (firstn 71 c) /\ length c = 80 /\
  answers false [GRead 100] d = Ok [OData (firstn 35 data ++ repeat 0%N 9 ++ skipn 44 data)] /\
  answers false [GRead 100] d <> Ok [OData data].
Proof. exists (repeat 1%N 35 ++ [78%N] ++ repeat 1%N 30). eexists. eexists. split; [vm_compute; reflexivity|]. split; [reflexivity|]. split; [reflexivity|]. split; [vm_compute; reflexivity|vm_compute; discriminate]. Qed.
Theorem C31_truncated_slice_end_refuted : exists data d c,
  d_get (c31_disk data) 2 = Some c /\ d = d_set (c31_disk data) 2 (firstn 71 c) /\ length c = 80 /\
  answers false [GRead 100] d = Ok [OData (firstn 35 data)] /\ length data = 66.
Proof. exists (repeat 1%N 35 ++ [84%N] ++ repeat 1%N 30). eexists. eexists. split; [vm_compute; reflexivity|]. split; [reflexivity|]. split; [reflexivity|]. split; [vm_compute; reflexivity|reflexivity]. Qed.
(** When the end of the slice to go to is damaged, skip says no but leaves the object on this slice with the old position: the next bytes
    read are the wrong ones. *)
Theorem C31_failed_skip_refuted : exists d, d = d_set (c31_disk c31_data) 2 (removelast (c31_slice 2) ++ [0%N]) /\
  answers false [GRead 5; GSkip 30; GPos; GRead 2] d = Ok [OData [1; 1; 1; 1; 1]%N; OBool false; OPos 5; OData [2; 2]%N].
Proof. eexists. split; [reflexivity|]. vm_compute. reflexivity. Qed.

(** ** what the conditions on the client exclude *)
(** beyond the slices: the position left is not the end of the archive *)
Theorem C31_skip_beyond_refuted : answers false [GEof; GSkip 100; GPos] (c31_disk c31_data) = Ok [OBool true; OBool false; OPos (length c31_data + 1)].
Proof. vm_compute. reflexivity. Qed.
(** the end of an archive that fills exactly its last slice *)
Theorem C31_skip_exact_end_refuted : exists data, length data = 44 /\ answers false [GSkip 44] (c31_disk data) = Err Euser_abort /\
  answers false [GRead 44; GSkip 0; GSkip 44] (c31_disk data) = Ok [OData data; OBool true; OBool false].
Proof. exists (repeat 1%N 27 ++ repeat 2%N 17). split; [reflexivity|]. split; vm_compute; reflexivity. Qed.
(** skipping forward beyond the end asks the user for a slice that never existed *)
Theorem C31_forward_beyond_refuted : answers false [GRel 100] (c31_disk c31_data) = Err Euser_abort.
Proof. vm_compute. reflexivity. Qed.
(** skipping backward before the start leaves the position unchanged although the file has gone to its start *)
Theorem C31_backward_before_refuted : exists data, answers false [GRead 3; GRel (-5); GPos; GRead 2] (c31_disk data) =
  Ok [OData [1; 2; 3]%N; OBool false; OPos 3; OData [1; 2]%N].
Proof. exists [1; 2; 3; 4; 5; 6]%N. vm_compute. reflexivity. Qed.
(** sequential mode: beyond the end of the data, zeros are read *)
Theorem C31_sequential_beyond_refuted : answers true [GSkip 75; GRead 3] (c31_disk c31_data) = Ok [OBool true; OData [0; 0; 0]%N].
Proof. vm_compute. reflexivity. Qed.
(** sequential mode: skip_to_eof asks the user for the last slice although it is there *)
Theorem C31_sequential_eof_refuted : answers true [GEof] (c31_disk c31_data) = Err Euser_abort.
Proof. vm_compute. reflexivity. Qed.
(** while writing: going back to an earlier slice fills the one left with zeros up to its size *)
Theorem C31_write_back_refuted : forall s0, w_make true [] 80 90 c31_name c31_dname = (Ok tt, s0) ->
  exists s, (let! _ := w_write true (repeat 1%N 30) in let! _ := s_skip (open_file_w true) 5 in let! _ := w_skip_eof true in s_position (open_file_w true)) s0 = (Ok 44, s).
Proof. intros s0 E. vm_compute in E. injection E as <-. eexists. vm_compute. reflexivity. Qed.
Lemma loop_fill : forall k ow x w s n s', (let* r := sub (sl_size s (s_cur s)) (s_off s) in sub r 1) = Ok n -> 0 < n -> n <= length (x :: w) ->
  (let! _ := fd_write (firstn n (x :: w)) in upd (fun s => set_off (s_off s + n) s)) s = (Ok tt, s') ->
  write_loop (S k) ow (x :: w) s = write_loop k ow (skipn n (x :: w)) s'.
Proof.
  intros k ow x w s n s' E P L E1. cbn [write_loop]. rewrite E. rewrite Nat.min_l by exact L. replace (0 <? n) with true by (symmetry; apply Nat.ltb_lt; exact P).
  unfold mbind in *. destruct (fd_write (firstn n (x :: w)) s) as [[u|e] s1]; [|discriminate]. rewrite E1. reflexivity.
Qed.
Lemma loop_next : forall k ow x w s s', (let* r := sub (sl_size s (s_cur s)) (s_off s) in sub r 1) = Ok 0 -> open_file_w ow (S (s_cur s)) s = (Ok tt, s') ->
  write_loop (S k) ow (x :: w) s = write_loop k ow (x :: w) s'.
Proof. intros k ow x w s s' E E1. cbn [write_loop]. rewrite E. cbn [Nat.min Nat.ltb Nat.leb]. unfold mbind. rewrite E1. reflexivity. Qed.
(** A slice size that leaves room for the header and the flag only is accepted, and writing never ends. *)
Theorem C31_size_refuted : exists s0 header, w_make true [] 63 90 c31_name c31_dname = (Ok tt, s0) /\ s_disk s0 = [Some header] /\ length header + 1 = 63 /\
  forall fuel, fst (write_loop fuel true (repeat 1%N 28) s0) = Err Fuel.
Proof.
  destruct (w_make true [] 63 90 c31_name c31_dname) as [r s0] eqn:Em. exists s0.
  assert (r = Ok tt) by (vm_compute in Em; congruence). subst r.
  destruct (make_ok _ _ _ _ _ _ Em) as (b & h1 & Eh & Eb). exists b. split; [reflexivity|]. split; [exact Eb|].
  assert (Lb : length b = 62) by (vm_compute in Eh; injection Eh as <- _; reflexivity). split; [lia|].
  pose (s1 := snd ((let! _ := fd_write (repeat 1%N 27) in upd (fun s => set_off (s_off s + 27) s)) s0)).
  pose (s2 := snd (open_file_w true 2 s1)).
  assert (Em2 := Em). vm_compute in Em2.
  intros [|k]; [reflexivity|]. change (repeat 1%N 28) with (1%N :: repeat 1%N 27).
  rewrite (loop_fill k true 1%N (repeat 1%N 27) s0 27 s1).
  2: { injection Em2 as <-. vm_compute. reflexivity. }
  2: lia.
  2: { cbn. lia. }
  2: { unfold s1. injection Em2 as <-. vm_compute. reflexivity. }
  change (skipn 27 (1%N :: repeat 1%N 27)) with [1%N].
  destruct k as [|k]; [reflexivity|]. rewrite (loop_next k true 1%N [] s1 s2).
  2: { unfold s1. injection Em2 as <-. vm_compute. reflexivity. }
  2: { unfold s2, s1. injection Em2 as <-. vm_compute. reflexivity. }
  assert (Hw : W 90 63 b h1 s2 [repeat 1%N 27] []).
  { unfold s2, s1. vm_compute in Eh. injection Eh as <- <-. injection Em2 as <-. split; [|split].
    - intros [|i] Hi; [reflexivity|cbn in Hi; lia].
    - cbn. lia.
    - eexists. vm_compute. reflexivity. }
  clearbody s2. clear s1 Em2 Em.
  apply (endless_W c31_name c31_dname 90 63 b h1) with (pre := [repeat 1%N 27]) (l := []); auto; rewrite ?Lb; try reflexivity; try lia; discriminate.
Qed.
