From Coq Require Import List.
From Verif Require Import Base InfinintModel InfinintProof InfinintProof2 CrcModel CrcProof PropCrc DatetimeModel HeaderModel HeaderProof2 PathModel PropPath EscapeModel EscapeSpec EscapeProof4.
From Verif Require Import ReadStable CatModel CatSpec CatProof CatProof2 CatProof3 PropCatalogue SeqModel SeqSpec SeqProof.
Import ListNotations.
Open Scope N_scope.

(** ** extended attributes *)
Lemma str_eqb_true : forall a b, str_eqb a b = true -> a = b.
Proof.
  induction a as [|x a IH]; intros [|y b] H; cbn [str_eqb] in H; try discriminate; [reflexivity|].
  destruct (N.eqb_spec x y); cbn [andb] in H; [|discriminate]. subst. f_equal. auto.
Qed.
Lemma ea_set_new : forall k v l, ~ In k (map fst l) -> ea_set k v l = l ++ [(k, v)].
Proof.
  induction l as [|[k' v'] l IH]; intro H; [reflexivity|]. cbn [ea_set map fst app] in *. destruct (str_eqb k' k) eqn:E.
  - apply str_eqb_true in E. exfalso. apply H. left. exact E.
  - rewrite IH; [reflexivity|]. intro. apply H. right. assumption.
Qed.
Lemma dumpN_nonempty : forall n, (1 <= length (dumpN n))%nat.
Proof.
  intro n. pose proof (readN_dumpN n []) as R. destruct (dumpN n); [|cbn [length]; lia]. discriminate.
Qed.
Lemma ea_pairs_ok : forall l acc rest fuel, NoDup (map fst (acc ++ l)) -> Forall (fun p => no_nul (fst p)) l -> (length l < fuel)%nat ->
  ea_pairs fuel (N.of_nat (length l)) acc (concat (map pair_dump l) ++ rest) = Ok (acc ++ l, rest).
Proof.
  induction l as [|[k v] l IH]; intros acc rest fuel ND NZ F; (destruct fuel as [|fuel]; [cbn [length] in F; lia|]); cbn [ea_pairs].
  - cbn [map concat app length]. rewrite app_nil_r. reflexivity.
  - destruct (N.eqb_spec (N.of_nat (length ((k, v) :: l))) 0) as [E|_]; [cbn [length] in E; lia|].
    cbn [map concat]. unfold pair_dump at 1. cbn [fst snd]. rewrite <- !app_assoc. inversion NZ as [|? ? NZ1 NZ2]; subst. cbn [fst] in NZ1.
    rewrite read_string_app by exact NZ1. cbn [bind]. rewrite readN_dumpN. cbn [bind].
    rewrite read_string_size_app by (rewrite app_length; lia). cbn [bind].
    assert (NI : ~ In k (map fst acc)).
    { rewrite map_app in ND. cbn [map fst] in ND. apply NoDup_remove_2 in ND. intro H. apply ND. apply in_or_app. auto. }
    rewrite ea_set_new by exact NI. replace (N.of_nat (length ((k, v) :: l)) - 1) with (N.of_nat (length l)) by (cbn [length]; lia).
    rewrite IH; [rewrite <- app_assoc; reflexivity| |exact NZ2|cbn [length] in F; lia].
    rewrite <- app_assoc. exact ND.
Qed.
Lemma pairs_length : forall l, (length l <= length (concat (map pair_dump l)))%nat.
Proof.
  induction l as [|[k v] l IH]; cbn [map concat length]; [lia|]. rewrite app_length. assert (1 <= length (pair_dump (k, v)))%nat; [|lia]. unfold pair_dump, write_string. cbn [fst snd]. rewrite !app_length. cbn [length]. lia.
Qed.
Lemma ea_rt : forall l rest, eas_ok l -> ea_read (ea_dump l ++ rest) = Ok (l, rest).
Proof.
  intros l rest [ND NZ]. unfold ea_read, ea_dump. rewrite <- app_assoc, readN_dumpN. cbn [bind].
  pose proof (pairs_length l). rewrite ea_pairs_ok; [reflexivity|exact ND|exact NZ|rewrite app_length; lia].
Qed.

(** ** a complete entry *)
Lemma crc_eq_refl2 : forall k, crc_eq k (norm_crc k) = true.
Proof.
  intro k. unfold crc_eq, norm_crc, crc_size. cbn [cyclic]. rewrite Nat.eqb_refl. cbn [negb]. induction (cyclic k) as [|x l IH]; cbn [t_compare]; [reflexivity|].
  rewrite N.eqb_refl. exact IH.
Qed.
Lemma width_pos : forall z, crc_width z <> 0%nat.
Proof.
  intro z. unfold crc_width. destruct (N.eqb_spec z 0) as [|NZ]; cbn [negb]; [discriminate|].
  assert (Hq : z = GIGA * (z / GIGA) + z mod GIGA) by (apply N.div_mod; discriminate).
  destruct (N.eqb_spec (z mod GIGA) 0) as [E|E]; cbn [negb]; [|lia].
  intro H. assert (Q : z / GIGA = 0) by lia. rewrite Q, E in Hq. lia.
Qed.
Lemma copy_dump : forall c, exists k, crc_of (crc_width (fst c)) (snd c) = Ok k /\ copy_items c = Ok (map D (snd c) ++ M seqt_file_crc :: map D (crc_dump k)).
Proof. intros [z d]. cbn [fst snd]. destruct (crc_of_ok (crc_width z) d (width_pos z)) as (k & E & _). exists k. unfold copy_items. cbn [fst snd]. rewrite E. auto. Qed.
Lemma copy_read : forall size c a rest, copy_items c = Ok a -> crc_width (fst c) = crc_width size -> data_get size (a ++ rest) = (Ok (snd c), rest).
Proof.
  intros size c a rest H W. destruct (copy_dump c) as (k & E & E2). rewrite H in E2. injection E2 as ->. unfold data_get.
  rewrite <- app_assoc, <- app_comm_cons. rewrite db_D, find_D, find_hit. cbn [negb data_before]. rewrite db_D, ad_D, app_nil_r, crc_rt, split_data.
  rewrite <- W, E, crc_eq_refl2. reflexivity.
Qed.
(** what follows an entry: another one, the catalogue or the end of the file *)
Inductive bound : list item -> Prop :=
| b_end : forall d, bound (map D d)
| b_file : forall d l, bound (map D d ++ M seqt_file :: l)
| b_cat : forall d l, bound (map D d ++ M seqt_catalogue :: l).
Lemma bound_find : forall t l, inner t -> bound l -> fst (find t l) = false.
Proof.
  intros t l [H1 H2] B. destruct B; [rewrite find_none; reflexivity| |]; rewrite find_D, find_miss by congruence; reflexivity.
Qed.
Lemma bound_after : forall t l, inner t -> bound l -> bound (snd (find t l)).
Proof.
  intros t l [H1 H2] B. destruct B; [rewrite find_none; apply (b_end [])| |]; rewrite find_D, find_miss by congruence; [apply (b_file [])|apply (b_cat [])].
Qed.
Lemma find_sig : forall s l, exists l', find seqt_delta_sig (sig_items s ++ M seqt_ea :: l) = (match s with Some _ => true | None => false end, l') /\ find seqt_ea l' = (true, l).
Proof.
  intros [b|] l; unfold sig_items; cbn [app].
  - rewrite find_hit. eexists. split; [reflexivity|]. rewrite find_D, find_hit. reflexivity.
  - rewrite find_miss by discriminate. eexists. split; [reflexivity|]. apply find_hit.
Qed.
(** what is left once the EA have been read or found absent *)
Definition left_over (i : cinode) (s : option (list N)) (rest : list item) : list item := match i_ea i with EAfull => rest | _ => sig_items s ++ rest end.
Lemma ea_dumped : forall i l, (i_ea i = EAfull -> eas_ok l /\ exists n, i_ea_size i = Some n /\ n <> 0) -> exists x, ea_items i l = Ok x.
Proof.
  intros i l H. unfold ea_items. destruct (i_ea i); try (eexists; reflexivity). destruct (H eq_refl) as (_ & n & -> & _). cbn [opt_bug bind].
  destruct (crc_of_ok (crc_width n) (ea_dump l) (width_pos n)) as (k & -> & _). eexists. reflexivity.
Qed.
Lemma ea_got : forall i i' l s x rest, (i_ea i = EAfull -> eas_ok l /\ exists n, i_ea_size i = Some n /\ n <> 0) ->
  ea_items i l = Ok x -> i_ea i' = i_ea i -> (i_ea i = EAfull -> i_ea_size i' = i_ea_size i) ->
  ea_get i' (sig_items s ++ x ++ rest) = (Ok (attributes i l), left_over i s rest).
Proof.
  intros i i' l s x rest H E Hs Hz. unfold ea_get, attributes, left_over, ea_items in *. rewrite Hs. destruct (i_ea i); try (injection E as <-; reflexivity).
  destruct (H eq_refl) as (Hl & n & En & Nz). rewrite (Hz eq_refl), En in *. cbn [opt_bug bind] in E.
  destruct (crc_of_ok (crc_width n) (ea_dump l) (width_pos n)) as (k & Ek & _). rewrite Ek in E. cbn [bind] in E. injection E as <-.
  rewrite <- !app_comm_cons. destruct (find_sig s ((map D (ea_dump l) ++ M seqt_ea_crc :: map D (crc_dump k)) ++ rest)) as (l' & F1 & F2). rewrite F1, F2. cbn [negb].
  rewrite <- app_assoc, <- app_comm_cons. rewrite db_D. cbn [data_before]. rewrite ea_rt by exact Hl.
  rewrite app_nil_r. cbn [length]. rewrite Nat.sub_0_r, firstn_all.
  destruct (N.eqb_spec n 0) as [|_]; [contradiction|]. rewrite Ek. rewrite find_D, find_hit. cbn [negb]. rewrite db_D, ad_D, crc_rt, crc_eq_refl2, split_data. reflexivity.
Qed.
(** the EA cannot be read in front of a mark "changed" *)
Lemma ea_early : forall i l, exists x l', ea_get i (M seqt_changed :: l) = (x, l') /\ find seqt_changed l' = (true, l) /\
  (exists y, x = Ok y) \/ ea_get i (M seqt_changed :: l) = (Err Erange, M seqt_changed :: l).
Proof.
  intros i l. unfold ea_get. destruct (i_ea i); try (do 2 eexists; left; split; [reflexivity|]; split; [apply find_hit|eexists; reflexivity]).
  rewrite find_miss by discriminate. rewrite find_miss by discriminate. cbn [negb]. exists (Ok None), []. right. reflexivity.
Qed.

Definition again (w : wres) : bool := match w with Wok _ _ | Wea_bad => true | _ => false end.
Lemma copies_S : forall k b size i its, copies (S k) b size i its =
  let '(w, its) := write b size i its in
  match w with
  | Whang => (Ohang, its)
  | Wundef => (Oundef, its)
  | _ => let '(ag, its) := find seqt_changed its in
         if ag && again w then copies k b size i its
         else match w with Wok d x => let '(dy, its) := find seqt_dirty its in (Odone d dy x, its) | _ => (Oerr, its) end
  end.
Proof. reflexivity. Qed.
(** a copy followed by another one *)
Lemma copies_wasted : forall k size i c a rest, i_saved i = Ssaved -> copy_items c = Ok a -> crc_width (fst c) = crc_width size ->
  copies (S k) false (Some size) i (a ++ M seqt_changed :: rest) = copies k false (Some size) i rest.
Proof.
  intros k size i c a rest Hs Ha W. rewrite copies_S. unfold write, write_new. rewrite Hs, (copy_read size c a _ Ha W). cbn [bind].
  destruct (ea_early i rest) as (x & l' & [(E & F & y & ->)|E]); rewrite E.
  - rewrite F. reflexivity.
  - rewrite find_hit. reflexivity.
Qed.
Lemma wasted_dump : forall w, exists a, wasted_items w = Ok a.
Proof. induction w as [|c w [a IH]]; [eexists; reflexivity|]. cbn [wasted_items]. destruct (copy_dump c) as (k & _ & ->). rewrite IH. eexists. reflexivity. Qed.
Lemma copies_all_wasted : forall w a k size i rest, i_saved i = Ssaved -> wasted_items w = Ok a -> same_width size w -> (length w <= k)%nat ->
  copies k false (Some size) i (a ++ rest) = copies (k - length w) false (Some size) i rest.
Proof.
  induction w as [|c w IH]; intros a k size i rest Hs Ha W Hk.
  - injection Ha as <-. rewrite Nat.sub_0_r. reflexivity.
  - cbn [wasted_items] in Ha. destruct (copy_items c) as [a1|] eqn:E1; [|discriminate]. destruct (wasted_items w) as [a2|] eqn:E2; [|discriminate]. cbn [bind] in Ha. injection Ha as <-.
    cbn [length] in *. destruct k as [|k]; [lia|]. inversion W; subst. rewrite <- app_assoc, <- app_comm_cons.
    rewrite (copies_wasted k size i c a1 _ Hs E1) by assumption. rewrite (IH a2) by (auto; lia). reflexivity.
Qed.
Lemma wasted_length : forall w a, wasted_items w = Ok a -> (length w <= length a)%nat.
Proof.
  induction w as [|c w IH]; intros a H; [cbn; lia|]. cbn [wasted_items] in H. destruct (copy_items c) as [a1|]; [|discriminate]. destruct (wasted_items w) as [a2|]; [|discriminate]. injection H as <-.
  specialize (IH a2 eq_refl). rewrite app_length. cbn [length]. lia.
Qed.
