(** * Proofs on the catalogue: what a reader consumes, termination *)
From Verif Require Import Base InfinintModel InfinintProof InfinintProof2 CrcModel CrcProof DatetimeModel HeaderModel PathModel CatModel CatSpec ReadStable.
Open Scope N_scope.

Lemma framed_byte_get : framed byte_get.
Proof. exact (framed_byte UB). Qed.
Lemma framed_crc_get : framed crc_get.
Proof. exact framed_crc_read. Qed.
Lemma framed_u16 : framed u16_get.
Proof.
  intros f x r H. destruct f as [|a [|b f]]; cbn [u16_get] in H; try discriminate. injection H as <- <-. exists [a; b]. split; reflexivity.
Qed.
#[export] Hint Resolve framed_byte_get framed_crc_get framed_u16 : framed.
Lemma framed_inode : forall small st, framed (inode_read small st).
Proof. intros small st. unfold inode_read. fr. Qed.
Lemma framed_dsig : framed dsig_read.
Proof. unfold dsig_read. fr. Qed.
#[export] Hint Resolve framed_inode framed_dsig : framed.
Lemma framed_file : forall small st algo, framed (file_read small st algo).
Proof. intros small st algo. unfold file_read. apply framed_bind; [auto with framed|]. intro. destruct small; cbn [negb]; destruct (has_data st); cbn zeta; fr. Qed.
#[export] Hint Resolve framed_file : framed.
Lemma framed_lien : forall st, framed (lien_read st).
Proof. intro st; unfold lien_read; fr. Qed.
Lemma framed_device : forall st, framed (device_read st).
Proof. intro st; unfold device_read; fr. Qed.
#[export] Hint Resolve framed_lien framed_device : framed.
Definition kind_run (small : bool) (algo : compression) (ty : N) (st : sstatus) (f : list N) : res (kind * list N) :=
  match kind_read small algo ty st f with None => Err Erange | Some r => r end.
Lemma framed_kind : forall small algo ty st, framed (kind_run small algo ty st).
Proof.
  intros small algo ty st. unfold kind_run, kind_read.
  repeat match goal with |- context [if ?b then _ else _] => destruct b end; fr.
Qed.
#[export] Hint Resolve framed_kind : framed.

(** the same readers written as compositions *)
Definition sig_run (f : list N) : res (N * sstatus * list N) := match sig_read f with None => Err Erange | Some x => Ok x end.
Lemma framed_sig : framed sig_run.
Proof.
  intros f x r H. unfold sig_run, sig_read in H. destruct f as [|b f]; cbn [read1] in H; [discriminate|]. destruct (sig_decode b) as [[t s]|] eqn:E; [|discriminate].
  injection H as <- <-. exists [b]. split; [reflexivity|]. intro q. unfold sig_run, sig_read. cbn [app read1]. rewrite E. reflexivity.
Qed.
#[export] Hint Resolve framed_sig : framed.
Definition ent_step (small : bool) (algo : compression) (ent : corres -> list N -> res (option entry * corres * list N))
  (lst : corres -> list N -> res (list entry * corres * list N)) (co : corres) (f : list N) : res (option entry * corres * list N) :=
  let* '(p, f) := sig_run f in
  let (ty, st) := p in
      if ty =? 100 then
        let* '(i, f) := inode_read small st f in
        let* '(p, f) := lst co f in let (ch, co) := p in
        Ok ((Some (Edir i ch), co), f)
      else if ty =? 109 then
        let* '(name, f) := read_string f in
        let* '(t, f) := readN f in
        let* '(flag, f) := byte_get f in
        if flag =? 88 then let* p := mir_alone name t co in let (e, co) := p in Ok ((Some e, co), f)
        else if flag =? 62 then
          let* '(p, f) := ent co f in let (x, co) := p in
          match x with
          | Some (Eino i k) => let* p := mir_with name t i k co in let (e, co) := p in Ok ((Some e, co), f)
          | _ => Err Erange
          end
        else Err Erange
      else if ty =? 104 then
        let* '(name, f) := read_string f in
        let* '(t, f) := readN f in
        let* p := mir_alone name t co in let (e, co) := p in Ok ((Some e, co), f)
      else if ty =? 101 then
        let* '(i, f) := inode_read small st f in
        let* '(c, f) := file_read small st algo f in
        let* '(t, f) := readN f in
        let* p := mir_with (i_name i) t (set_name [] i) (Kfile c) co in let (e, co) := p in Ok ((Some e, co), f)
      else if ty =? 122 then match st with Ssaved => Ok ((None, co), f) | _ => Err Erange end
      else if ty =? 120 then
        match st with
        | Ssaved =>
          let* '(name, f) := read_string f in
          let* '(s, f) := match read1 f with Some x => Ok x | None => Err Erange end in
          let* '(d, f) := dt_read 12 f in
          Ok ((Some (Edet name s d), co), f)
        | _ => Err Erange
        end
      else
        match kind_read small algo ty st [] with
        | None => Err Erange
        | Some _ =>
          let* '(i, f) := inode_read small st f in
          let* '(k, f) := kind_run small algo ty st f in Ok ((Some (Eino i k), co), f)
        end.
Definition list_step (ent : corres -> list N -> res (option entry * corres * list N))
  (lst : corres -> list N -> res (list entry * corres * list N)) (co : corres) (f : list N) : res (list entry * corres * list N) :=
  let* '(p, f) := ent co f in let (x, co) := p in
  match x with
  | None => Ok (([], co), f)
  | Some e => let* '(p, f) := lst co f in let (l, co) := p in Ok ((e :: l, co), f)
  end.
Lemma ent_read_step : forall small algo n co f, ent_read small algo (S n) co f = ent_step small algo (ent_read small algo n) (list_read small algo n) co f.
Proof.
  intros small algo n co f. cbn [ent_read]. unfold ent_step, sig_run. destruct (sig_read f) as [[[ty st] f1]|]; [|reflexivity]. cbn [bind].
  repeat match goal with |- (if ?b then _ else _) = (if ?b then _ else _) => destruct b; [reflexivity|] end.
  destruct (kind_read small algo ty st []) as [r|] eqn:E0; [|reflexivity].
  destruct (inode_read small st f1) as [[i f2]|]; [|reflexivity]. cbn [bind]. unfold kind_run. destruct (kind_read small algo ty st f2); reflexivity.
Qed.
Lemma list_read_step : forall small algo n co f, list_read small algo (S n) co f = list_step (ent_read small algo n) (list_read small algo n) co f.
Proof. reflexivity. Qed.

Lemma framed_steps : forall small algo n co, framed (ent_read small algo n co) /\ framed (list_read small algo n co).
Proof.
  intros small algo n. induction n as [|n IH]; intro co; [split; intros f x r H; discriminate|].
  assert (A : forall co, framed (ent_read small algo n co)) by (intro; apply IH). assert (B : forall co, framed (list_read small algo n co)) by (intro; apply IH). clear IH.
  split.
  - apply (framed_ext _ (ent_step small algo (ent_read small algo n) (list_read small algo n) co)); [intro; symmetry; apply ent_read_step|].
    unfold ent_step. fr.
  - apply (framed_ext _ (list_step (ent_read small algo n) (list_read small algo n) co)); [intro; reflexivity|]. unfold list_step. fr.
Qed.

(** ** fuel *)
(** a reader consuming at least one byte *)
Definition shrinks {A} (R : list N -> res (A * list N)) (k : nat) : Prop := forall f x r, R f = Ok (x, r) -> (length r + k <= length f)%nat.
Lemma framed_shrinks : forall A (R : list N -> res (A * list N)), framed R -> shrinks R 0.
Proof. intros A R H f x r E. destruct (H _ _ _ E) as (p & -> & _). rewrite app_length. lia. Qed.
Lemma sig_shrinks : shrinks sig_run 1.
Proof.
  intros f x r H. unfold sig_run, sig_read in H. destruct f as [|b f]; cbn [read1] in H; [discriminate|]. destruct (sig_decode b) as [[t s]|]; [|discriminate].
  injection H as <- <-. cbn [length]. lia.
Qed.
Lemma ent_step_shrinks : forall small algo ent lst co, (forall co, shrinks (ent co) 0) -> (forall co, shrinks (lst co) 0) -> shrinks (ent_step small algo ent lst co) 1.
Proof.
  intros small algo ent lst co He Hl f x r H. unfold ent_step in H. apply bind_ok_inv in H as ([[ty st] f1] & E & H). apply sig_shrinks in E.
  assert (G : forall A (R : list N -> res (A * list N)) f y r, framed R -> R f = Ok (y, r) -> (length r <= length f)%nat).
  { intros A R g y r' HR HE. pose proof (framed_shrinks _ _ HR _ _ _ HE). lia. }
  cut (length r <= length f1)%nat; [lia|]. clear E.
  repeat match type of H with
  | (if ?b then _ else _) = _ => destruct b
  | (match ?s with Ssaved => _ | _ => _ end) = _ => destruct s; try discriminate
  | Ok _ = Ok _ => injection H; intros; subst; lia
  | Err _ = Ok _ => discriminate
  | (let (_, _) := ?p in _) = _ => destruct p
  | (match ?x with Some _ => _ | None => _ end) = _ => destruct x; try discriminate
  | (match ?x with Eino _ _ => _ | _ => _ end) = _ => destruct x; try discriminate
  | bind (lst ?c ?f) _ = _ => let E := fresh in apply bind_ok_inv in H as ([? ?] & E & H); apply Hl in E
  | bind (ent ?c ?f) _ = _ => let E := fresh in apply bind_ok_inv in H as ([? ?] & E & H); apply He in E
  | bind (mir_alone _ _ _) _ = _ => let E := fresh in apply bind_ok_inv in H as ([? ?] & E & H)
  | bind (mir_with _ _ _ _ _) _ = _ => let E := fresh in apply bind_ok_inv in H as ([? ?] & E & H)
  | bind (match read1 ?f with _ => _ end) _ = _ => let E := fresh in apply bind_ok_inv in H as ([? ?] & E & H);
      apply (G _ (fun f => match read1 f with Some x => Ok x | None => Err Erange end) _ _ _ (framed_byte Erange)) in E
  | bind (?R ?f) _ = _ => let E := fresh in apply bind_ok_inv in H as ([? ?] & E & H); apply (G _ R) in E; [|solve [auto with framed]]
  end.
Qed.
Lemma ent_shrinks : forall small algo n co, shrinks (ent_read small algo n co) 1.
Proof.
  intros small algo [|n] co; [intros f x r H; discriminate|]. intros f x r H. rewrite ent_read_step in H.
  eapply ent_step_shrinks; [| |exact H]; intro; apply framed_shrinks; apply framed_steps.
Qed.

Lemma tame_crc : tame crc_get.
Proof. exact tame_crc_read. Qed.
Lemma tame_u16 : tame u16_get.
Proof. intros [|a [|b f]]; discriminate. Qed.
#[export] Hint Resolve tame_crc tame_u16 : tame.
Lemma tame_byte_get : tame byte_get.
Proof. apply tame_byte. discriminate. Qed.
#[export] Hint Resolve tame_byte_get : tame.
Lemma tame_inode : forall small st, tame (inode_read small st).
Proof. intros small st. unfold inode_read. cbn zeta. tm. Qed.
Lemma char_comp_tame : forall c, char_comp c <> Err Fuel.
Proof. intro c. unfold char_comp. repeat match goal with |- context [if ?b then _ else _] => destruct b end; discriminate. Qed.
Lemma char_magic_tame : forall c, char_magic c <> Err Fuel.
Proof. intro c. unfold char_magic. repeat match goal with |- context [if ?b then _ else _] => destruct b end; discriminate. Qed.
#[export] Hint Resolve tame_inode char_comp_tame char_magic_tame : tame.
Lemma tame_dsig : tame dsig_read.
Proof. unfold dsig_read. tm. Qed.
#[export] Hint Resolve tame_dsig : tame.
Lemma tame_file : forall small st algo, tame (file_read small st algo).
Proof. intros small st algo. unfold file_read. apply tame_bind; [auto with tame|]. intro. destruct small; cbn [negb]; destruct (has_data st); cbn zeta; tm. Qed.
#[export] Hint Resolve tame_file : tame.
Lemma tame_kind : forall small algo ty st, tame (kind_run small algo ty st).
Proof.
  intros small algo ty st. unfold kind_run, kind_read. assert (tame (lien_read st)) by (unfold lien_read; tm). assert (tame (device_read st)) by (unfold device_read; tm).
  repeat match goal with |- context [if ?b then _ else _] => destruct b end; tm.
Qed.
#[export] Hint Resolve tame_kind : tame.
Lemma tame_sig : tame sig_run.
Proof. intro f. unfold sig_run. destruct (sig_read f); discriminate. Qed.
Lemma mir_alone_tame : forall n t co, mir_alone n t co <> Err Fuel.
Proof. intros. unfold mir_alone. destruct (lookup t co); discriminate. Qed.
Lemma mir_with_tame : forall n t i k co, mir_with n t i k co <> Err Fuel.
Proof. intros. unfold mir_with. destruct (lookup t co); discriminate. Qed.
#[export] Hint Resolve tame_sig mir_alone_tame mir_with_tame : tame.

Lemma ent_step_fuel : forall small algo ent lst ent' lst' co f,
  (forall co g, (length g < length f)%nat -> ent co g <> Err Fuel) -> (forall co g, (length g < length f)%nat -> lst co g <> Err Fuel) ->
  (forall co g, (length g < length f)%nat -> ent' co g = ent co g) -> (forall co g, (length g < length f)%nat -> lst' co g = lst co g) ->
  ent_step small algo ent lst co f <> Err Fuel /\ ent_step small algo ent' lst' co f = ent_step small algo ent lst co f.
Proof.
  intros small algo ent lst ent' lst' co f HE HL EE EL. unfold ent_step. destruct (sig_run f) as [[[ty st] f1]|e] eqn:E; [|cbn [bind]; split; [intro Q; injection Q as ->; eapply tame_sig; eauto|reflexivity]].
  apply sig_shrinks in E. cbn [bind].
  assert (TM : forall A (R : list N -> res (A * list N)) g, tame R -> R g <> Err Fuel) by (intros; auto).
  destruct (ty =? 100).
  { destruct (inode_read small st f1) as [[i f2]|e2] eqn:E2; cbn [bind]; [|split; [intro Q; injection Q as ->; eapply tame_inode; eauto|reflexivity]].
    apply (framed_shrinks _ _ (framed_inode small st)) in E2. rewrite EL by lia. split; [|reflexivity].
    specialize (HL co f2 ltac:(lia)). destruct (lst co f2) as [[[ch co'] f3]|]; cbn [bind]; congruence. }
  destruct (ty =? 109).
  { destruct (read_string f1) as [[nm f2]|e2] eqn:E2; cbn [bind]; [|split; [intro Q; injection Q as ->; eapply tame_string; eauto|reflexivity]].
    apply (framed_shrinks _ _ framed_read_string) in E2.
    destruct (readN f2) as [[t f3]|e3] eqn:E3; cbn [bind]; [|split; [intro Q; injection Q as ->; eapply tame_readN; eauto|reflexivity]].
    apply (framed_shrinks _ _ framed_readN) in E3.
    destruct (byte_get f3) as [[fl f4]|e4] eqn:E4; cbn [bind]; [|split; [intro Q; injection Q as ->; eapply tame_byte_get; eauto|reflexivity]].
    apply (framed_shrinks _ _ framed_byte_get) in E4.
    destruct (fl =? 88).
    { split; [|reflexivity]. pose proof (mir_alone_tame nm t co). destruct (mir_alone nm t co) as [[? ?]|]; cbn [bind]; congruence. }
    destruct (fl =? 62); [|split; [discriminate|reflexivity]].
    rewrite EE by lia. split; [|reflexivity]. specialize (HE co f4 ltac:(lia)). destruct (ent co f4) as [[[x co'] f5]|]; cbn [bind]; [|congruence].
    destruct x as [[i k| | | | |]|]; try discriminate. pose proof (mir_with_tame nm t i k co'). destruct (mir_with nm t i k co') as [[? ?]|]; cbn [bind]; congruence. }
  split; [|reflexivity].
  assert (tame (fun f1 : list N => if ty =? 104
   then let* '(name, f2) := read_string f1 in let* '(t, f3) := readN f2 in let* p := mir_alone name t co in let (e, co0) := p in Ok ((Some e, co0), f3)
   else if ty =? 101 then
     let* '(i, f2) := inode_read small st f1 in let* '(c, f3) := file_read small st algo f2 in let* '(t, f4) := readN f3 in
     let* p := mir_with (i_name i) t (set_name [] i) (Kfile c) co in let (e, co0) := p in Ok ((Some e, co0), f4)
   else if ty =? 122 then match st with Ssaved => Ok ((None, co), f1) | _ => Err Erange end
   else if ty =? 120 then match st with
        | Ssaved => let* '(name, f2) := read_string f1 in let* '(s, f3) := match read1 f2 with Some x => Ok x | None => Err Erange end in
                    let* '(d, f4) := dt_read 12 f3 in Ok ((Some (Edet name s d), co), f4)
        | _ => Err Erange end
   else match kind_read small algo ty st [] with
        | Some _ => let* '(i, f2) := inode_read small st f1 in let* '(k, f3) := kind_run small algo ty st f2 in Ok ((Some (Eino i k), co), f3)
        | None => Err Erange end)) as T.
  { destruct (ty =? 104); [tm|]. destruct (ty =? 101); [tm|]. destruct (ty =? 122); [tm|]. destruct (ty =? 120); [tm|]. destruct (kind_read small algo ty st []); tm. }
  apply T.
Qed.

Lemma fuel_enough : forall small algo k f, (length f < k)%nat ->
  (forall n co, (2 * length f + 1 <= n)%nat -> ent_read small algo n co f <> Err Fuel /\ forall m, (2 * length f + 1 <= m)%nat -> ent_read small algo m co f = ent_read small algo n co f) /\
  (forall n co, (2 * length f + 2 <= n)%nat -> list_read small algo n co f <> Err Fuel /\ forall m, (2 * length f + 2 <= m)%nat -> list_read small algo m co f = list_read small algo n co f).
Proof.
  intros small algo k. induction k as [|k IH]; intros f Hk; [lia|].
  assert (A : forall n co, (2 * length f + 1 <= n)%nat -> ent_read small algo n co f <> Err Fuel /\ forall m, (2 * length f + 1 <= m)%nat -> ent_read small algo m co f = ent_read small algo n co f).
  { intros [|n] co Hn; [lia|]. assert (S : forall m, (2 * length f + 1 <= m)%nat -> ent_read small algo (S n) co f <> Err Fuel /\ ent_read small algo m co f = ent_read small algo (S n) co f).
    { intros [|m] Hm; [lia|]. rewrite !ent_read_step. apply ent_step_fuel.
      - intros c g Hg. apply (IH g); lia.
      - intros c g Hg. apply (IH g); lia.
      - intros c g Hg. apply (IH g); lia.
      - intros c g Hg. apply (IH g); lia. }
    split; [apply (S (Datatypes.S n)); lia|]. intros m Hm. apply S. exact Hm. }
  split; [exact A|]. intros [|n] co Hn; [lia|].
  assert (S : forall m, (2 * length f + 2 <= m)%nat -> list_read small algo (S n) co f <> Err Fuel /\ list_read small algo m co f = list_read small algo (S n) co f).
  { intros [|m] Hm; [lia|]. rewrite !list_read_step. unfold list_step.
    destruct (A n co ltac:(lia)) as [N1 E1]. rewrite (E1 m) by lia.
    destruct (ent_read small algo n co f) as [[[x co'] f1]|e] eqn:E; cbn [bind]; [|split; [congruence|reflexivity]].
    apply ent_shrinks in E. destruct x as [x|]; [|split; [discriminate|reflexivity]].
    destruct (IH f1 ltac:(lia)) as [_ L]. destruct (L n co' ltac:(lia)) as [N2 E2]. rewrite (E2 m) by lia. split; [|reflexivity].
    destruct (list_read small algo n co' f1) as [[[l c2] f2]|]; cbn [bind]; congruence. }
  split; [apply (S (Datatypes.S n)); lia|]. intros m Hm. apply S. exact Hm.
Qed.
