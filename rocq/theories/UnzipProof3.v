(** * The parallel decompression goes on until the client is served, and ends: no deadlock, no endless schedule. *)
From Coq Require Import List Bool PeanoNat Wf_nat.
From Verif Require Import Base FileModel PipeModel PipeProof ReadStable BlockModel UnzipModel UnzipSpec UnzipProof UnzipProof2.
Import ListNotations.
Open Scope nat_scope.

Section Proof.
Variables (W : nat) (Z : zipper) (B : nat) (file : list N) (S : option N -> nat -> Prop).
Hypothesis W_pos : 0 < W.
Hypothesis HS : sound Z B file S.
Notation step := (step W Z B file).
Notation inv := (inv W).
Ltac fld := cbn [ops mode outs reof running pos rtype stop rm kind hold heap pipe ws wexn lus] in *.

Definition cause_ok (c : cause) (s : rst) : Prop :=
  match c with Cskip q => S None q | Ctell => False | Ceof _ => reof s = true | Cerr => kind s = true /\ is_run (rm s) = false end.
Record linv (s : rst) : Prop := {
  l_tell : no_tell (ops s);
  l_skip : forall q, In (Skip q) (ops s) -> S None q;
  l_wexn : wexn s = false;
  l_ws : Forall (fun z => z = Fine \/ z = Over false) (ws s);
  l_gives : forall i c, In (Blk i c) (items (hold s) (pipe s) (lus s)) -> exists y, gives Z B c y;
  l_run : rm s = Rrun -> S (rtype s) (pos s);
  l_idle : running s = false -> reof s = false -> S None (pos s);
  l_kind : running s = true -> is_run (rm s) = false -> kind s = true -> S None (pos s);
  l_exn : forall k, rm s = Rpush k true \/ rm s = Rover true -> kind s = true;
  l_mode : match mode s with Mpurge _ _ c | Mjoin c => cause_ok c s | _ => True end }.

Lemma linv_start : forall p l, no_tell l -> (forall q, In (Skip q) l -> S None q) -> S None p -> linv (start W p l).
Proof.
  intros p l T K P. constructor; unfold start; fld; auto; try discriminate.
  - apply Forall_forall. intros z H. apply repeat_spec in H. auto.
  - intros i c [].
  - intros k [H|H]; discriminate H.
Qed.
Lemma Forall_upd : forall (P : wstate -> Prop) w i z, Forall P w -> P z -> Forall P (upd i z w).
Proof. intros P w i z F. revert i. induction F as [|x w Hx F IH]; intros [|i] H; cbn [upd]; constructor; auto. Qed.
Lemma no_tell_tail : forall a l, no_tell (a :: l) -> no_tell l.
Proof. intros a l H K. apply H. right. exact K. Qed.
Lemma in_items_tail : forall y pi z l x, In x (items y pi l) -> In x (items y pi (z :: l)).
Proof. intros. unfold items in *. cbn [map app]. right. assumption. Qed.
Hint Resolve no_tell_tail in_items_tail : core.

Lemma unc_det : forall i c y r, gives Z B c y -> unzips Z B i c r -> r = WOk y.
Proof. intros i c y r [U L] H. unfold unzips in H. rewrite U in H. destruct (Nat.ltb_spec B (length y)); [lia|exact H]. Qed.
Lemma treat_ok : forall v z f z', z = Fine \/ z = Over false -> (forall i c, v = Blk i c -> exists y, gives Z B c y) -> treat false (unzips Z B) v z f z' -> f <> FErr /\ (z' = Fine \/ z' = Over false).
Proof.
  intros v z f z' F G H. destruct H; try discriminate; try (split; [discriminate|auto]; fail).
  - destruct (G i b eq_refl) as [y Gy]. destruct H0 as [H0|H0]; apply (unc_det _ _ _ _ Gy) in H0; discriminate H0.
  - destruct F; discriminate.
  - split; [discriminate|]. destruct F as [->| ->]; [auto|discriminate H].
Qed.

Lemma linv_step : forall s t, inv s -> xinv s -> linv s -> step s t -> linv t.
Proof.
  intros s t I X [L1 L2 L3 L4 L5 L6 L7 L8 L9 L10] H. destruct H; fld.
  - (* data *) pose proof (HS _ _ (L6 eq_refl)) as P. rewrite H in P. destruct P as (_ & G & P). constructor; fld; auto; try discriminate.
    + intros i d K. rewrite items_hold in K. apply in_app_or in K as [K|[K|[]]]; [eauto|]. injection K as <- <-. exact G.
    + intros Ru. destruct ru; [discriminate Ru|]. exfalso. unfold UnzipProof.inv, idle in I. fld. destruct I as (_ & I & _). discriminate I.
  - constructor; fld; auto; try discriminate. 
    + intros Ru. destruct ru; [discriminate Ru|]. exfalso. unfold UnzipProof.inv, idle in I. fld. destruct I as (_ & I & _). discriminate I.
    + intros k0 [K|K]; discriminate K.
    + destruct m; auto; destruct c; fld; auto; unfold cause_ok in *; fld; destruct L10; discriminate.
  - constructor; fld; auto; try discriminate. 
    + intros k0 [K|K]; discriminate K.
    + destruct m; auto; destruct c; fld; auto; unfold cause_ok in *; fld; destruct L10; discriminate.
  - pose proof (HS _ _ (L6 eq_refl)) as P. rewrite H in P. constructor; fld; auto; try discriminate.
    destruct m; auto; destruct c; fld; auto; unfold cause_ok in *; fld; destruct L10; discriminate.
  - pose proof (HS _ _ (L6 eq_refl)) as P. rewrite H in P. constructor; fld; auto; try discriminate.
    destruct m; auto; destruct c; fld; auto; unfold cause_ok in *; fld; destruct L10; discriminate.
  - (* send *) constructor; fld; auto. rewrite items_send. exact L5.
  - constructor; fld; auto; try discriminate.
    + intros i c K. rewrite items_hold in K. apply in_app_or in K as [K|[K|[]]]; [eauto|discriminate K].
    + intros k0 [K|K]; [|discriminate K]. apply (L9 (Datatypes.S n)). injection K as <- ->. auto.
  - constructor; fld; auto; try discriminate.
    + intros k0 [K|K]; [discriminate K|]. apply (L9 0). injection K as ->. auto.
  - (* get *) constructor; fld; auto. intros j c K. apply (L5 j c). rewrite (items_get y a (Queued v) (Busy i v) q l eq_refl). exact K.
  - (* push *) assert (T : f <> FErr /\ (z' = Fine \/ z' = Over false)).
    { eapply treat_ok; [| |exact H0]; [rewrite Forall_forall in L4; apply L4; eapply nth_error_In; eauto|]. intros j c ->. apply (L5 j c). unfold items. apply in_or_app. right. apply in_or_app. left. rewrite map_app. apply in_or_app. right. left. reflexivity. }
    destruct T as [T1 T2]. constructor; fld; auto.
    + destruct f; auto. congruence.
    + apply Forall_upd; assumption.
    + intros j c K. apply (L5 j c). rewrite (items_get y a (Busy i v) (Done v f) q l eq_refl). exact K.
  - constructor; fld; eauto. intros q K. apply L2. right. exact K.
  - constructor; fld; eauto. intros q K. apply L2. right. exact K.
  - (* start *) unfold UnzipProof.inv, idle in I. fld. destruct I as (_ & -> & _ & -> & -> & _). constructor; fld; eauto; try discriminate.
    + intros q K. apply L2. right. exact K.
    + apply Forall_forall. intros z K. apply in_map_iff in K as (z0 & <- & K). rewrite Forall_forall in L4. destruct (L4 _ K) as [->| ->]; auto.
    + intros k0 [K|K]; discriminate K.
  - constructor; fld; auto.
  - constructor; fld; auto. intros i c K. apply (L5 i c). unfold items in *. rewrite map_app, items_done. cbn [map app]. rewrite <- app_assoc. exact K.
  - constructor; fld; eauto.
  - constructor; fld; eauto.
  - constructor; fld; eauto.
  - constructor; fld; auto; try discriminate. unfold cause_ok. fld. reflexivity.
  - constructor; fld; auto. unfold cause_ok. fld. split; [reflexivity|]. unfold UnzipProof.inv in I. fld. destruct ru; [|unfold idle in I; fld; destruct I; discriminate]. destruct I as [C _]. eapply head_norun; exact C.
  - exfalso. assert (x = true) by (apply (X v); right; left; reflexivity). congruence.
  - assert (L2' : forall j, In (Skip j) o -> S None j) by (intros j K; apply L2; right; exact K). assert (S None q) by (apply L2; left; reflexivity). constructor; fld; eauto; try discriminate. unfold UnzipProof.inv, idle in I. fld. destruct I as (_ & -> & _). discriminate.
  - assert (L2' : forall j, In (Skip j) o -> S None j) by (intros j K; apply L2; right; exact K). assert (S None q) by (apply L2; left; reflexivity). constructor; fld; eauto; try discriminate.
  - exfalso. apply L1. left. reflexivity.
  - exfalso. apply L1. left. reflexivity.
  - constructor; fld; eauto.
  - constructor; fld; eauto. destruct e; auto.
  - constructor; fld; eauto. destruct (e =? W); auto. destruct b; auto.
  - (* join *) subst x. rewrite orb_false_r. constructor; fld; auto; try discriminate.
    + intros _ R. destruct c as [q| |got|]; unfold cause_ok in L10; fld; [|contradiction|congruence|].
      * destruct b; [|exact L10]. assert (k = true) by (apply (L9 0); auto). subst k. destruct ru; [auto|]. auto.
      * destruct L10 as [-> _]. destruct ru; auto.
    + intros k0 [K|K]; discriminate K.
Qed.

(** ** progress *)
Lemma pipe_progress : forall s, inv s -> linv s -> running s = true -> lus s = [] -> match mode s with Mread n got => length got < n | Mpurge _ _ _ => True | _ => False end -> exists t, step s t.
Proof.
  intros [o m u re ru p t st r k y h pi w x l] I [L1 L2 L3 L4 L5 L6 L7 L8 L9 L10] R E M. fld. subst ru l x. unfold UnzipProof.inv in I. fld. destruct I as [C E].
  destruct pi as [|c pi].
  - destruct y as [y|]; [eexists; apply r_send; unfold RS; cbn; lia|]. pose proof (core_heap _ W_pos _ _ _ _ _ C) as Hh. destruct h as [|h]; [lia|].
    destruct r as [| |[|n] b|b].
    + destruct (c_off _ _ _ _ _ _ _ C eq_refl).
    + destruct st; [eexists; apply r_stop|]. destruct (next Z B file t p) as [c q|q|q|q] eqn:Nx; eexists; [eapply r_data|eapply r_end|eapply r_bad|eapply r_short]; eauto.
    + eexists. apply r_over.
    + eexists. apply r_order.
    + exfalso. unfold expects in E. fld. change (fins (Rover b) None [] []) with 0 in E. destruct m; try contradiction; [destruct E as [E|E]; [discriminate E|lia]|]. destruct E as (E1 & _ & [[E2 _]|[_ E2]]); [discriminate E2|lia].
  - destruct c as [v|i v|v f|v].
    + (* get *)
      assert (Q : Forall (fun c => is_queued c = true) pi) by exact (c_shape _ _ _ _ _ _ _ C).
      assert (Wt : forall l, Forall (fun c => is_queued c = true) l -> waiting l = map item_of l).
      { clear. induction l as [|c l IH]; intro F; [reflexivity|]. inversion F; subst. destruct c; try discriminate. cbn. f_equal. apply IH. assumption. }
      assert (Bz : forall l, Forall (fun c => is_queued c = true) l -> busy_ids l = []).
      { clear. induction l as [|c l IH]; intro F; [reflexivity|]. inversion F; subst. destruct c; try discriminate. apply IH. assumption. }
      assert (A : 0 < alive w).
      { rewrite (c_alive _ _ _ _ _ _ _ C). destruct (is_run r) eqn:Rr; [lia|]. destruct (c_items _ _ _ _ _ _ _ C) as (bl & n & Ei & P & _).
        assert (Nd : ndie (waiting (Queued v :: pi)) + ndie (opt y) = n).
        { rewrite Wt by (constructor; auto). rewrite <- ndie_app. unfold items in Ei. cbn [map app] in Ei. cbn [map app]. rewrite Ei, ndie_app, ndie_repeat. replace (ndie (map blk bl)) with 0; [lia|]. clear. induction bl as [|c bl IH]; [reflexivity|exact IH]. }
        destruct P as [P|[P|P]]; [|congruence|lia]. subst bl. destruct n as [|n]; [discriminate Ei|lia]. }
      destruct (alive_some _ A) as (i & z & Ni & Oz). eexists. apply (w_get W Z B file) with (a := []) (i := i) (z := z); auto.
      intros e K. assert (K2 : In i (busy_ids (Queued v :: pi))) by (apply busy_in; eauto). cbn [busy_ids] in K2. rewrite Bz in K2 by exact Q. exact K2.
    + (* push *)
      destruct (c_busy _ _ _ _ _ _ _ C i) as (z & Ni & Oz); [left; reflexivity|]. assert (z = Fine). { rewrite Forall_forall in L4. destruct (L4 z (nth_error_In _ _ Ni)) as [->| ->]; [reflexivity|discriminate Oz]. } subst z.
      assert (Rm : room W [] ([] ++ Busy i v :: pi)). { split; [|auto]. destruct (c_done _ _ _ _ _ _ _ C) as [D1 D2]. apply Nat.le_neq. split; [exact D1|]. intro K. discriminate (D2 K). }
      destruct v as [j c|].
      * destruct (L5 j c) as [d Gd]; [left; reflexivity|]. eexists. apply (w_push W Z B file) with (a := []) (z := Fine) (z' := Fine) (f := FOk d); auto. apply t_ok. unfold unzips. destruct Gd as [-> Ld]. destruct (Nat.ltb_spec B (length d)); [lia|reflexivity].
      * eexists. apply (w_push W Z B file) with (a := []) (z := Fine) (f := FDie) (z' := Over false); auto. apply (t_die false (unzips Z B) Fine eq_refl).
    + eexists. apply (m_gather W Z B file) with (ys := [(v, f)]); [discriminate|]. exact M.
    + destruct (c_lost _ _ _ _ _ _ _ C v). left. reflexivity.
Qed.
Lemma progress : forall s, inv s -> xinv s -> linv s -> served s \/ exists t, step s t.
Proof.
  intros s I X L. destruct (mode s) as [|n got|e b c|c] eqn:M.
  - destruct s as [o m u re ru p t st r k y h pi w x l]. fld. subst m. destruct o as [|[n|q|] o]; [left; split; reflexivity| | |].
    + right. destruct re; [eexists; apply m_read_eof|]. destruct ru; [eexists; apply m_read|eexists; apply m_read_start].
    + right. destruct ru; [eexists; apply m_skip|eexists; apply m_skip_idle].
    + destruct (l_tell _ L). left. reflexivity.
  - right. assert (R : running s = true). { unfold UnzipProof.inv in I. destruct (running s); [reflexivity|]. destruct I as [I _]. congruence. }
    destruct (Nat.le_gt_cases n (length got)) as [Hn|Hn]. { destruct s as [o m u re ru p t st r k y h pi w x l]. fld. subst m. eexists. apply m_return. exact Hn. }
    destruct (lus s) as [|[v f] l] eqn:El; [apply pipe_progress; auto; rewrite M; exact Hn|].
    assert (C : core W (rm s) (hold s) (heap s) (pipe s) (ws s) (lus s)) by (unfold UnzipProof.inv in I; rewrite R in I; apply I). rewrite El in C. pose proof (head_die _ _ _ _ _ _ _ _ _ C) as D.
    destruct s as [o m u re ru p t st r k y h pi w x l0]. fld. subst m l0 ru. destruct f as [d| | |].
    + destruct v as [i c|]; [|discriminate D]. destruct (Nat.le_gt_cases (length d) (n - length got)); eexists; [apply m_take|apply m_part]; auto.
    + eexists. apply m_werror. exact Hn.
    + destruct v as [i c|]; [|discriminate D]. eexists. apply m_junk. exact Hn.
    + destruct k; eexists; [apply m_error|apply m_eof]; exact Hn.
  - right. assert (R : running s = true). { unfold UnzipProof.inv in I. destruct (running s); [reflexivity|]. destruct I as [I _]. congruence. }
    destruct (lus s) as [|[v f] l] eqn:El; [apply pipe_progress; auto; rewrite M; exact Logic.I|].
    assert (E : 0 < e). { unfold UnzipProof.inv in I. rewrite R in I. destruct I as [_ I]. unfold expects in I. rewrite M in I. apply I. }
    destruct s as [o m u re ru p t st r k y h pi w x l0]. fld. subst m l0 ru. destruct f as [d| | |].
    + eexists. apply p_data. exact Logic.I.
    + eexists. apply p_err.
    + eexists. apply p_data. exact Logic.I.
    + destruct e as [|e]; [lia|]. eexists. apply p_die.
  - right. assert (R : running s = true). { unfold UnzipProof.inv in I. destruct (running s); [reflexivity|]. destruct I as [I _]. congruence. }
    unfold UnzipProof.inv in I. rewrite R in I. destruct I as [C E]. unfold expects in E. rewrite M, (l_wexn _ L) in E. destruct E as [E|[E1 E2]]; [discriminate E|].
    destruct (core_empty _ W_pos _ _ _ _ _ _ C E1 E2) as (Ey & Ep & El & Eh & F). destruct s as [o m u re ru p t st r k y h pi w x l]. fld. subst y pi l h m ru.
    destruct r as [| |n b|b]; [destruct (c_off _ _ _ _ _ _ _ C eq_refl)|discriminate E1| |eexists; apply m_join; exact F].
    change (fins (Rpush n b) None [] []) with n in E2. subst n. eexists. apply r_over.
Qed.

(** ** every schedule ends *)
Definition class (m : mmode) : nat := match m with Mread _ _ => 3 | Mpurge _ _ _ => 2 | Mjoin _ => 1 | Mnext => 0 end.
Definition rest (m : mmode) : nat := match m with Mread n got => n - length got | _ => 0 end.
Definition reader (r : rmode) (p : nat) : nat := match r with Rrun => 6 * (length file - p) + 6 * W + 2 | Rpush k _ => 6 * k + 1 | _ => 0 end.
Definition local (s : rst) : nat := reader (rm s) (pos s) + 5 * length (opt (hold s)) + weights (pipe s) + length (lus s) + rest (mode s).
Lemma next_len : forall t p c q, next Z B file t p = Edata c q -> p < q -> q <= length file.
Proof.
  intros t p c q H L. unfold next in H. destruct (skipn p file) as [|ty r] eqn:Es.
  - destruct t as [[|[|[]|]]|]; try discriminate H; injection H as <- <-; lia.
  - destruct (InfinintModel.readN r) as [[n rst]|] eqn:Er; [|discriminate H]. destruct (U_I_max <? n)%N; [discriminate H|]. destruct (ty =? H_EOF)%N; [destruct (n =? 0)%N; discriminate H|].
    destruct (ty =? H_DATA)%N; [|discriminate H]. destruct (N.of_nat (z_room Z B) <? n)%N; [discriminate H|]. destruct (Nat.ltb_spec (length rst) (N.to_nat n)); [discriminate H|]. injection H as <- <-.
    assert (length rst <= length r) by (destruct (framed_readN _ _ _ Er) as (pr & -> & _); rewrite app_length; lia). assert (length (skipn p file) = Datatypes.S (length r)) by (rewrite Es; reflexivity). rewrite skipn_length in *. lia.
Qed.
Lemma step_measure : forall s t, linv s -> step s t ->
  length (ops t) < length (ops s) \/ (length (ops t) = length (ops s) /\ (class (mode t) < class (mode s) \/ (class (mode t) = class (mode s) /\ local t < local s))).
Proof.
  intros s t L H. destruct H; fld; cbn [length]; try (left; lia); right; (split; [reflexivity|]).
  - right. split; [reflexivity|]. unfold local; fld. pose proof (l_run _ L eq_refl) as P0. fld. pose proof (HS _ _ P0) as P. rewrite H in P. destruct P as (P & _). pose proof (next_len _ _ _ _ H P). cbn [reader opt length]. lia.
  - right. split; [reflexivity|]. unfold local; fld. cbn [reader opt length]. lia.
  - right. split; [reflexivity|]. unfold local; fld. cbn [reader opt length]. lia.
  - right. split; [reflexivity|]. unfold local; fld. cbn [reader opt length]. lia.
  - right. split; [reflexivity|]. unfold local; fld. cbn [reader opt length]. lia.
  - right. split; [reflexivity|]. unfold local; fld. rewrite !(weights_app W (unzips Z B) [] W_pos). cbn [opt length weights weight]. lia.
  - right. split; [reflexivity|]. unfold local; fld. cbn [reader opt length]. lia.
  - right. split; [reflexivity|]. unfold local; fld. cbn [reader opt length]. lia.
  - right. split; [reflexivity|]. unfold local; fld. rewrite !(weights_app W (unzips Z B) [] W_pos). cbn [weights weight]. lia.
  - right. split; [reflexivity|]. unfold local; fld. rewrite !(weights_app W (unzips Z B) [] W_pos). cbn [weights weight]. lia.
  - left. cbn [class]. lia.
  - right. split; [reflexivity|]. unfold local; fld. rewrite (weights_app W (unzips Z B) [] W_pos), (weights_done W (unzips Z B) [] W_pos). destruct ys; [congruence|]. cbn [length]. lia.
  - right. split; [reflexivity|]. unfold local; fld. cbn [length rest]. rewrite app_length. lia.
  - right. split; [reflexivity|]. unfold local; fld. cbn [length rest]. rewrite app_length, firstn_length. lia.
  - right. split; [reflexivity|]. unfold local; fld. cbn [length rest]. lia.
  - left. cbn [class]. lia.
  - left. cbn [class]. lia.
  - left. cbn [class]. lia.
  - right. split; [reflexivity|]. unfold local; fld. cbn [length rest]. lia.
  - destruct e; [left; cbn [class]; lia|]. right. split; [reflexivity|]. unfold local; fld. cbn [length rest]. lia.
  - destruct (e =? W); [destruct b; [left; cbn [class]; lia|]|]; right; (split; [reflexivity|]); unfold local; fld; cbn [length rest]; lia.
  - left. cbn [class]. lia.
Qed.
Definition all (s : rst) : Prop := inv s /\ xinv s /\ linv s.
Lemma all_step : forall s t, all s -> step s t -> all t.
Proof.
  intros s t (I & X & L) H. pose proof (linv_step _ _ I X L H) as L'.
  destruct (inv_step W Z B file W_pos _ _ I X H) as [I'|(c & M & E & _)]; [|rewrite (l_wexn _ L) in E; discriminate E].
  destruct (xinv_step W Z B file _ _ I X H) as [X'|(c & M & E & _)]; [|rewrite (l_wexn _ L) in E; discriminate E]. split; [exact I'|split; [exact X'|exact L']].
Qed.
Lemma ends : forall s, all s -> Acc (fun t s => step s t) s.
Proof.
  intro s. remember (length (ops s)) as a eqn:Ea. revert s Ea. induction (lt_wf a) as [a _ IHa]. intros s Ea.
  remember (class (mode s)) as b eqn:Eb. revert s Ea Eb. induction (lt_wf b) as [b _ IHb]. intros s Ea Eb.
  remember (local s) as c eqn:Ec. revert s Ea Eb Ec. induction (lt_wf c) as [c _ IHc]. intros s Ea Eb Ec A. constructor. intros t H.
  pose proof (all_step _ _ A H) as A'. destruct (step_measure s t (proj2 (proj2 A)) H) as [M|[M [N|[N O]]]].
  - apply (IHa (length (ops t))); [lia|reflexivity|exact A'].
  - apply (IHb (class (mode t))); [lia|lia|reflexivity|exact A'].
  - apply (IHc (local t)); [lia|lia|lia|reflexivity|exact A'].
Qed.
Lemma all_start : forall p l, no_tell l -> (forall q, In (Skip q) l -> S None q) -> S None p -> all (start W p l).
Proof. intros. split; [apply inv_start|split; [apply xinv_start|apply linv_start; assumption]]. Qed.
Lemma all_steps : forall s t, steps W Z B file s t -> all s -> all t.
Proof. intros s t H. induction H as [s|s t u H _ IH]; intro A; [exact A|]. apply IH. eapply all_step; eauto. Qed.
End Proof.
