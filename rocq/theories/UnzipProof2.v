(** * The parallel decompression goes on, and ends. *)
From Coq Require Import List Bool PeanoNat Wf_nat Relation_Operators Lexicographic_Product.
From Verif Require Import Base FileModel PipeModel PipeProof BlockModel UnzipModel UnzipSpec UnzipProof.
Import ListNotations.
Open Scope nat_scope.

Section Proof.
Variables (W : nat) (Z : zipper) (B : nat) (file : list N).
Hypothesis W_pos : 0 < W.
Notation step := (step W Z B file).
Notation inv := (inv W).
Ltac fld := cbn [ops mode outs reof running pos rtype stop rm kind hold heap pipe ws wexn lus] in *.

Lemma inv_start : forall p l, inv (start W p l).
Proof.
  intros p l. unfold UnzipProof.inv, start. cbn [running]. unfold idle. fld. repeat split; auto; [apply repeat_length|].
  apply Forall_forall. intros z H. apply repeat_spec in H. subst z. reflexivity.
Qed.
Lemma expects_fins : forall o m u re ru p t s k x r y h pi w l o' u' re' ru' p' t' k' r' y' h' pi' w' x' l',
  expects W (Rs o m u re ru p t s r k y h pi w x l) -> is_run r' = is_run r -> (r = Rrun -> r' = Rrun) -> fins r' y' pi' l' = fins r y pi l -> (x = true -> x' = true) ->
  expects W (Rs o' m u' re' ru' p' t' s r' k' y' h' pi' w' x' l').
Proof.
  intros o m u re ru p t s k x r y h pi w l o' u' re' ru' p' t' k' r' y' h' pi' w' x' l' E R1 R2 F. revert E. unfold expects. fld. rewrite R1, F. destruct m; tauto.
Qed.
Lemma expects_end : forall o m u re ru p t s k x h pi w l p' t' k' b s', core W Rrun None h pi w l -> (s = true -> s' = true) ->
  expects W (Rs o m u re ru p t s Rrun k None h pi w x l) -> expects W (Rs o m u re ru p' t' s' (Rpush W b) k' None h pi w x l).
Proof.
  intros o m u re ru p t s k x h pi w l p' t' k' b s' C S E. unfold expects in *. fld. rewrite (fins_end W W_pos h pi w l b C). cbn [is_run] in *. destruct m; auto.
  - destruct E as (E1 & E2 & [[_ E3]|[E3 _]]); [|discriminate E3]. repeat split; auto; lia.
  - destruct E as [E|[E _]]; [auto|discriminate E].
Qed.
Lemma expects_idle : forall o u re p t s r k y h pi w x l o' u' re' p' t' k' m, match m with Mnext | Mread _ _ => True | _ => False end -> core W r y h pi w l ->
  expects W (Rs o Mnext u re true p t s r k y h pi w x l) -> expects W (Rs o' m u' re' true p' t' s r k' y h pi w x l).
Proof. intros. unfold expects in *. fld. destruct m; try contradiction; assumption. Qed.
(** the main thread begins to purge *)
Lemma expects_purge : forall (P : Prop) o m u re p t s r k y h pi w x l o' u' re' c, core W r y h pi w l ->
  expects W (Rs o m u re true p t s r k y h pi w x l) -> match m with Mnext | Mread _ _ => True | _ => False end -> expects W (Rs o' (Mpurge W false c) u' re' true p t true r k y h pi w x l).
Proof.
  intros P o m u re p t s r k y h pi w x l o' u' re' c C E M. unfold expects in *. fld. split; [lia|]. split; [reflexivity|].
  assert (E' : r = Rrun \/ fins r y pi l = W) by (destruct m; try contradiction; exact E). destruct (is_run r) eqn:R; [left|right].
  - destruct r; try discriminate R. auto.
  - destruct E' as [->|E']; [discriminate R|auto].
Qed.
(** a report of error is remembered *)
Definition xinv (s : rst) : Prop := forall v, In (Done v FErr) (pipe s) \/ In (v, FErr) (lus s) -> wexn s = true.
Lemma xinv_start : forall p l, xinv (start W p l).
Proof. intros p l v [[]|[]]. Qed.
Lemma xinv_step : forall s t, inv s -> xinv s -> step s t -> xinv t \/ (exists c, mode s = Mjoin c /\ wexn s = true /\ mode t = Mnext).
Proof.
  intros s t I X H. destruct H; unfold xinv in *; fld; try (left; exact X).
  - left. intros v [K|K]; [apply in_app_or in K as [K|[K|[]]]; [|discriminate K]|]; eauto.
  - left. intros e [K|K]; [|eauto]. apply (X e). left. eapply in_replace; [exact K|discriminate].
  - left. intros e [K|K].
    + apply in_app_or in K as [K|[K|K]]; [| |]; [| injection K as <- ->; reflexivity|]; assert (x = true) by (apply (X e); left; apply in_or_app; cbn; auto); destruct f; auto.
    + assert (x = true) by (apply (X e); auto). destruct f; auto.
  - left. unfold UnzipProof.inv, idle in I. fld. destruct I as (_ & _ & _ & -> & -> & _). intros v [[]|[]].
  - left. intros v [K|K]; apply (X v); left; apply in_or_app; [right; exact K|left]. apply in_map_iff. exists (v, FErr). auto.
  - left. intros v [K|K]; apply (X v); cbn [In]; auto.
  - left. intros v [K|[K|K]]; [|discriminate K|]; apply (X v); cbn [In]; auto.
  - left. intros v [K|K]; apply (X v); cbn [In]; auto.
  - left. intros e [K|K]; apply (X e); cbn [In]; auto.
  - left. intros e0 [K|K]; apply (X e0); cbn [In]; auto.
  - left. intros e0 [K|K]; apply (X e0); cbn [In]; auto.
  - left. intros e0 [K|K]; apply (X e0); cbn [In]; auto.
  - destruct x; [right; eauto|left; exact X].
Qed.
Lemma inv_step : forall s t, inv s -> xinv s -> step s t -> inv t \/ (exists c, mode s = Mjoin c /\ wexn s = true /\ mode t = Mnext).
Proof.
  intros s t I X H. destruct H; unfold UnzipProof.inv in *; cbn [running] in *;
  try (match type of I with (if ?ru then _ else _) => destruct ru end; [|solve [exfalso; unfold idle in I; fld; destruct I as (I0 & I1 & I2 & I3 & I4 & I5 & I6 & I7); try discriminate; try (destruct a; discriminate I3); try (destruct ys; [congruence|discriminate I3])]]).
  all: fld.
  - (* data *) left. destruct I as [C E]. split; [apply core_data; auto|]. eapply expects_fins; [exact E|reflexivity|auto| |auto]. unfold fins. rewrite items_hold, ndie_app. cbn. lia.
  - left. destruct I as [C E]. split; [apply core_end; auto|]. eapply expects_end; eauto.
  - left. destruct I as [C E]. split; [apply core_end; auto|]. eapply expects_end; eauto.
  - left. destruct I as [C E]. split; [apply core_end; auto|]. eapply expects_end; eauto.
  - left. destruct I as [C E]. split; [apply core_end; auto|]. eapply expects_end; eauto.
  - left. destruct I as [C E]. split; [apply core_send; auto|]. eapply expects_fins; [exact E|reflexivity|auto| |auto]. apply fins_send.
  - left. destruct I as [C E]. split; [apply core_order; auto|]. eapply expects_fins; [exact E|reflexivity|discriminate| |auto]. eapply fins_order; eauto.
  - left. destruct I as [C E]. split; [apply core_over; auto|]. eapply expects_fins; [exact E|reflexivity|discriminate| |auto]. reflexivity.
  - left. destruct I as [C E]. split; [eapply core_get; eauto|]. eapply expects_fins; [exact E|reflexivity|auto| |auto]. apply fins_get. reflexivity.
  - left. destruct I as [C E]. split; [eapply core_push; eauto|]. eapply expects_fins; [exact E|reflexivity|auto| |]; [apply fins_get; reflexivity|]. destruct f; auto.
  - (* read at end *) left. destruct ru; [|exact I]. destruct I as [C E]. split; [exact C|exact E].
  - left. destruct I as [C E]. split; [exact C|exact E].
  - left. unfold idle in I. fld. destruct I as (_ & _ & -> & -> & -> & -> & L & F). split; [apply core_start; auto|]. unfold expects. fld. auto.
  - left. destruct I as [C E]. split; [exact C|exact E].
  - left. destruct I as [C E]. split; [apply core_gather; auto|]. eapply expects_fins; [exact E|reflexivity|auto| |auto]. symmetry. eapply fins_gather; eauto.
  - (* take *) left. destruct I as [C E]. split; [eapply core_pop; eauto|]. unfold expects in *. fld. rewrite (fins_pop W W_pos) in E. exact E.
  - left. destruct I as [C E]. split; [eapply core_part; eauto|]. unfold expects in *. fld. exact E.
  - left. destruct I as [C E]. split; [eapply core_pop; eauto|]. unfold expects in *. fld. rewrite (fins_pop W W_pos) in E. exact E.
  - left. destruct I as [C E]. split; [exact C|]. eapply (expects_purge True); [exact C|exact E|exact Logic.I].
  - left. destruct I as [C E]. split; [exact C|]. eapply (expects_purge True); [exact C|exact E|exact Logic.I].
  - left. destruct I as [C E]. split; [eapply core_pop; eauto|]. pose proof (head_die _ _ _ _ _ _ _ _ _ C) as D.
    eapply (expects_purge True) with (m := Mnext) (o := []) (u := []) (re := false) (s := s); [eapply core_pop; eauto| |exact Logic.I]. unfold expects in *. fld. rewrite (fins_pop W W_pos), D in E. exact E.
  - (* skip *) left. unfold idle in *. fld. tauto.
  - left. destruct I as [C E]. split; [exact C|]. eapply (expects_purge True); [exact C|exact E|exact Logic.I].
  - left. unfold idle in *. fld. tauto.
  - left. destruct I as [C E]. split; [exact C|]. eapply (expects_purge True); [exact C|exact E|exact Logic.I].
  - (* purge *) left. destruct I as [C E]. split; [eapply core_pop; eauto|]. pose proof (head_die _ _ _ _ _ _ _ _ _ C) as D. unfold expects in *. fld. rewrite (fins_pop W W_pos), D in E. destruct f; try contradiction; exact E.
  - left. destruct I as [C E]. split; [eapply core_pop; eauto|]. pose proof (head_die _ _ _ _ _ _ _ _ _ C) as D. pose proof (head_norun _ _ _ _ _ _ _ _ C) as R. unfold expects in *. fld. rewrite (fins_pop W W_pos), D in E.
    destruct E as (E1 & E2 & [[E3 _]|[_ E3]]); [rewrite E3 in R; discriminate R|]. destruct e as [|e]; fld; [right; split; [exact R|lia]|]. split; [lia|]. split; [exact E2|]. right. split; [exact R|lia].
  - left. destruct I as [C E]. pose proof (head_die _ _ _ _ _ _ _ _ _ C) as D.
    split; [eapply core_pop; eauto|]. unfold expects in *. fld. rewrite (fins_pop W W_pos), D in E. cbn [Nat.add] in E. destruct (Nat.eqb_spec e W) as [->|NE]; [|exact E]. destruct b; fld; [|exact E]. left. apply (X v). right. left. reflexivity.
  - destruct x; [right; eauto|left]. destruct I as [C E]. unfold expects in E. fld. destruct E as [E|[E1 E2]]; [discriminate E|]. destruct (core_empty _ W_pos _ _ _ _ _ _ C E1 E2) as (_ & -> & -> & -> & F).
    unfold idle. fld. repeat split; auto. exact (c_len _ _ _ _ _ _ _ C).
Qed.
End Proof.
