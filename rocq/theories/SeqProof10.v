From Coq Require Import List.
From Verif Require Import Base EscapeModel EscapeSpec EscapeProof EscapeProof2 SeqModel SeqSpec.
Import ListNotations.
Open Scope nat_scope.

(** ** what is read of the first bytes of a stream *)
Lemma parse_cut : forall s0 n b k, length b <= n -> s0_ok s0 -> cut (parse s0 b) (parse s0 (firstn k b)).
Proof.
  intros s0. induction n as [|n IH]; intros b k L Hs.
  - destruct b; [|cbn in L; lia]. rewrite firstn_nil. exists [], [], []. auto.
  - destruct (starts s0 b) eqn:St.
    + apply starts_cmp in St. unfold cmp5 in St. rewrite cmp_full in St. destruct St as (r & ->). destruct r as [|c r].
      * rewrite app_nil_r in *. rewrite (parse_short s0 (fixed s0)) by (auto; cbn; lia). rewrite (parse_short s0 (firstn k (fixed s0))) by (auto; rewrite firstn_length; cbn [fixed length]; lia).
        exists (map D (firstn k (fixed s0))), (map D (skipn k (fixed s0))), []. rewrite <- map_app, firstn_skipn, app_nil_r. repeat split. destruct (map D (skipn k (fixed s0))) as [|[]]; auto.
      * rewrite parse_seq. destruct (Nat.le_gt_cases k 5) as [K|K].
        -- assert (F : firstn k (fixed s0 ++ c :: r) = firstn k (fixed s0)) by (rewrite firstn_app; replace (k - length (fixed s0)) with 0 by (cbn [fixed length]; lia); cbn [firstn]; apply app_nil_r).
           rewrite F. rewrite (parse_short s0 (firstn k (fixed s0))) by (auto; rewrite firstn_length; cbn [fixed length]; lia).
           assert (X : forall l, match l with D _ :: _ => False | _ => True end -> cut l (map D (firstn k (fixed s0)))).
           { intros l H. exists [], l, (firstn k (fixed s0)). repeat split. destruct l as [|[]]; auto. contradiction. }
           destruct (char2type c) as [t|]; [|apply X; exact I]. destruct t; try (apply X; exact I).
           exists (map D (firstn k (fixed s0))), (map D (skipn k (fixed s0)) ++ parse s0 r), []. rewrite app_assoc, <- map_app, firstn_skipn, app_nil_r. repeat split.
           destruct (map D (skipn k (fixed s0)) ++ parse s0 r) as [|[]]; auto.
        -- assert (F : firstn k (fixed s0 ++ c :: r) = fixed s0 ++ c :: firstn (k - 6) r).
           { rewrite firstn_app. rewrite firstn_all2 by (cbn [fixed length]; lia). f_equal. change (length (fixed s0)) with 5. replace (k - 5) with (S (k - 6)) by lia. reflexivity. }
           rewrite F, parse_seq. rewrite app_length in L. cbn [fixed length] in L. destruct (IH r (k - 6) ltac:(lia) Hs) as (a & b & j & E1 & E2 & E3).
           assert (X : forall p, cut (p ++ parse s0 r) (p ++ parse s0 (firstn (k - 6) r))).
           { intro p. exists (p ++ a), b, j. rewrite E1, E2, !app_assoc. auto. }
           destruct (char2type c) as [t|]; [|exists [Bad], [], []; auto]. destruct t; try (apply (X [M _])). apply X.
    + destruct b as [|x r]; [rewrite firstn_nil; exists [], [], []; auto|].
      assert (NF : cmp5 s0 (x :: r) <> Full) by (intro Q; apply starts_cmp in Q; congruence). rewrite (parse_data s0 x r NF).
      destruct k as [|k]; [cbn [firstn]; exists [], (D x :: parse s0 r), []; auto|]. cbn [firstn].
      assert (NF2 : cmp5 s0 (x :: firstn k r) <> Full).
      { intro Q. apply NF. unfold cmp5 in *. rewrite cmp_full in Q. destruct Q as (r2 & Q). rewrite cmp_full. exists (r2 ++ skipn k r). rewrite app_assoc, <- Q. cbn [app]. rewrite firstn_skipn. reflexivity. }
      rewrite (parse_data s0 x _ NF2). cbn [length] in L. destruct (IH r k ltac:(lia) Hs) as (a & b & j & E1 & E2 & E3). exists (D x :: a), b, j. rewrite E1, E2. auto.
Qed.
