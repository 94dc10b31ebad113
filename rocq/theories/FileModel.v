(** * A plain byte file seen through generic_file (src/libdar/generic_file.hpp, fichier_local.cpp, generic_file.cpp).

    The file is its byte content and the current position. Reading stops at end of file; writing overwrites, extends
    at end of file and fills a gap with zeros (POSIX regular file behaviour, fichier_local.cpp:160-330). I/O errors
    are not modelled. *)
From Verif Require Import Base.
Open Scope nat_scope.

Record gfile := mk_file { fdata : list N; fpos : nat }.

(** generic_file::read(a, size), generic_file.cpp:138-147, on fichier_local::fichier_global_inherited_read *)
Definition g_read (n : nat) (f : gfile) : list N * gfile :=
  let got := firstn n (skipn (fpos f) (fdata f)) in
  (got, mk_file (fdata f) (fpos f + length got)).
(** read_forward, generic_file.hpp:148: one byte, or none at end of file *)
Definition g_read_forward (f : gfile) : option (N * gfile) :=
  match nth_error (fdata f) (fpos f) with
  | Some b => Some (b, mk_file (fdata f) (S (fpos f)))
  | None => None
  end.
(** fichier_local::skip_relative(S_I x), fichier_local.cpp:210-242 *)
Definition g_skip_relative (x : Z) (f : gfile) : bool * gfile :=
  if (Z.of_nat (fpos f) + x <? 0)%Z then (false, mk_file (fdata f) 0)
  else (true, mk_file (fdata f) (Z.to_nat (Z.of_nat (fpos f) + x))).
(** generic_file::read_back, generic_file.cpp:176-189 *)
Definition g_read_back (f : gfile) : option (N * gfile) :=
  let '(ok, f1) := g_skip_relative (-1) f in
  if ok then
    match g_read_forward f1 with
    | Some (b, f2) => Some (b, snd (g_skip_relative (-1) f2))
    | None => None
    end
  else None.
(** fichier_local::skip, skip_to_eof, fichier_local.cpp:168-208 *)
Definition g_skip (p : nat) (f : gfile) : gfile := mk_file (fdata f) p.
Definition g_skip_eof (f : gfile) : gfile := mk_file (fdata f) (length (fdata f)).
(** generic_file::write, generic_file.cpp:149-158 on write(2) *)
Definition overwrite (data : list N) (pos : nat) (w : list N) : list N :=
  firstn pos data ++ repeat 0%N (pos - length data) ++ w ++ skipn (pos + length w) data.
Definition g_write (w : list N) (f : gfile) : gfile :=
  match w with
  | [] => f
  | _ => mk_file (overwrite (fdata f) (fpos f) w) (fpos f + length w)
  end.

(** conversion to S_I (signed int, 32 bits) as performed by every supported compiler (modulo 2^32) *)
Definition to_S_I (z : Z) : Z := ((z + 2147483648) mod 4294967296 - 2147483648)%Z.

Lemma to_S_I_small : forall z, (-2147483648 <= z < 2147483648)%Z -> to_S_I z = z.
Proof. intros z H. unfold to_S_I. lia. Qed.

(** ** the two reading directions as one stream of bytes *)
Inductive dir := forward | backward.
Definition view (d : dir) (f : gfile) : list N :=
  match d with forward => skipn (fpos f) (fdata f) | backward => rev (firstn (fpos f) (fdata f)) end.
Definition g_step (d : dir) (f : gfile) : option (N * gfile) :=
  match d with forward => g_read_forward f | backward => g_read_back f end.
Definition in_file (f : gfile) : Prop := fpos f <= length (fdata f).
(** position after moving [k] bytes in direction [d] *)
Definition moved (d : dir) (f : gfile) (k : nat) : gfile :=
  mk_file (fdata f) (match d with forward => fpos f + k | backward => fpos f - k end).

Lemma skipn_skipn : forall (A : Type) x y (l : list A), skipn x (skipn y l) = skipn (x + y) l.
Proof.
  intros A x y. revert x. induction y as [|y IH]; intros x l; [rewrite Nat.add_0_r; reflexivity|].
  rewrite Nat.add_succ_r. destruct l as [|b l]; [rewrite !skipn_nil; reflexivity|]. cbn [skipn]. apply IH.
Qed.
Lemma skipn_nth_error : forall (A : Type) p (l : list A) b,
  nth_error l p = Some b -> skipn p l = b :: skipn (S p) l.
Proof.
  induction p as [|p IH]; intros [|x l] b H; cbn in *; try discriminate.
  - injection H as ->. reflexivity.
  - apply IH in H. destruct l; cbn in *; auto; discriminate.
Qed.

Lemma g_step_nil : forall d f, in_file f -> view d f = [] -> g_step d f = None.
Proof.
  intros [|] [data p] Hin V; unfold in_file in Hin; cbn [view g_step fpos fdata] in *.
  - unfold g_read_forward. cbn [fpos fdata]. destruct (nth_error data p) eqn:E; auto.
    apply skipn_nth_error in E. congruence.
  - assert (p = 0) as ->.
    { assert (L : length (firstn p data) = 0) by (rewrite <- rev_length, V; reflexivity).
      rewrite firstn_length in L. lia. }
    reflexivity.
Qed.

Lemma g_step_cons : forall d f b r, in_file f -> view d f = b :: r ->
  g_step d f = Some (b, moved d f 1) /\ view d (moved d f 1) = r /\ in_file (moved d f 1) /\
  (d = backward -> 1 <= fpos f).
Proof.
  intros [|] [data p] b r Hin V; unfold in_file in *; cbn [view g_step fpos fdata moved] in *.
  - unfold g_read_forward. cbn [fpos fdata]. destruct (nth_error data p) eqn:E.
    + pose proof (skipn_nth_error _ _ _ _ E) as S1. rewrite V in S1. injection S1 as -> ->.
      unfold moved. cbn [fpos fdata].
      replace (p + 1) with (S p) by lia. repeat split; auto; try (intro; discriminate).
      assert (p < length data) by (apply nth_error_Some; congruence). lia.
    + apply nth_error_None in E. rewrite skipn_all2 in V by auto. discriminate.
  - destruct p as [|p]; [cbn in V; discriminate|].
    assert (p < length data) by lia.
    assert (Fs : exists c, nth_error data p = Some c /\ firstn (S p) data = firstn p data ++ [c]).
    { destruct (nth_error data p) as [c|] eqn:E.
      - exists c. split; auto. rewrite <- (firstn_skipn p data) at 1. rewrite firstn_app, firstn_length.
        replace (S p - Nat.min p (length data)) with 1 by lia. rewrite (skipn_nth_error _ _ _ _ E).
        rewrite firstn_all2 by (rewrite firstn_length; lia). reflexivity.
      - apply nth_error_None in E. lia. }
    destruct Fs as (c & E & Fs). rewrite Fs, rev_app_distr in V. cbn [rev app] in V. injection V as -> V.
    unfold g_read_back, g_skip_relative. cbn [fpos fdata].
    destruct (Z.ltb_spec (Z.of_nat (S p) + -1) 0); [lia|].
    replace (Z.to_nat (Z.of_nat (S p) + -1)) with p by lia.
    unfold g_read_forward. cbn [fpos fdata]. rewrite E. cbn [fpos fdata].
    destruct (Z.ltb_spec (Z.of_nat (S p) + -1) 0); [lia|]. cbn [snd].
    replace (Z.to_nat (Z.of_nat (S p) + -1)) with p by lia.
    unfold moved. cbn [fpos fdata]. replace (S p - 1) with p by lia. repeat split; auto; lia.
Qed.

Lemma moved_moved : forall d f a b, moved d (moved d f a) b = moved d f (a + b).
Proof. intros [|] [data p] a b; unfold moved; cbn [fdata fpos]; f_equal; lia. Qed.
Lemma moved_0 : forall d f, moved d f 0 = f.
Proof. intros [|] [data p]; unfold moved; cbn [fdata fpos]; f_equal; lia. Qed.

Lemma view_length : forall d f, in_file f -> length (view d f) <= length (fdata f).
Proof.
  intros [|] [data p] H; cbn [view fdata fpos]; [rewrite skipn_length|rewrite rev_length, firstn_length]; lia.
Qed.

Lemma g_read_app : forall pre l post n, n = length l ->
  g_read n (mk_file (pre ++ l ++ post) (length pre)) = (l, mk_file (pre ++ l ++ post) (length pre + length l)).
Proof.
  intros pre l post n ->. unfold g_read. cbn [fdata fpos]. rewrite skipn_app_exact, firstn_app_exact. reflexivity.
Qed.
