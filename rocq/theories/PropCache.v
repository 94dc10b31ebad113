(** * C26: a cache is transparent. *)
From Verif Require Import Base FileModel ClientSpec CacheModel CacheProof CacheProof2.
Open Scope nat_scope.

(** what the client asks: no relative skip, no write to a read-only cache, no jump to the end of file from beyond that end *)
Fixpoint client_ok (ro : bool) (ops : list gop) (f : gfile) : Prop :=
  match ops with
  | [] => True
  | o :: r => match o with GRel _ => False | GWrite _ => ro = false | GEof => fpos f <= length (fdata f) | _ => True end /\ client_ok ro r (snd (g_op o f))
  end.

Lemma op_spec : forall o c, good c -> match o with GRel _ => False | GWrite _ => c_ro c = false | GEof => fpos (view c) <= length (fdata (view c)) | _ => True end ->
  exists c', c_op o c = Ok (fst (g_op o (view c)), c') /\ good c' /\ view c' = snd (g_op o (view c)) /\ same c c'.
Proof.
  intros o c G H. destruct o as [n|a|p| |x|]; cbn [c_op g_op].
  - destruct (c_read_spec n c G) as (c' & -> & G' & V & S'). cbn [bind]. destruct (g_read n (view c)) as [d f]. exists c'. repeat (split; auto).
  - destruct (c_write_spec a c G H) as (c' & -> & G' & V & S'). cbn [bind]. exists c'. repeat (split; auto).
  - destruct (c_skip_spec p c G) as (c' & -> & G' & V & S' & _). cbn [bind]. exists c'. repeat (split; auto).
  - destruct (c_skip_eof_spec c G H) as (c' & -> & G' & V & S'). cbn [bind]. exists c'. repeat (split; auto).
  - destruct H.
  - exists c. repeat (split; auto).
Qed.
Lemma run_spec : forall ops c, good c -> client_ok (c_ro c) ops (view c) -> exists c', c_run ops c = Ok (fst (g_run ops (view c)), c') /\ good c' /\ view c' = snd (g_run ops (view c)) /\ same c c'.
Proof.
  induction ops as [|o r IH]; intros c G H; cbn [c_run g_run].
  - exists c. split; [reflexivity|]. split; [exact G|]. split; [reflexivity|repeat split].
  - destruct H as [H1 H2]. destruct (op_spec o c G H1) as (c1 & -> & G1 & V1 & (S1 & S2 & S3)). cbn [bind]. rewrite <- V1, <- S3 in H2. destruct (IH c1 G1 H2) as (c2 & -> & G2 & V2 & (T1 & T2 & T3)). cbn [bind].
    rewrite V1 in V2 |- *. destruct (g_op o (view c)) as [a f1]. cbn [fst snd] in *. destruct (g_run r f1) as [l f2]. exists c2. split; [reflexivity|]. split; [exact G2|]. split; [exact V2|]. repeat split; congruence.
Qed.
Lemma close_spec : forall c, good c -> exists c', flush_write c = Ok c' /\ fdata (c_ref c') = content c.
Proof.
  intros c [H P]. destruct (c_ro c) eqn:R.
  - exists c. unfold flush_write. rewrite R. split; [reflexivity|]. symmetry. apply clean_content. destruct (need_flush c) eqn:E; [|reflexivity]. destruct H as (_ & _ & _ & _ & H5 & _). specialize (H5 E). congruence.
  - destruct (need_flush c) eqn:E.
    + destruct (flush_spec c H) as (c' & F & I' & C' & V' & _). unfold flush_if_needed in F. rewrite E in F. exists c'. split; [exact F|]. rewrite <- V'. symmetry. apply clean_content. exact C'.
    + pose proof (clean_ftw c H E) as Hf. unfold flush_write. rewrite R, E. set (c1 := mk_c _ _ _ _ _ _ _ _ _). pose proof H as (H1 & H2 & H3 & H4 & H5 & H6 & H7 & H8 & H9). specialize (H8 E).
      assert (E1 : need_flush c1 = false) by (apply clean_intro; [reflexivity|exact H3]). assert (V1 : content c1 = content c) by (rewrite !clean_content by assumption; reflexivity).
      assert (I1 : inv c1). { unfold inv. rewrite E1, V1. change (c_last c1) with (c_last c). unfold c1. cbn [c_size c_next c_ftw c_ro c_off c_ref c_eof c_buf]. repeat split; auto; try lia; discriminate. }
      destruct (shift_or_clear_spec c1 I1 E1 eq_refl) as (c' & -> & I' & C' & R' & _). exists c'. split; [reflexivity|]. rewrite R'. change (c_ref c1) with (c_ref c). symmetry. apply clean_content. exact E.
Qed.

(** C26. Whatever the size of the cache (at least 10 bytes), its two modes of reuse of the buffer, and whatever the client reads, writes and skips,
    it gets the answers the cached file would have given, and once the cache is flushed the file holds what it would have held. *)
Theorem C26_transparent : forall shift ro size f ops, 10 <= size -> client_ok ro ops f ->
  exists c0 c c', c_new shift ro size f = Ok c0 /\ c_run ops c0 = Ok (fst (g_run ops f), c) /\ flush_write c = Ok c' /\ fdata (c_ref c') = fdata (snd (g_run ops f)).
Proof.
  intros shift ro size f ops Hs Hok. unfold c_new. replace (size <? 10) with false by lia. set (c0 := mk_c _ _ _ _ _ _ _ _ _). exists c0.
  assert (N0 : need_flush c0 = false) by (apply clean_intro; cbn; lia). assert (V0 : view c0 = f). { unfold view. rewrite clean_content by exact N0. unfold c_pos. cbn. rewrite Nat.add_0_r. destruct f; reflexivity. }
  assert (G0 : good c0). { apply inv_good. unfold inv. rewrite N0. unfold c0, c_last. cbn. repeat split; auto; try lia; try discriminate. }
  destruct (run_spec ops c0 G0) as (c & E & G & V & _); [rewrite V0; exact Hok|]. rewrite V0 in *. destruct (close_spec c G) as (c' & F & D). exists c, c'. split; [reflexivity|]. split; [exact E|]. split; [exact F|]. rewrite D, <- V. reflexivity.
Qed.
Theorem C26_too_small : forall shift ro size f, size < 10 -> c_new shift ro size f = Err Erange.
Proof. intros. unfold c_new. replace (size <? 10) with true by lia. reflexivity. Qed.

Definition b256 (n : nat) : list N := map N.of_nat (seq 1 n).
Definition c26_ops : list gop := [GRead 3; GWrite (b256 7); GSkip 5; GWrite [200%N]; GRead 12; GPos; GEof; GWrite (b256 25); GSkip 30; GRead 40; GSkip 0; GRead 2].
Theorem C26_instance : client_ok false c26_ops (mk_file (b256 40) 0) /\
  exists c, c_run c26_ops (mk_c (mk_file (b256 40) 0) [] 0 10 0 0 true 10 false) = Ok (fst (g_run c26_ops (mk_file (b256 40) 0)), c) /\ need_flush c = false.
Proof. split; [cbn; repeat split; lia|]. eexists. split; [vm_compute; reflexivity|]. vm_compute. reflexivity. Qed.

(** ** where a cache is not transparent *)
Definition init (f : gfile) (shift ro : bool) : cache := mk_c f [] 0 10 (fpos f) 0 shift 10 ro.
(** a relative skip leaving the buffer starts from the beginning of the buffer, not from the current position: forward *)
Theorem C26_relative_forward_refuted : exists f, let ops := [GRead 3; GRel 20; GPos] in
  (exists c, c_run ops (init f false true) = Ok ([OData [1%N; 2%N; 3%N]; OBool true; OPos 20], c)) /\ fst (g_run ops f) = [OData [1%N; 2%N; 3%N]; OBool true; OPos 23].
Proof. exists (mk_file (b256 40) 0). split; [eexists; vm_compute; reflexivity|vm_compute; reflexivity]. Qed.
(** ... and backward *)
Theorem C26_relative_backward_refuted : exists f, let ops := [GSkip 20; GRead 3; GRel (-5); GPos] in
  (exists c, c_run ops (init f false true) = Ok ([OBool true; OData [21%N; 22%N; 23%N]; OBool true; OPos 15], c)) /\ fst (g_run ops f) = [OBool true; OData [21%N; 22%N; 23%N]; OBool true; OPos 18].
Proof. exists (mk_file (b256 40) 0). split; [eexists; vm_compute; reflexivity|vm_compute; reflexivity]. Qed.
(** a relative skip back over data already in the file, followed by a write: that write never reaches the file *)
Theorem C26_relative_write_refuted : exists f, let ops := [GRead 4; GWrite [100%N]; GRel (-3); GWrite [200%N]] in
  (exists c c', c_run ops (init f false false) = Ok (fst (g_run ops f), c) /\ flush_write c = Ok c' /\ fdata (c_ref c') = [1%N; 2%N; 3%N; 4%N; 100%N; 6%N]) /\ fdata (snd (g_run ops f)) = [1%N; 2%N; 200%N; 4%N; 100%N; 6%N].
Proof. exists (mk_file (b256 6) 0). split; [eexists; eexists; split; [vm_compute; reflexivity|]; split; vm_compute; reflexivity|vm_compute; reflexivity]. Qed.
(** flushing (sync_write) after a skip back moves the position of the client *)
Theorem C26_sync_moves_refuted : exists f c c', c_run [GWrite (b256 8); GSkip 2] (init f true false) = Ok ([OUnit; OBool true], c) /\ flush_write c = Ok c' /\ c_pos c = 2 /\ c_pos c' = 8.
Proof. exists (mk_file [] 0). eexists. eexists. split; [vm_compute; reflexivity|]. split; [vm_compute; reflexivity|]. split; vm_compute; reflexivity. Qed.
(** jumping to the end of file from beyond the end: the object reports an internal bug *)
Theorem C26_eof_from_beyond_refuted : exists f, c_run [GSkip 50; GEof] (init f false true) = Err Ebug /\ fst (g_run [GSkip 50; GEof] f) = [OBool true; OBool true].
Proof. exists (mk_file (b256 40) 0). split; vm_compute; reflexivity. Qed.
(** truncating inside data waiting to be written does not shorten the file below *)
Theorem C26_truncate_pending_refuted : exists f c c1 c', c_run [GSkip 2; GWrite [100%N; 101%N; 102%N]] (init f false false) = Ok ([OBool true; OUnit], c) /\ c_truncate 3 c = Ok c1 /\ flush_write c1 = Ok c' /\ fdata (c_ref c') = [1; 2; 100; 4; 5; 6]%N.
Proof. exists (mk_file (b256 6) 0). eexists. eexists. eexists. split; [vm_compute; reflexivity|]. split; [vm_compute; reflexivity|]. split; [vm_compute; reflexivity|]. vm_compute. reflexivity. Qed.
(** once the end of file has been looked for, truncating then jumping to the end goes to the former end *)
Theorem C26_truncate_eof_refuted : exists f c c1 c', c_run [GEof] (init f false false) = Ok ([OBool true], c) /\ c_truncate 3 c = Ok c1 /\ c_skip_eof c1 = Ok (true, c') /\ fdata (c_ref c') = [1; 2; 3]%N /\ c_pos c' = 6.
Proof. exists (mk_file (b256 6) 0). eexists. eexists. eexists. split; [vm_compute; reflexivity|]. split; [vm_compute; reflexivity|]. split; [vm_compute; reflexivity|]. split; vm_compute; reflexivity. Qed.
