(** * C30: block compression gives back each stream from its recorded position, whatever the sizes of the writes and reads. *)
From Verif Require Import Base InfinintModel InfinintProof2 FileModel CacheProof CryptModel PropCrypt BlockModel.
Open Scope nat_scope.

(** ** specification: what the compressed side contains *)
(** what the layer requires of the compression algorithm for blocks of at most [B] bytes *)
Record good_zip (Z : zipper) (B : nat) : Prop := {
  gz_B : 100 <= B;
  gz_ne : forall c, 0 < length c <= B -> 0 < length (z_comp Z c);
  gz_room : forall c, 0 < length c <= B -> length (z_comp Z c) <= z_room Z B;
  gz_inv : forall c, 0 < length c <= B -> z_unc Z (z_comp Z c) B = Ok c }.
(** consecutive pieces of [B] bytes, the last one shorter *)
Fixpoint chunks (fuel B : nat) (D : list N) : list (list N) :=
  match fuel, D with
  | S k, _ :: _ => firstn B D :: chunks k B (skipn B D)
  | _, _ => []
  end.
(** a block: type, size, compressed data *)
Definition piece (Z : zipper) (c : list N) : list N := bh_dump H_DATA (N.of_nat (length (z_comp Z c))) ++ z_comp Z c.
(** a stream: its blocks then the end mark; nothing at all for an empty stream *)
Definition stream (Z : zipper) (B : nat) (D : list N) : list N :=
  match D with [] => [] | _ => flat_map (piece Z) (chunks (length D) B D) ++ bh_dump H_EOF 0 end.
(** where each stream starts *)
Fixpoint starts (Z : zipper) (B : nat) (p : nat) (Ds : list (list N)) : list nat :=
  match Ds with [] => [] | D :: r => p :: starts Z B (p + length (stream Z B D)) r end.
(** the answers of a plain file holding [D] to successive reads *)
Fixpoint plain_reads (ns : list nat) (D : list N) : list (list N) :=
  match ns with [] => [] | n :: r => firstn n D :: plain_reads r (skipn n D) end.

(** ** facts about chunks *)
Lemma chunks_fuel : forall B, 0 < B -> forall f1 f2 D, length D <= f1 -> length D <= f2 -> chunks f1 B D = chunks f2 B D.
Proof.
  intros B HB. induction f1 as [|f1 IH]; intros f2 [|x D] H1 H2; cbn [length] in *; try lia; [destruct f2; reflexivity|destruct f2; reflexivity|].
  destruct f2 as [|f2]; [lia|]. cbn [chunks]. f_equal. apply IH; rewrite skipn_length; cbn [length]; lia.
Qed.
Lemma chunks_nil : forall f B, chunks f B [] = [].
Proof. destruct f; reflexivity. Qed.
Lemma chunks_step : forall B D, 0 < B -> D <> [] -> chunks (length D) B D = firstn B D :: chunks (length (skipn B D)) B (skipn B D).
Proof.
  intros B [|x D] HB H; [congruence|]. cbn [length chunks]. f_equal. apply chunks_fuel; [lia| |lia]. rewrite skipn_length. cbn [length]. lia.
Qed.
Lemma chunks_full : forall B q D, 0 < B -> q * B = length D -> forall a, 0 < length a <= B -> chunks (length (D ++ a)) B (D ++ a) = chunks (length D) B D ++ [a].
Proof.
  intros B q. induction q as [|q IH]; intros D HB HD a Ha.
  - destruct D; cbn in HD; [|lia]. cbn [app chunks length]. destruct a as [|y a]; [cbn in Ha; lia|]. cbn [length chunks]. rewrite firstn_all2 by lia. rewrite skipn_all2 by lia. rewrite chunks_nil. reflexivity.
  - assert (LD : B <= length D) by nia. rewrite (chunks_step B (D ++ a)), (chunks_step B D); auto; try (intro E; apply (f_equal (@length _)) in E; rewrite ?app_length in E; cbn in E; lia).
    rewrite firstn_app, skipn_app. replace (B - length D) with 0 by lia. rewrite firstn_O, app_nil_r. cbn [skipn app]. f_equal. apply IH; auto. rewrite skipn_length. nia.
Qed.

(** ** writing *)
Section Write.
Variable Z : zipper.
Variable B : nat.
Hypothesis G : good_zip Z B.
Let HB : 0 < B. Proof. pose proof (gz_B _ _ G). lia. Qed.

Definition at_end (l : list N) : gfile := mk_file l (length l).
(** [D] was written since the start of the stream, the file was [pre] at that time *)
Definition winv (pre D : list N) (s : bcomp) : Prop :=
  exists F R, D = F ++ R /\ (exists q, q * B = length F) /\ length R < B /\ b_data s = R /\
    b_file s = at_end (pre ++ flat_map (piece Z) (chunks (length F) B F)) /\ b_susp s = false /\ b_reof s = false /\ b_rd s = 0.
Lemma flush_ok : forall s, 0 < length (b_data s) <= B -> forall p, b_file s = at_end p ->
  b_flush Z B s = Ok (mk_b (at_end (p ++ piece Z (b_data s))) [] 0 (b_susp s) (b_need s) (b_reof s)).
Proof.
  intros s H p E. unfold b_flush. replace (0 <? length (b_data s)) with true by lia. pose proof (gz_ne _ _ G _ H). pose proof (gz_room _ _ G _ H).
  replace (z_room Z B <? length (z_comp Z (b_data s))) with false by lia. replace (length (z_comp Z (b_data s)) =? 0) with false by lia.
  rewrite E. unfold at_end. rewrite !g_write_end, <- app_assoc. reflexivity.
Qed.
Lemma write_loop_ok : forall fuel a pre D s, winv pre D s -> length a < fuel -> exists s', b_write_loop Z B fuel a s = Ok s' /\ winv pre (D ++ a) s' /\ b_need s' = b_need s.
Proof.
  induction fuel as [|k IH]; intros a pre D s I Hf; [lia|]. cbn [b_write_loop]. destruct a as [|x a']; [exists s; rewrite app_nil_r; auto|].
  remember (x :: a') as a eqn:Ea. assert (La : 0 < length a) by (subst; cbn; lia). clear Ea x a'. destruct I as (F & R & -> & (q & Hq) & HR & ED & EF & ES & EO & ER).
  cbn [b_data b_file b_rd b_susp b_need b_reof]. rewrite ED. set (n := Nat.min (length a) (B - length R)). assert (Ln : length (firstn n a) = n) by (rewrite firstn_length; lia).
  destruct (Nat.eqb_spec (length (R ++ firstn n a)) B) as [Q|Q]; rewrite app_length, Ln in Q.
  - rewrite (flush_ok (mk_b (b_file s) (R ++ firstn n a) (b_rd s) (b_susp s) (b_need s) (b_reof s)) ltac:(cbn [b_data]; rewrite app_length; lia) _ EF). cbn [bind b_data b_susp b_need b_reof].
    match goal with |- context [b_write_loop Z B k (skipn n a) ?s0] => destruct (IH (skipn n a) pre (F ++ R ++ firstn n a) s0) as (s' & -> & I' & C') end.
    + exists (F ++ R ++ firstn n a), []. rewrite app_nil_r. cbn [b_data b_file b_susp b_reof b_rd length].
      split; [reflexivity|]. split; [exists (S q); rewrite !app_length; lia|]. split; [lia|]. split; [reflexivity|]. split; [|auto].
      rewrite (chunks_full B q F HB Hq) by (rewrite app_length; lia). rewrite flat_map_app. cbn [flat_map]. rewrite app_nil_r, app_assoc. reflexivity.
    + rewrite skipn_length. lia.
    + exists s'. rewrite <- !app_assoc, firstn_skipn in I'. rewrite <- app_assoc. auto.
  - cbn [bind].
    match goal with |- context [b_write_loop Z B k (skipn n a) ?s0] => destruct (IH (skipn n a) pre (F ++ R ++ firstn n a) s0) as (s' & -> & I' & C') end.
    + exists F, (R ++ firstn n a). cbn [b_data b_file b_susp b_reof b_rd]. split; [reflexivity|]. split; [exists q; exact Hq|]. split; [rewrite app_length; lia|]. auto.
    + rewrite skipn_length. lia.
    + exists s'. rewrite <- !app_assoc, firstn_skipn in I'. rewrite <- app_assoc. auto.
Qed.
Lemma winv_nil : forall pre s, b_file s = at_end pre -> b_data s = [] -> b_susp s = false -> b_reof s = false -> b_rd s = 0 -> winv pre [] s.
Proof.
  intros pre s H1 H2 H3 H4 H5. exists [], []. cbn [length chunks flat_map app]. rewrite app_nil_r. split; [reflexivity|]. split; [exists 0; reflexivity|]. split; [exact HB|]. auto.
Qed.
Definition nonempty (D : list N) : bool := match D with [] => false | _ => true end.
Lemma writes_ok : forall ws pre D s, winv pre D s -> b_need s = nonempty D -> exists s', b_writes Z B ws s = Ok s' /\ winv pre (D ++ concat ws) s' /\ b_need s' = nonempty (D ++ concat ws).
Proof.
  induction ws as [|a ws IH]; intros pre D s I N; cbn [b_writes concat]; [exists s; rewrite app_nil_r; auto|]. unfold b_write.
  assert (SU : b_susp s = false) by (destruct I as (F & R & ? & ? & ? & ? & ? & ? & ? & ?); auto). rewrite SU.
  destruct (write_loop_ok (S (length a)) a pre D s I ltac:(lia)) as (s1 & -> & I1 & N1). cbn [bind].
  match goal with |- context [b_writes Z B ws ?s0] => destruct (IH pre (D ++ a) s0) as (s' & -> & I' & N') end.
  - destruct I1 as (F & R & A1 & A2 & A3 & A4 & A5 & A6 & A7 & A8). exists F, R. cbn [b_data b_file b_susp b_reof b_rd]. auto 10.
  - cbn [b_need]. rewrite N1, N. destruct a as [|x a]; [rewrite app_nil_r; reflexivity|]. cbn [length]. replace (0 <? S (length a)) with true by lia. destruct D; reflexivity.
  - exists s'. rewrite <- app_assoc in I', N'. auto.
Qed.
Lemma sync_ok : forall pre D s, winv pre D s -> b_need s = nonempty D -> exists s', b_sync Z B false s = Ok s' /\
  b_file s' = at_end (pre ++ stream Z B D) /\ b_data s' = [] /\ b_susp s' = false /\ b_reof s' = false /\ b_rd s' = 0 /\ b_need s' = false.
Proof.
  intros pre D s (F & R & -> & (q & Hq) & HR & ED & EF & ES & EO & ER) NE. unfold b_sync. destruct R as [|x R].
  - unfold b_flush. rewrite ED. change (0 <? length (@nil N)) with false. cbn [bind]. rewrite NE, app_nil_r. destruct F as [|y F]; cbn [nonempty].
    + exists s. cbn [stream app]. rewrite EF in *. cbn [length chunks flat_map app]. rewrite app_nil_r, NE, app_nil_r. auto 10.
    + eexists. split; [reflexivity|]. cbn [b_file b_data b_susp b_reof b_rd b_need]. rewrite EF. unfold at_end. rewrite g_write_end, <- app_assoc. cbn [stream]. auto 10.
  - remember (x :: R) as R' eqn:HR'. assert (L : 0 < length R') by (subst; cbn; lia). rewrite (flush_ok s ltac:(rewrite ED; lia) _ EF). cbn [bind b_need b_file b_data b_susp b_reof b_rd]. rewrite NE.
    replace (nonempty (F ++ R')) with true by (subst R'; destruct F; reflexivity). eexists. split; [reflexivity|]. cbn [b_file b_data b_susp b_reof b_rd b_need].
    split; [|auto 10]. unfold at_end. rewrite g_write_end. rewrite ED, <- !app_assoc. unfold stream. replace (match F ++ R' with [] => [] | _ => flat_map (piece Z) (chunks (length (F ++ R')) B (F ++ R')) ++ bh_dump H_EOF 0 end) with (flat_map (piece Z) (chunks (length (F ++ R')) B (F ++ R')) ++ bh_dump H_EOF 0) by (subst R'; destruct F; reflexivity).
    rewrite (chunks_full B q F HB Hq) by lia. rewrite flat_map_app. cbn [flat_map]. rewrite app_nil_r, <- !app_assoc. reflexivity.
Qed.
Definition idle (pre : list N) (s : bcomp) : Prop := b_file s = at_end pre /\ b_data s = [] /\ b_susp s = false /\ b_reof s = false /\ b_rd s = 0 /\ b_need s = false.
Lemma streams_ok : forall l pre s, idle pre s -> exists s', b_streams Z B l s = Ok (starts Z B (length pre) (map (@concat N) l), s') /\ idle (pre ++ flat_map (stream Z B) (map (@concat N) l)) s'.
Proof.
  induction l as [|ws l IH]; intros pre s (I1 & I2 & I3 & I4 & I5 & I6); cbn [b_streams map starts flat_map]; [exists s; rewrite app_nil_r; unfold idle; auto 10|].
  unfold b_position. rewrite I2. cbn [bind]. destruct (writes_ok ws pre [] s) as (s1 & -> & W1 & W2); [apply winv_nil; auto|exact I6|]. cbn [bind app] in *.
  destruct (sync_ok pre (concat ws) s1 W1 W2) as (s2 & -> & S1 & S2 & S3 & S4 & S5 & S6). cbn [bind].
  destruct (IH (pre ++ stream Z B (concat ws)) s2) as (s3 & -> & I'); [unfold idle; auto 10|]. cbn [bind]. exists s3. rewrite app_length, app_assoc. split; [|exact I']. rewrite I1. reflexivity.
Qed.
End Write.

(** writing streams, each one as any sequence of writes and followed by a synchronisation, produces the concatenation of the
    compressed streams, and the positions answered before each stream are where they start *)
Theorem C30_compressed_image : forall Z B pre (l : list (list (list N))), good_zip Z B ->
  let Ds := map (@concat N) l in
  let out := pre ++ flat_map (stream Z B) Ds in
  b_session Z B l (mk_file pre (length pre)) = Ok (starts Z B (length pre) Ds, mk_file out (length out)).
Proof.
  intros Z B pre l G Ds out. unfold b_session, b_open. pose proof (gz_B _ _ G) as HB. replace (B <? 100) with false by lia. cbn [bind].
  destruct (streams_ok Z B G l pre (mk_b (mk_file pre (length pre)) [] 0 false false false)) as (s & -> & I1 & I2 & I3 & I4 & I5 & I6).
  - unfold idle, at_end. cbn. auto 10.
  - cbn [bind]. unfold b_sync, b_flush. rewrite I2. change (0 <? length (@nil N)) with false. cbn [bind]. rewrite I6. cbn [bind]. rewrite I1. reflexivity.
Qed.
Print Assumptions C30_compressed_image.

(** ** reading *)
Lemma bh_read_ok : forall pre t n rest, bh_read (mk_file (pre ++ bh_dump t n ++ rest) (length pre)) = Ok (Some (t, n), mk_file (pre ++ bh_dump t n ++ rest) (length (pre ++ bh_dump t n))).
Proof.
  intros pre t n rest. unfold bh_read, g_read. cbn [fdata fpos]. rewrite skipn_app_exact. change (firstn 1 (bh_dump t n ++ rest)) with [t]. cbn [length].
  assert (SK : skipn (length pre + 1) (pre ++ bh_dump t n ++ rest) = dumpN n ++ rest).
  { rewrite Nat.add_comm, <- skipn_skipn, skipn_app_exact. reflexivity. }
  cbn [fdata fpos]. rewrite SK, readN_dumpN. cbn [bind]. do 3 f_equal. rewrite !app_length. lia.
Qed.
Section Read.
Variable Z : zipper.
Variable B : nat.
Hypothesis G : good_zip Z B.
Let HB : 0 < B. Proof. pose proof (gz_B _ _ G). lia. Qed.

Definition tail_of (R post : list N) : list N := flat_map (piece Z) (chunks (length R) B R) ++ bh_dump H_EOF 0 ++ post.
(** [D]: what remains to be read of the stream; [post]: what follows the stream *)
Definition rinv (post D : list N) (s : bcomp) : Prop :=
  b_susp s = false /\ b_rd s <= length (b_data s) /\
  ((b_reof s = true /\ D = []) \/
   (b_reof s = false /\ exists X R, D = skipn (b_rd s) (b_data s) ++ R /\ b_file s = mk_file (X ++ tail_of R post) (length X))).
Lemma load_eof : forall s X post, b_file s = mk_file (X ++ tail_of [] post) (length X) -> exists f, b_load Z B s = Ok (mk_b f [] 0 (b_susp s) (b_need s) true).
Proof.
  intros s X post E. unfold b_load. rewrite E. unfold tail_of. cbn [length chunks flat_map app]. rewrite bh_read_ok. cbn [bind].
  change (H_EOF =? H_DATA)%N with false. change (H_EOF =? H_EOF)%N with true. change (0 =? 0)%N with true. cbn iota. eexists. reflexivity.
Qed.
Lemma load_data : forall s X R post, R <> [] -> b_file s = mk_file (X ++ tail_of R post) (length X) ->
  exists Y, b_load Z B s = Ok (mk_b (mk_file (Y ++ tail_of (skipn B R) post) (length Y)) (firstn B R) 0 (b_susp s) (b_need s) (b_reof s)).
Proof.
  intros s X R post HR E. set (c := firstn B R). assert (Lc : 0 < length c <= B) by (unfold c; rewrite firstn_length; destruct R; [congruence|cbn [length]; lia]).
  unfold b_load. rewrite E. unfold tail_of. rewrite chunks_step by (auto using HB). fold c. cbn [flat_map]. unfold piece at 1.
  set (h := bh_dump H_DATA (N.of_nat (length (z_comp Z c)))). set (tl := flat_map (piece Z) (chunks (length (skipn B R)) B (skipn B R)) ++ bh_dump H_EOF 0 ++ post).
  replace (X ++ ((h ++ z_comp Z c) ++ flat_map (piece Z) (chunks (length (skipn B R)) B (skipn B R))) ++ bh_dump H_EOF 0 ++ post) with (X ++ h ++ (z_comp Z c ++ tl)) by (unfold tl; rewrite <- !app_assoc; reflexivity).
  unfold h at 1. rewrite bh_read_ok. cbn [bind]. fold h. change (H_DATA =? H_DATA)%N with true. cbn iota.
  pose proof (gz_ne _ _ G c Lc). pose proof (gz_room _ _ G c Lc).
  replace (N.of_nat (z_room Z B) <? N.of_nat (length (z_comp Z c)))%N with false by lia. replace (N.of_nat (length (z_comp Z c)) =? 0)%N with false by lia.
  rewrite Nat2N.id. unfold g_read. cbn [fdata fpos]. replace (X ++ h ++ z_comp Z c ++ tl) with ((X ++ h) ++ z_comp Z c ++ tl) by (rewrite <- app_assoc; reflexivity). rewrite skipn_app_exact, firstn_app_exact.
  rewrite (gz_inv _ _ G c Lc). cbn [bind]. replace (B <? length c) with false by lia. exists ((X ++ h) ++ z_comp Z c). rewrite <- (app_assoc (X ++ h)). do 3 f_equal. rewrite (app_length (X ++ h)). reflexivity.
Qed.
Lemma read_loop_ok : forall fuel n got post D s, rinv post D s -> n - length got + 2 <= fuel ->
  exists s', b_read_loop Z B fuel n got s = Ok (got ++ firstn (n - length got) D, s') /\ rinv post (skipn (n - length got) D) s'.
Proof.
  induction fuel as [|k IH]; intros n got post D s I Hf; [lia|]. cbn [b_read_loop]. destruct I as (I1 & I2 & I3). destruct (Nat.ltb_spec (length got) n) as [L|L].
  2:{ cbn [andb]. exists s. replace (n - length got) with 0 by lia. cbn [firstn skipn]. rewrite app_nil_r. split; [reflexivity|]. unfold rinv. auto. }
  destruct I3 as [(I3 & ->)|(I3 & X & R & -> & EF)]; rewrite I3; cbn [andb negb].
  { exists s. rewrite firstn_nil, skipn_nil, app_nil_r. split; [reflexivity|]. unfold rinv. auto. }
  assert (STEP : exists s1, (if b_rd s =? length (b_data s) then b_load Z B s else Ok s) = Ok s1 /\ b_susp s1 = false /\ b_rd s1 <= length (b_data s1) /\
    ((b_reof s1 = true /\ skipn (b_rd s) (b_data s) ++ R = [] /\ b_data s1 = []) \/
     (b_reof s1 = false /\ b_rd s1 < length (b_data s1) /\ exists Y Q, skipn (b_rd s) (b_data s) ++ R = skipn (b_rd s1) (b_data s1) ++ Q /\ b_file s1 = mk_file (Y ++ tail_of Q post) (length Y)))).
  { destruct (Nat.eqb_spec (b_rd s) (length (b_data s))) as [E|E].
    - rewrite E, skipn_all. cbn [app]. destruct R as [|x R'].
      + destruct (load_eof s X post EF) as (f & ->). eexists. split; [reflexivity|]. cbn [b_susp b_rd b_data b_reof length]. auto 10.
      + remember (x :: R') as R eqn:ER. assert (R <> []) by (subst; discriminate). destruct (load_data s X R post H EF) as (Y & ->). eexists. split; [reflexivity|].
        cbn [b_susp b_rd b_data b_reof b_file length]. split; [auto|]. split; [lia|]. right. split; [auto|]. split; [rewrite firstn_length; subst R; cbn [length]; lia|].
        exists Y, (skipn B R). cbn [skipn]. rewrite firstn_skipn. auto.
    - exists s. split; [reflexivity|]. split; [auto|]. split; [auto|]. right. split; [auto|]. split; [lia|]. exists X, R. auto. }
  destruct STEP as (s1 & -> & S1 & S2 & S3). cbn [bind]. clear I1 I2 EF X I3. set (d := firstn (n - length got) (skipn (b_rd s1) (b_data s1))).
  destruct S3 as [(S3 & -> & S4)|(S3 & S4 & Y & Q & -> & EF)].
  - assert (Ed : d = []) by (unfold d; rewrite S4, skipn_nil, firstn_nil; reflexivity). rewrite Ed, app_nil_r. cbn [length]. rewrite Nat.add_0_r.
    destruct k as [|k]; [lia|]. cbn [b_read_loop b_reof]. rewrite S3. rewrite Bool.andb_false_r. rewrite firstn_nil, skipn_nil, app_nil_r. eexists. split; [reflexivity|].
    unfold rinv. cbn [b_susp b_rd b_data b_reof]. auto.
  - assert (Ld : length d = Nat.min (n - length got) (length (b_data s1) - b_rd s1)) by (unfold d; rewrite firstn_length, skipn_length; reflexivity).
    set (s2 := mk_b (b_file s1) (b_data s1) (b_rd s1 + length d) (b_susp s1) (b_need s1) (b_reof s1)).
    destruct (IH n (got ++ d) post (skipn (length d) (skipn (b_rd s1) (b_data s1)) ++ Q) s2) as (s' & -> & I').
    + unfold rinv, s2. cbn [b_susp b_rd b_data b_reof b_file]. split; [auto|]. split; [lia|]. right. split; [auto|]. exists Y, Q. split; [|exact EF]. rewrite skipn_skipn. f_equal. f_equal. lia.
    + rewrite app_length. lia.
    + exists s'. set (V := skipn (b_rd s1) (b_data s1)) in *. set (m := n - length got) in *.
      assert (LV : length V = length (b_data s1) - b_rd s1) by (unfold V; apply skipn_length).
      replace (n - length (got ++ d)) with (m - length d) in * by (rewrite app_length; lia).
      split.
      * f_equal. f_equal. rewrite <- app_assoc. f_equal. rewrite firstn_app. fold d. f_equal. rewrite firstn_app, skipn_length. destruct (Nat.le_gt_cases m (length V)) as [C|C].
        -- replace (m - length d) with 0 by lia. replace (m - length V) with 0 by lia. reflexivity.
        -- replace (length d) with (length V) by lia. rewrite skipn_all. rewrite firstn_nil. cbn [app]. replace (m - length V - (length V - length V)) with (m - length V) by lia. reflexivity.
      * rewrite !skipn_app, skipn_skipn, skipn_length in *. destruct (Nat.le_gt_cases m (length V)) as [C|C].
        -- replace (m - length d) with 0 in * by lia. replace (m - length V) with 0 by lia. replace (length d) with m in * by lia. exact I'.
        -- replace (m - length d + length d) with m in * by lia. replace (m - length d - (length V - length d)) with (m - length V) in * by lia. exact I'.
Qed.
Lemma reads_ok : forall ns post D s, rinv post D s -> exists s', b_reads Z B ns s = Ok (plain_reads ns D, s') /\ rinv post (skipn (list_sum ns) D) s'.
Proof.
  induction ns as [|n ns IH]; intros post D s I; cbn [b_reads plain_reads list_sum fold_right]; [exists s; auto|]. unfold b_read. replace (b_susp s) with false by (symmetry; apply I).
  destruct (read_loop_ok (S (S (n + length (fdata (b_file s))))) n [] post D s I) as (s1 & -> & I1); [cbn [length]; lia|]. cbn [bind length app] in *. rewrite Nat.sub_0_r in *.
  destruct (IH post (skipn n D) s1 I1) as (s' & -> & I'). cbn [bind]. exists s'. split; [reflexivity|]. rewrite skipn_skipn in I'. unfold list_sum in I'. rewrite Nat.add_comm. exact I'.
Qed.
End Read.

(** from the position of a non empty stream, any sequence of reads gets the stream, then nothing *)
Theorem C30_stream_reads : forall Z B pre D post q ns, good_zip Z B -> D <> [] ->
  b_fetch Z B (mk_file (pre ++ stream Z B D ++ post) q) (length pre) ns = Ok (plain_reads ns D).
Proof.
  intros Z B pre D post q ns G HD. pose proof (gz_B _ _ G). unfold b_fetch, b_open. replace (B <? 100) with false by lia. cbn [bind]. unfold b_skip, g_skip. cbn [fdata b_file b_susp].
  destruct (reads_ok Z B G ns post D (mk_b (mk_file (pre ++ stream Z B D ++ post) (length pre)) [] 0 false false false)) as (s & -> & _).
  - unfold rinv. cbn [b_susp b_rd b_data b_reof b_file length skipn app]. split; [auto|]. split; [lia|]. right. split; [auto|]. exists pre, D. split; [reflexivity|]. unfold tail_of, stream. destruct D; [congruence|]. rewrite <- app_assoc. reflexivity.
  - reflexivity.
Qed.
Print Assumptions C30_stream_reads.

(** end to end: each non empty stream of a session is given back from the position recorded for it *)
Theorem C30_write_then_read : forall Z B pre (l : list (list (list N))) i ws ns, good_zip Z B -> nth_error l i = Some ws -> concat ws <> [] ->
  exists ps f p, b_session Z B l (mk_file pre (length pre)) = Ok (ps, f) /\ nth_error ps i = Some p /\
    b_fetch Z B f p ns = Ok (plain_reads ns (concat ws)).
Proof.
  intros Z B pre l i ws ns G Hi HD. eexists. eexists. pose proof (C30_compressed_image Z B pre l G) as W. cbv zeta in W. rewrite W.
  assert (K : forall Ds i D p0, nth_error Ds i = Some D -> exists p post, nth_error (starts Z B p0 Ds) i = Some p /\
     forall pre, length pre = p0 -> exists pre', length pre' = p /\ pre ++ flat_map (stream Z B) Ds = pre' ++ stream Z B D ++ post).
  { clear. induction Ds as [|D0 Ds IH]; intros [|i] D p0 H; cbn in H; try discriminate; cbn [starts nth_error flat_map].
    - injection H as ->. exists p0, (flat_map (stream Z B) Ds). split; [reflexivity|]. intros pre Hp. exists pre. auto.
    - destruct (IH i D (p0 + length (stream Z B D0)) H) as (p & post & E & K). exists p, post. split; [exact E|]. intros pre Hp.
      destruct (K (pre ++ stream Z B D0)) as (pre' & L & E'); [rewrite app_length; lia|]. exists pre'. split; [exact L|]. rewrite <- E', <- app_assoc. reflexivity. }
  destruct (K (map (@concat N) l) i (concat ws) (length pre)) as (p & post & E & K'); [rewrite nth_error_map, Hi; reflexivity|].
  exists p. split; [reflexivity|]. split; [exact E|]. destruct (K' pre eq_refl) as (pre' & <- & ->). apply C30_stream_reads; auto.
Qed.
Print Assumptions C30_write_then_read.

(** a damaged header is refused, never taken for data or for the end of the stream *)
Theorem C30_damaged_header : forall Z B pre t n rest q k, 100 <= B -> 0 < k ->
  (t <> H_DATA /\ t <> H_EOF) \/ (t = H_DATA /\ (n = 0 \/ N.of_nat (z_room Z B) < n))%N \/ (t = H_EOF /\ n <> 0)%N ->
  b_fetch Z B (mk_file (pre ++ bh_dump t n ++ rest) q) (length pre) [k] = Err Erange.
Proof.
  intros Z B pre t n rest q k HB Hk H. unfold b_fetch, b_open. replace (B <? 100) with false by lia. cbn [bind]. unfold b_skip, g_skip. cbn [fdata b_file b_susp b_reads]. unfold b_read. cbn [b_susp b_file fdata].
  set (fuel := k + _). cbn [b_read_loop length]. replace (0 <? k) with true by lia. cbn [b_reof negb andb b_rd b_data length Nat.eqb]. unfold b_load. cbn [b_file]. rewrite bh_read_ok. cbn [bind].
  destruct H as [(H1 & H2)|[(-> & H)|(-> & H)]].
  - apply N.eqb_neq in H1, H2. rewrite H1, H2. reflexivity.
  - change (H_DATA =? H_DATA)%N with true. cbn iota. destruct H as [->|H].
    + replace (N.of_nat (z_room Z B) <? 0)%N with false by lia. reflexivity.
    + replace (N.of_nat (z_room Z B) <? n)%N with true by lia. reflexivity.
  - change (H_EOF =? H_DATA)%N with false. change (H_EOF =? H_EOF)%N with true. apply N.eqb_neq in H. rewrite H. reflexivity.
Qed.
Print Assumptions C30_damaged_header.

(** with compression suspended, the layer is transparent: reads, writes and positions are those of the layer below *)
Theorem C30_suspended_transparent : forall Z B s, b_susp s = true -> b_reof s = false ->
  (forall a, exists s', b_write Z B a s = Ok s' /\ b_file s' = g_write a (b_file s) /\ b_susp s' = true /\ b_data s' = b_data s) /\
  (forall n, exists s', b_read Z B n s = Ok (fst (g_read n (b_file s)), s') /\ b_file s' = snd (g_read n (b_file s)) /\ b_susp s' = true /\ b_reof s' = false).
Proof.
  intros Z B s H1 H2. split; [intro a|intro n].
  - unfold b_write. rewrite H1. eexists. split; [reflexivity|]. cbn. auto.
  - unfold b_read. rewrite H1, H2. destruct (g_read n (b_file s)) as [d f]. eexists. split; [reflexivity|]. cbn. auto.
Qed.
(** what was written before suspending is entirely below, as a complete stream, when the suspension takes effect *)
Theorem C30_suspend_completes : forall Z B pre ws, good_zip Z B -> exists s s', b_open B (mk_file pre (length pre)) = Ok s /\
  (let* s := b_writes Z B ws s in b_suspend Z B false s) = Ok s' /\ b_susp s' = true /\ b_reof s' = false /\
  b_file s' = mk_file (pre ++ stream Z B (concat ws)) (length (pre ++ stream Z B (concat ws))) /\ b_position false s' = Ok (length (pre ++ stream Z B (concat ws))).
Proof.
  intros Z B pre ws G. pose proof (gz_B _ _ G). unfold b_open. replace (B <? 100) with false by lia. eexists.
  destruct (writes_ok Z B G ws pre [] (mk_b (mk_file pre (length pre)) [] 0 false false false)) as (s1 & E1 & W1 & W2); [apply winv_nil; auto|reflexivity|].
  destruct (sync_ok Z B G pre (concat ws) s1 W1 W2) as (s2 & E2 & S1 & S2 & S3 & S4 & S5 & S6). eexists. split; [reflexivity|]. rewrite E1. cbn [bind]. unfold b_suspend.
  replace (b_susp s1) with false by (destruct W1 as (? & ? & ? & ? & ? & ? & ? & ? & ?); auto). rewrite E2. cbn [bind]. split; [reflexivity|]. unfold b_flush_read. cbn [b_susp b_reof b_file b_data b_need b_position]. unfold b_position. cbn [b_data b_file]. rewrite S1, S2. auto.
Qed.
Print Assumptions C30_suspend_completes.

(** ** a concrete case: a marker byte is put before the data *)
Definition toy_zip : zipper := mk_zip S (fun c => 7%N :: c) (fun z room => match z with 7%N :: c => if room <? length c then Err Erange else Ok c | _ => Err Erange end).
Lemma toy_zip_good : forall B, 100 <= B -> good_zip toy_zip B.
Proof.
  intros B HB. constructor; cbn [toy_zip z_comp z_room z_unc]; [exact HB| | |]; intros c H; cbn [length]; try lia. replace (B <? length c) with false by lia. reflexivity.
Qed.
Definition some_data (n : nat) : list N := map N.of_nat (seq 0 n).
Example C30_toy : exists ps f,
  b_session toy_zip 100 [[some_data 70; some_data 60]; []; [[5; 6]]]%N (mk_file [9; 9]%N 2) = Ok (ps, f) /\ ps = [2; 152; 152] /\
  b_fetch toy_zip 100 f 2 [90; 100; 10] = Ok [some_data 70 ++ some_data 20; skipn 20 (some_data 60); []] /\
  b_fetch toy_zip 100 f 152 [1; 5; 5] = Ok [[5]; [6]; []]%N.
Proof. eexists. eexists. split; [vm_compute; reflexivity|]. split; [vm_compute; reflexivity|]. split; vm_compute; reflexivity. Qed.

(** ** limits of the layer, of which its users must take care *)
(** a file cut at the end of a block is not detected: the reader gets a shorter stream, without error *)
Theorem C30_truncation_unnoticed_refuted : exists Z B D k, good_zip Z B /\
  let whole := stream Z B D in
  b_fetch Z B (mk_file whole 0) 0 [1000] = Ok [D] /\
  b_fetch Z B (mk_file (firstn k whole) 0) 0 [1000; 1000] = Ok [firstn 100 D; []] /\ k < length whole /\ 100 < length D.
Proof.
  exists toy_zip, 100, (some_data 150), 107. split; [apply toy_zip_good; lia|]. cbv zeta. split; [vm_compute; reflexivity|]. split; [vm_compute; reflexivity|]. split; vm_compute; lia.
Qed.
(** an empty stream leaves no trace: reading from its recorded position gives the data of the stream that follows *)
Theorem C30_empty_stream_refuted : exists Z B l ps f, good_zip Z B /\ nth_error l 0 = Some [[]; []] /\
  b_session Z B l (mk_file [] 0) = Ok (ps, f) /\ b_fetch Z B f (nth 0 ps 0) [10] = Ok [[5; 6]]%N.
Proof.
  exists toy_zip, 100, [[[]; []]; [[5; 6]]]%N. eexists. eexists. split; [apply toy_zip_good; lia|]. split; [reflexivity|]. split; [vm_compute; reflexivity|]. vm_compute. reflexivity.
Qed.
(** moving while data waits for its block to be full loses that data *)
Theorem C30_skip_drops_pending_refuted : exists Z B s1, good_zip Z B /\
  (let* s := b_open B (mk_file [] 0) in b_write Z B [1; 2; 3]%N s) = Ok s1 /\
  (let* s := b_sync Z B false (b_skip 0 s1) in Ok (b_file s)) = Ok (mk_file [] 0).
Proof. exists toy_zip, 100. eexists. split; [apply toy_zip_good; lia|]. split; [vm_compute; reflexivity|]. vm_compute. reflexivity. Qed.
(** the position cannot be asked in the middle of a stream: internal error *)
Theorem C30_position_inside_refuted : exists Z B s1 d s2, good_zip Z B /\
  b_open B (mk_file (stream Z B [1; 2; 3]%N) 0) = Ok s1 /\ b_read Z B 2 s1 = Ok (d, s2) /\ b_position true s2 = Err Ebug.
Proof. exists toy_zip, 100. eexists. eexists. eexists. split; [apply toy_zip_good; lia|]. split; [vm_compute; reflexivity|]. split; [vm_compute; reflexivity|]. vm_compute. reflexivity. Qed.
Print Assumptions C30_position_inside_refuted.
