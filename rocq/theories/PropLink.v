(** C41: hard links are kept by backups and restorations. *)
From Coq Require Import NArith List Bool Lia.
From Verif Require Import Base DatetimeModel PropDatetime PropChange CritModel RestoreModel RestoreSpec RestoreProof RestoreProof2 LinkModel LinkSpec LinkProof LinkProof2 LinkProof3 LinkProof4.
Import ListNotations.
Open Scope N_scope.
Local Set Warnings "-notation-overridden".

(** A full backup, restored over whatever filesystem (whose inodes at the names of the archive have no EA of their own): each selected
    name gets the inode saved there, two of them share an inode exactly when they did, and nothing else is touched. *)
Theorem C41_full : forall cap hourshift cov me_uid me_gid now d R, disk_ok d -> lfs_ok R ->
  (forall p i h, picked cov d p = Some i -> found R p = Some h -> h_ea h = []) ->
  let s := lrestore me_uid me_gid now (lbackup cap hourshift cov empty_archive d) R in
  l_err s = 0%nat /\
  (forall p i, picked cov d p = Some i -> exists h, found (l_fs s) p = Some h /\ same_inode h (d_inode d i)) /\
  (forall p q i j, picked cov d p = Some i -> picked cov d q = Some j -> (nm (l_fs s) p = nm (l_fs s) q <-> i = j)) /\
  (forall p, picked cov d p = None -> nm (l_fs s) p = nm R p /\ found (l_fs s) p = found R p).
Proof.
  intros cap hs cov u g now d R Ok LR Ne s. destruct (one_full cap hs cov u g now d R Ok LR Ne) as (A & _ & B & C & D). auto.
Qed.

(** A full backup followed by any number of differential ones, restored in order from scratch, gives back the inodes and the links of the
    last one, as long as no link is made or broken between names that stay, and the EA of an inode with several names do not change
    together with something else. *)
Theorem C41_chain : forall cap hourshift cov me_uid me_gid now table n states last, (forall d, In d (states ++ [last]) -> disk_ok d) ->
  successive (fun a b => lhonest cap hourshift cov a b /\ links_kept cov a b /\ ea_type_kept cov a b /\ ea_links_kept cap hourshift cov a b) (states ++ [last]) ->
  exists f, lrestore_all me_uid me_gid now (larchives cap hourshift cov empty_archive (states ++ [last])) (LFS (fun _ => None) table n) = Some f /\ good cov f last.
Proof.
  intros cap hs cov u g now table n states last.
  assert (G : forall states d0 ref R, arc_ok cov ref d0 -> good cov R d0 -> lfs_ok R -> (forall d, In d (states ++ [last]) -> disk_ok d) ->
    successive (fun a b => lhonest cap hs cov a b /\ links_kept cov a b /\ ea_type_kept cov a b /\ ea_links_kept cap hs cov a b) (d0 :: states ++ [last]) ->
    exists f, lrestore_all u g now (larchives cap hs cov ref (states ++ [last])) R = Some f /\ good cov f last).
  { induction states0 as [|d l IH]; intros d0 ref R Ar Gd LR Ok Su.
    - cbn [app successive] in *. destruct Su as [(A & B & C & D) _]. cbn [larchives lrestore_all].
      destruct (one_diff cap hs cov u g now ref d0 last R Ar (Ok last (or_introl eq_refl)) Gd LR A B C D) as (E1 & E2 & _). rewrite E1. eauto.
    - cbn [app] in Su. change (successive _ (d0 :: d :: l ++ [last])) with ((lhonest cap hs cov d0 d /\ links_kept cov d0 d /\ ea_type_kept cov d0 d /\ ea_links_kept cap hs cov d0 d) /\
        successive (fun a b => lhonest cap hs cov a b /\ links_kept cov a b /\ ea_type_kept cov a b /\ ea_links_kept cap hs cov a b) (d :: l ++ [last])) in Su.
      destruct Su as [(A & B & C & D) Su]. cbn [app larchives lrestore_all]. assert (Od : disk_ok d) by (apply Ok; left; reflexivity).
      destruct (one_diff cap hs cov u g now ref d0 d R Ar Od Gd LR A B C D) as (E1 & E2 & E3). rewrite E1. eapply IH; [|exact E2|exact E3| |exact Su].
      + apply back_ok; [exact Od|apply Ar]. + intros x Hx. apply Ok. right. exact Hx. }
  intros Ok Su. assert (First : forall d, disk_ok d -> let s := lrestore u g now (lbackup cap hs cov empty_archive d) (LFS (fun _ => None) table n) in l_err s = 0%nat /\ lfs_ok (l_fs s) /\ good cov (l_fs s) d).
  { intros d Od s. destruct (one_full cap hs cov u g now d (LFS (fun _ => None) table n) Od) as (A & B & C & D & F); [intros ? ? Z; discriminate|intros p i h _ Z; discriminate|]. fold s in A, B, C, D, F.
    split; [exact A|]. split; [exact B|]. split; [|exact D]. intro p. destruct (picked cov d p) as [i|] eqn:P.
    - destruct (C p i P) as (h & -> & Z). exact Z. - destruct (F p P) as [_ ->]. exact I. }
  destruct states as [|d l].
  - cbn [app larchives lrestore_all]. destruct (First last (Ok last (or_introl eq_refl))) as (A & B & C). rewrite A. eauto.
  - cbn [app larchives lrestore_all]. assert (Od : disk_ok d) by (apply Ok; left; reflexivity). destruct (First d Od) as (A & B & C). rewrite A.
    eapply G; [|exact C|exact B| |exact Su]; [apply back_ok; [exact Od|constructor]|]. intros x Hx. apply Ok. right. exact Hx.
Qed.

(** ---------- a history that meets the hypotheses ---------- *)
Definition na : list N := [97]. Definition nb_ : list N := [98]. Definition nc : list N := [99]. Definition nd_ : list N := [100].
Definition all : list N -> bool := fun _ => true.
Definition hd0 (data : list N) (t : N) (ea : list (list N * list N)) : head := Head KFile 1 1 420 (DT t tu_s) (DT t tu_s) data ea.
(* a and b are links to the same file, c is another one; then that file changes, b is removed, d is a new link to it, and c gets EA *)
Definition day1 : disk := Disk [(na, 1); (nb_, 1); (nc, 2)] (fun i => if i =? 1 then hd0 [1] 5 [(na, [7])] else hd0 [2] 5 []) (fun i => if i =? 1 then 2 else 1).
Definition day2 : disk := Disk [(na, 1); (nc, 2); (nd_, 1)] (fun i => if i =? 1 then hd0 [1; 1] 9000000 [(na, [7])] else Head KFile 1 1 420 (DT 5 tu_s) (DT 9000000 tu_s) [2] [(na, [8])]) (fun i => if i =? 1 then 2 else 1).
Lemma day_ok : forall d, In d ([day1] ++ [day2]) -> disk_ok d.
Proof.
  intros d Hd. assert (Q : d = day1 \/ d = day2) by (cbn in Hd; intuition). destruct Q as [-> | ->].
  - split; [|split].
    + cbn. repeat constructor; cbn; intuition discriminate.
    + intro i. cbn [day1 day2 d_names d_nlink filter snd]. destruct (N.eqb_spec i 1) as [->|]; [cbn; lia|]. destruct (N.eqb_spec 1 i); [congruence|]. destruct (N.eqb_spec 2 i); cbn; lia.
    + intros p i Z. cbn in Z. destruct Z as [Z|[Z|[Z|[]]]]; injection Z as <- <-; cbn; split; try discriminate; repeat constructor; cbn; tauto.
  - split; [|split].
    + cbn. repeat constructor; cbn; intuition discriminate.
    + intro i. cbn [day1 day2 d_names d_nlink filter snd]. destruct (N.eqb_spec i 1) as [->|]; [cbn; lia|]. destruct (N.eqb_spec 1 i); [congruence|]. destruct (N.eqb_spec 2 i); cbn; lia.
    + intros p i Z. cbn in Z. destruct Z as [Z|[Z|[Z|[]]]]; injection Z as <- <-; cbn; split; try discriminate; repeat constructor; cbn; tauto.
Qed.
Lemma day1_named : forall p i, picked all day1 p = Some i -> (p = na /\ i = 1) \/ (p = nb_ /\ i = 1) \/ (p = nc /\ i = 2).
Proof. intros p i H. unfold picked, ino_of, all in H. cbn [day1 d_names entry_named] in H. repeat (match type of H with context [list_eq_dec ?a ?b ?c] => destruct (list_eq_dec a b c) end; [injection H as <-; auto|]). discriminate. Qed.
Lemma day2_named : forall p i, picked all day2 p = Some i -> (p = na /\ i = 1) \/ (p = nc /\ i = 2) \/ (p = nd_ /\ i = 1).
Proof. intros p i H. unfold picked, ino_of, all in H. cbn [day2 d_names entry_named] in H. repeat (match type of H with context [list_eq_dec ?a ?b ?c] => destruct (list_eq_dec a b c) end; [injection H as <-; auto|]). discriminate. Qed.
Example C41_chain_instance : exists f, lrestore_all 0 0 (DT 0 tu_s) (larchives tu_s 0 all empty_archive ([day1] ++ [day2])) (LFS (fun _ => None) (fun _ => hd0 [] 0 []) 0) = Some f /\
  good all f day2 /\ nm f na = nm f nd_ /\ nm f nb_ = None /\ found f nc = Some (Head KFile 1 1 420 (DT 5 tu_s) (DT 0 tu_s) [2] [(na, [8])]).
Proof.
  destruct (C41_chain tu_s 0 all 0 0 (DT 0 tu_s) (fun _ => hd0 [] 0 []) 0 [day1] day2 day_ok) as (f & A & B).
  - cbn [app successive]. split; [|exact I]. split; [|split; [|split]].
    + intros p i j P Q. apply day1_named in P. apply day2_named in Q. intuition subst; try discriminate; split; intro Z; try reflexivity; try (repeat split; reflexivity); exfalso; apply Z.
      * right. right. right. left. split; [reflexivity|]. cbn. discriminate.
      * vm_compute. reflexivity.
    + intros p q i j i' j' P Q P' Q'. apply day1_named in P. apply day1_named in Q. apply day2_named in P'. apply day2_named in Q'. intuition subst; try discriminate; try reflexivity; try lia.
    + intros p i j P Q K. exfalso. apply K. apply day1_named in P. apply day2_named in Q. intuition subst; reflexivity || discriminate.
    + intros p q i j P Q Q' Hn. apply day1_named in P. apply day2_named in Q. apply day2_named in Q'. intuition subst; try discriminate; try (left; reflexivity); try (right; left; reflexivity).
  - exists f. split; [exact A|]. split; [exact B|]. vm_compute in A. injection A as <-. repeat split.
Qed.

(** ---------- the hypotheses on links cannot be dropped ---------- *)
(** ln -f a b, when neither file has changed since the previous backup: the differential archive has only "unchanged" for both names, and
    the restoration leaves b as it was *)
Definition two_files : disk := Disk [(na, 1); (nb_, 2)] (fun i => if i =? 1 then hd0 [1] 5 [] else hd0 [2] 5 []) (fun _ => 1).
Definition one_file : disk := Disk [(na, 1); (nb_, 1)] (fun i => hd0 [1] 5 []) (fun _ => 2).
Theorem C41_join_refuted : disk_ok two_files /\ disk_ok one_file /\ 
  exists f, lrestore_all 0 0 (DT 0 tu_s) (larchives tu_s 0 all empty_archive [two_files; one_file]) (LFS (fun _ => None) (fun _ => hd0 [] 0 []) 0) = Some f /\
    picked all one_file na = picked all one_file nb_ /\ nm f na <> nm f nb_ /\ option_map h_data (found f nb_) = Some [2] /\ option_map h_data (inode_of one_file nb_) = Some [1].
Proof.
  assert (O : forall d, d = two_files \/ d = one_file -> disk_ok d).
  { intros d [-> | ->]; (split; [cbn; repeat constructor; cbn; intuition discriminate|split]).
    - intro i. cbn [two_files one_file d_names d_nlink filter snd]. destruct (N.eqb_spec 1 i); destruct (N.eqb_spec 2 i); cbn; lia.
    - intros p i Z. cbn in Z. destruct Z as [Z|[Z|[]]]; injection Z as <- <-; cbn; split; try discriminate; repeat constructor; cbn; tauto.
    - intro i. cbn [two_files one_file d_names d_nlink filter snd]. destruct (N.eqb_spec 1 i); cbn; lia.
    - intros p i Z. cbn in Z. destruct Z as [Z|[Z|[]]]; injection Z as <- <-; cbn; split; try discriminate; repeat constructor; cbn; tauto. }
  split; [auto|]. split; [auto|]. eexists. split; [vm_compute; reflexivity|]. repeat split. discriminate.
Qed.
(** the content and the EA of an inode with two names both change, and this is seen: the EA restored are the former ones *)
Definition ea_old : disk := Disk [(na, 1); (nb_, 1)] (fun i => hd0 [1] 5 [(nc, [1])]) (fun _ => 2).
Definition ea_new : disk := Disk [(na, 1); (nb_, 1)] (fun i => hd0 [2; 2] 9000000 [(nc, [2])]) (fun _ => 2).
Theorem C41_ea_refuted : disk_ok ea_old /\ disk_ok ea_new /\ lhonest tu_s 0 all ea_old ea_new /\ links_kept all ea_old ea_new /\
  exists f, lrestore_all 0 0 (DT 0 tu_s) (larchives tu_s 0 all empty_archive [ea_old; ea_new]) (LFS (fun _ => None) (fun _ => hd0 [] 0 []) 0) = Some f /\
    option_map h_ea (found f na) = Some [(nc, [1])] /\ option_map h_ea (inode_of ea_new na) = Some [(nc, [2])].
Proof.
  assert (O : forall d, d = ea_old \/ d = ea_new -> disk_ok d).
  { intros d [-> | ->]; (split; [cbn; repeat constructor; cbn; intuition discriminate|split]).
    1, 3: intro i; cbn [ea_old ea_new d_names d_nlink filter snd]; destruct (N.eqb_spec 1 i); cbn; lia.
    all: intros p i Z; cbn in Z; destruct Z as [Z|[Z|[]]]; injection Z as <- <-; cbn; split; try discriminate; repeat constructor; cbn; tauto. }
  split; [auto|]. split; [auto|]. split; [|split].
  - intros p i j _ _ a b K. split; intro Z; exfalso; apply Z.
    + right. right. right. left. split; [reflexivity|]. discriminate.
    + vm_compute. reflexivity.
  - intros p q i j i' j' P Q P' Q'. assert (G : forall r k, picked all ea_old r = Some k -> k = 1).
    { intros r k H. unfold picked, ino_of, all in H. cbn [ea_old d_names entry_named] in H. repeat (match type of H with context [list_eq_dec ?a ?b ?c] => destruct (list_eq_dec a b c) end; [injection H as <-; auto|]). discriminate. }
    rewrite (G p i P), (G q j Q), (G p i' P'), (G q j' Q'). tauto.
  - eexists. split; [vm_compute; reflexivity|]. repeat split.
Qed.
(** over a filesystem with EA, a full backup leaks them into the inode restored (as in C40_ea_leak_refuted, here by another name) *)
Definition other_ea : lfs := LFS (fun p => if name_eqb p nb_ then Some 0 else None) (fun _ => hd0 [9] 1 [(nc, [9])]) 1.
Theorem C41_full_ea_refuted : lfs_ok other_ea /\ let s := lrestore 0 0 (DT 0 tu_s) (lbackup tu_s 0 all empty_archive one_file) other_ea in
  l_err s = 0%nat /\ option_map h_ea (found (l_fs s) na) = Some [(nc, [9])] /\ option_map h_ea (inode_of one_file na) = Some [].
Proof.
  split; [|repeat split]. intros p i H. unfold other_ea in H. cbn in H. destruct (name_eqb p nb_); [injection H as <-; cbn; lia|discriminate].
Qed.

Print Assumptions C41_full. Print Assumptions C41_chain. Print Assumptions C41_chain_instance. Print Assumptions C41_join_refuted. Print Assumptions C41_ea_refuted. Print Assumptions C41_full_ea_refuted.
