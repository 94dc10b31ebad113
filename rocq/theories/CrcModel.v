(** * Model of the CRC classes (src/libdar/crc.cpp, crc.hpp).

    A CRC object is its cyclic byte field and the index of [pointer] in it. The address of the caller's
    buffer, on which the choice of the block path depends, is an explicit argument [addr]. *)
From Verif Require Import Base InfinintModel.
Open Scope N_scope.

Record crc := mk_crc { cyclic : list N; pointer : nat }.
Definition crc_size (c : crc) : nat := length (cyclic c).

(** "*p ^= b" at index [p] *)
Fixpoint xor1 (l : list N) (p : nat) (b : N) : list N :=
  match l with
  | [] => []
  | x :: r => match p with O => N.lxor x b :: r | S p' => x :: xor1 r p' b end
  end.

(** T_compute, crc.cpp:123-134 (without the initial check) *)
Fixpoint t_loop (buf : list N) (cyc : list N) (p : nat) : list N * nat :=
  match buf with
  | [] => (cyc, p)
  | b :: r =>
    let cyc := xor1 cyc p b in
    let p := if (S p =? length cyc)%nat then 0%nat else S p in
    t_loop r cyc p
  end.
Definition t_compute (buf : list N) (c : crc) : res crc :=
  if (pointer c =? crc_size c)%nat then Err Ebug
  else let '(cyc, p) := t_loop buf (cyclic c) (pointer c) in Ok (mk_crc cyc p).

(** the "initial bytes" loop of n_compute, crc.cpp:142-153; returns the unread part of the buffer *)
Fixpoint init_loop (buf : list N) (cyc : list N) (p : nat) : list N * list N * nat :=
  if (p =? length cyc)%nat then (buf, cyc, p)
  else match buf with
       | [] => (buf, cyc, p)
       | b :: r => init_loop r (xor1 cyc p b) (S p)
       end.

(** XOR of one block of [k] bytes at index [p] (the B-typed access "*crc_ptr ^= *buf_ptr"; XOR acts byte by
    byte whatever the byte order) *)
Fixpoint xor_block (bs : list N) (cyc : list N) (p : nat) : list N :=
  match bs with [] => cyc | b :: r => xor_block r (xor1 cyc p b) (S p) end.

(** B_compute_block, crc.cpp:90-121: [sz] = sizeof(B) *)
Fixpoint block_loop (fuel sz : nat) (buf : list N) (cyc : list N) (p : nat) : list N * list N * nat :=
  match fuel with
  | O => (buf, cyc, p)
  | S k =>
    if (length buf <? sz)%nat then (buf, cyc, p)    (* buf_ptr >= buf_end *)
    else
      let cyc := xor_block (firstn sz buf) cyc p in
      let p := (p + sz)%nat in
      let p := if (length cyc <=? p)%nat then 0%nat else p in
      block_loop k sz (skipn sz buf) cyc p
  end.
Definition b_compute_block (sz : nat) (buf : list N) (cyc : list N) : res (list N * list N * nat) :=
  if (length cyc =? 0)%nat then Err Ebug
  else if negb (Nat.modulo (length cyc) sz =? 0)%nat then Err Ebug
  else if (Nat.div (length cyc) sz =? 0)%nat then Err Ebug
  else Ok (block_loop (S (length buf)) sz buf cyc 0).

(** n_compute, crc.cpp:136-177 *)
Definition n_compute (addr : N) (buf : list N) (c : crc) : res crc :=
  let size := crc_size c in
  let '(buf1, cyc1, p1) :=
    if negb (pointer c =? 0)%nat then
      let '(b, cy, p) := init_loop buf (cyclic c) (pointer c) in
      (b, cy, if (p =? size)%nat then 0%nat else p)
    else (buf, cyclic c, pointer c) in
  let cursor := N.of_nat (length buf - length buf1) in
  let* '(buf2, cyc2, p2) :=
    if (p1 =? 0)%nat && negb (length buf1 =? 0)%nat then
      if (Nat.modulo size 8 =? 0)%nat && ((addr + cursor) mod 8 =? 0) then b_compute_block 8 buf1 cyc1
      else if (Nat.modulo size 4 =? 0)%nat && ((addr + cursor) mod 4 =? 0) then b_compute_block 4 buf1 cyc1
      else if (Nat.modulo size 2 =? 0)%nat && ((addr + cursor) mod 2 =? 0) then b_compute_block 2 buf1 cyc1
      else Ok (buf1, cyc1, p1)
    else Ok (buf1, cyc1, p1) in
  if negb (length buf2 =? 0)%nat then t_compute buf2 (mk_crc cyc2 p2)
  else Ok (mk_crc cyc2 p2).

(** crc_n (width below INFININT_MODE_START = 10240) and crc_i differ by the compute routine:
    crc_i::compute (crc.cpp:234-237) uses T_compute, crc_n::compute (:370-373) uses n_compute *)
Definition INFININT_MODE_START : N := 10240.
Definition crc_compute (addr : N) (buf : list N) (c : crc) : res crc :=
  if N.of_nat (crc_size c) <? INFININT_MODE_START then n_compute addr buf c else t_compute buf c.
(** compute(offset, buffer, length), crc.cpp:221-232 and 353-368 *)
Definition crc_compute_at (offset addr : N) (buf : list N) (c : crc) : res crc :=
  crc_compute addr buf (mk_crc (cyclic c) (N.to_nat (offset mod N.of_nat (crc_size c)))).

(** create_crc_from_size, crc.cpp:480-500 with the constructors :197-202 and :294-310 *)
Definition crc_create (width : nat) : res crc :=
  if (width =? 0)%nat then Err Erange else Ok (mk_crc (repeat 0 width) 0).

(** dump, crc.cpp:245-249 and 381-386 *)
Definition crc_dump (c : crc) : list N := dumpN (N.of_nat (crc_size c)) ++ cyclic c.

(** create_crc_from_file, crc.cpp:453-478. crc_n(U_I, file) (:312-326) ignores the return value of f.read():
    on a short read the end of the freshly allocated field is uninitialised memory, modelled as [UB];
    crc_i reads through the storage constructor (storage.cpp:52-86) which raises Erange. *)
Definition crc_read (f : list N) (old : bool) : res (crc * list N) :=
  if old then
    if (length f <? 2)%nat then Err UB else Ok (mk_crc (firstn 2 f) 0, skipn 2 f)
  else
    let* '(taille, f) := readN f in
    let n := N.to_nat taille in
    if N.of_nat (length f) <? taille
    then (if taille <? INFININT_MODE_START then Err UB else Err Erange)
    else Ok (mk_crc (firstn n f) 0, skipn n f).

(** operator ==, crc.cpp:209-219, 341-351 with T_compare :179-190 *)
Fixpoint t_compare (a b : list N) : bool :=
  match a, b with
  | x :: a', y :: b' => if x =? y then t_compare a' b' else false
  | [], [] => true
  | _, _ => false
  end.
Definition crc_eq (a b : crc) : bool :=
  if negb (crc_size a =? crc_size b)%nat then false else t_compare (cyclic a) (cyclic b).

(** a sequence of sequential compute() calls, each with its buffer address *)
Fixpoint crc_feed (chunks : list (N * list N)) (c : crc) : res crc :=
  match chunks with
  | [] => Ok c
  | (addr, buf) :: r => let* c' := crc_compute addr buf c in crc_feed r c'
  end.
(** a sequence of positioned compute() calls *)
Fixpoint crc_feed_at (chunks : list (N * N * list N)) (c : crc) : res crc :=
  match chunks with
  | [] => Ok c
  | (off, addr, buf) :: r => let* c' := crc_compute_at off addr buf c in crc_feed_at r c'
  end.
