(** * Model of the reading side of the parallel deciphering: parallel_tronconneuse.cpp, parallel_tronconneuse.hpp.

    Two threads are modelled step by step: the one that calls the object (the main thread) and the one that reads the ciphered file ([read_below]).  The workers between them
    and the two rateliers are one first-in first-out list: that the blocks leave in the order they came is property C45/C39's matter.  A worker that received a stop or eof
    order waits at the barrier; as each order is sent once per worker, the barrier opens when the main thread and [read_below] are both there.
    The schedule is an oracle: before each access of the main thread to something shared, [read_below] runs any number of its atomic steps; when the main thread
    gathers blocks it gets any non-empty prefix of those available.  Left out: exceptions of the threads below (exception_below, exception_worker), the callback about
    trailing clear data (mycallback = nullptr), the count of the segments of the heap, the read-ahead request itself.
    A call of the main thread that can never return because read_below is blocked too ends the run with the error [deadlock].  Positions are unbounded (infinint). *)
From Verif Require Import Base.
From Coq Require Import Bool PeanoNat.
Open Scope nat_scope.

(** tronco_flags, parallel_tronconneuse.hpp:52-60 (those used here) *)
Inductive flag := Fnormal | Fstop | Feof | Fdie.
Definition flag_eqb (a b : flag) : bool :=
  match a, b with Fnormal, Fnormal | Fstop, Fstop | Feof, Feof | Fdie, Fdie => true | _, _ => false end.
(** an element of lus_data with its element of lus_flags: a deciphered block and the read cursor of its mem_block; a block that could not be deciphered (data_error); an order *)
Inductive item := IData (b : list N) (o : nat) | IBad | IOrd (f : flag).
(** thread_status, parallel_tronconneuse.hpp *)
Inductive tstatus := Running | Suspended | Dead.
(** where read_below is: waiting at the first barrier; past it; at the switch of the loop; about to read a block; about to write eof in the flag; with
    [n] orders left to send; waiting at the barrier after such orders; past that barrier (two tests of the flag after eof, one after stop); ended; exception thrown *)
Inductive rpc := RInit | RStart | RTop | RRead | RSetEof | RSend (f : flag) (n : nat) | RWait (f : flag) | REof1 | REof2 | RStop1 | REnd | RThrow.

(** the shared part: the flag, the position asked for (skip_to), the blocks under way, the state of read_below (index_num, reof, pos_in_flow) and the position of the ciphered
    file, counted in blocks;
    the main thread: t_status, current_position, lus_data and lus_flags, ignore_stop_acks, check_bytes_to_skip, lus_eof; the schedule to come *)
Record st := St { flg : flag; skipto : nat; fifo : list item; pc : rpc; idx : nat; reof : bool; pif : nat; epos : nat;
                  tst : tstatus; cur : nat; lus : list item; ign : nat; chk : bool; leof : bool; sched : list (nat * nat) }.

Section Fetch.
(** number of workers, clear_block_size, the clear data, the blocks that cannot be deciphered *)
Variable W : nat.
Variable bs : nat.
Variable F : list N.
Variable bad : nat -> bool.
(** the result of skipping in the ciphered file to the beginning of a block *)
Variable skipok : nat -> bool.

(** clear content of the block number [k]; simplification: the ciphered block is as long as the buffer exactly when the clear block is *)
Definition blk (k : nat) : list N := firstn bs (skipn (k * bs) F).
Definition is_full (b : list N) : bool := length b =? bs.
Definition is_nil {A} (l : list A) : bool := match l with [] => true | _ => false end.

(** ** the thread read_below *)
(** get_ready_for_new_offset and position_clear2crypt, parallel_tronconneuse.cpp:1442-1459, 1473-1482 *)
Definition get_ready (s : st) : st :=
  let k := skipto s / bs in
  St (flg s) (skipto s) (fifo s) (pc s) k (negb (skipok k)) (skipto s mod bs) k (tst s) (cur s) (lus s) (ign s) (chk s) (leof s) (sched s).
Definition goto (p : rpc) (s : st) : st :=
  St (flg s) (skipto s) (fifo s) p (idx s) (reof s) (pif s) (epos s) (tst s) (cur s) (lus s) (ign s) (chk s) (leof s) (sched s).
Definition with_flag (f : flag) (s : st) : st :=
  St f (skipto s) (fifo s) (pc s) (idx s) (reof s) (pif s) (epos s) (tst s) (cur s) (lus s) (ign s) (chk s) (leof s) (sched s).
Definition with_reof (b : bool) (s : st) : st :=
  St (flg s) (skipto s) (fifo s) (pc s) (idx s) b (pif s) (epos s) (tst s) (cur s) (lus s) (ign s) (chk s) (leof s) (sched s).
Definition push (i : item) (s : st) : st :=
  St (flg s) (skipto s) (fifo s ++ [i]) (pc s) (idx s) (reof s) (pif s) (epos s) (tst s) (cur s) (lus s) (ign s) (chk s) (leof s) (sched s).
(** case normal, parallel_tronconneuse.cpp:1387-1424: reads a block at the position of the ciphered file, gives it the number index_num; the worker deciphers it
    with that number, parallel_tronconneuse.cpp:1772-1786 (a block deciphered with the number of another is data_error here) *)
Definition read_block (s : st) : st :=
  let b := blk (epos s) in
  if is_nil b then with_reof true s
  else let i := if (epos s =? idx s) && negb (bad (epos s)) then IData b 0 else IBad in
       St (flg s) (skipto s) (fifo s ++ [i]) (pc s) (S (idx s)) (negb (is_full b)) (pif s) (S (epos s))
          (tst s) (cur s) (lus s) (ign s) (chk s) (leof s) (sched s).
(** one atomic step of read_below: inherited_run and work, parallel_tronconneuse.cpp:1309-1440; send_flag_to_workers, 1461-1471. A thread that waits, or that ended, does not move *)
Definition rstep (s : st) : st :=
  match pc s with
  | RInit | RWait _ | REnd | RThrow => s
  | RStart => goto RTop (get_ready s)
  | RTop => match flg s with
            | Fdie => if reof s then goto RSetEof s else goto (RSend Fdie W) s
            | Feof => goto (RSend Feof W) s
            | Fstop => if reof s then goto RSetEof s else goto (RSend Fstop W) s
            | Fnormal => if reof s then goto RSetEof s else goto RRead s
            end
  | RRead => goto RTop (read_block s)
  | RSetEof => goto RTop (with_flag Feof s)
  | RSend f n => match n with
                 | S n => goto (RSend f n) (push (IOrd f) s)
                 | O => match f with Fdie => goto REnd s | _ => goto (RWait f) s end
                 end
  | REof1 => match flg s with Feof => goto RThrow s | _ => goto REof2 s end
  | REof2 => goto RTop (with_reof false (match flg s with Fnormal => get_ready s | _ => s end))
  | RStop1 => match flg s with
              | Fnormal => goto RTop (get_ready s)
              | Feof => goto RThrow s
              | Fstop | Fdie => goto RTop s
              end
  end.
(** read_below waits for the main thread, or is no more there *)
Definition blocked (p : rpc) : bool := match p with RInit | RWait _ | REnd | RThrow => true | _ => false end.
(** the run stops because no thread can move any more *)
Definition deadlock : exn := UB.
Fixpoint rrun (n : nat) (s : st) : st := match n with O => s | S n => rrun n (rstep s) end.

(** ** the main thread *)
Definition M (A : Type) := st -> res A * st.
Definition ret {A} (a : A) : M A := fun s => (Ok a, s).
Definition fail {A} (e : exn) : M A := fun s => (Err e, s).
Definition bindM {A B} (m : M A) (f : A -> M B) : M B :=
  fun s => match m s with (Ok a, s') => f a s' | (Err e, s') => (Err e, s') end.
Notation "x <- m ;; k" := (bindM m (fun x => k)) (at level 61, m at next level, right associativity).
Notation "m ;;; k" := (bindM m (fun _ => k)) (at level 61, right associativity).

Definition with_sched (l : list (nat * nat)) (s : st) : st :=
  St (flg s) (skipto s) (fifo s) (pc s) (idx s) (reof s) (pif s) (epos s) (tst s) (cur s) (lus s) (ign s) (chk s) (leof s) l.
Definition with_main (t : tstatus) (c : nat) (l : list item) (i : nat) (k e : bool) (s : st) : st :=
  St (flg s) (skipto s) (fifo s) (pc s) (idx s) (reof s) (pif s) (epos s) t c l i k e (sched s).
Definition set_tst (t : tstatus) : M unit := fun s => (Ok tt, with_main t (cur s) (lus s) (ign s) (chk s) (leof s) s).
Definition set_cur (c : nat) : M unit := fun s => (Ok tt, with_main (tst s) c (lus s) (ign s) (chk s) (leof s) s).
Definition set_lus (l : list item) : M unit := fun s => (Ok tt, with_main (tst s) (cur s) l (ign s) (chk s) (leof s) s).
Definition set_ign (i : nat) : M unit := fun s => (Ok tt, with_main (tst s) (cur s) (lus s) i (chk s) (leof s) s).
Definition set_chk (b : bool) : M unit := fun s => (Ok tt, with_main (tst s) (cur s) (lus s) (ign s) b (leof s) s).
Definition set_leof (b : bool) : M unit := fun s => (Ok tt, with_main (tst s) (cur s) (lus s) (ign s) (chk s) b s).
Definition get {A} (f : st -> A) : M A := fun s => (Ok (f s), s).

(** read_below runs for a while; with no schedule left the run stops here ([Fuel]) *)
Definition tick : M nat := fun s =>
  match sched s with [] => (Err Fuel, s) | (n, k) :: r => (Ok k, rrun n (with_sched r s)) end.
(** read_below::set_flag, set_pos, parallel_tronconneuse.hpp:351-363 *)
Definition set_flag (f : flag) : M unit := tick ;;; fun s => (Ok tt, with_flag f s).
Definition set_pos (p : nat) : M unit := tick ;;; fun s =>
  (Ok tt, St (flg s) p (fifo s) (pc s) (idx s) (reof s) (pif s) (epos s) (tst s) (cur s) (lus s) (ign s) (chk s) (leof s) (sched s)).
(** the barrier: blocks until read_below is there *)
Definition released (p : rpc) : option rpc :=
  match p with RInit => Some RStart | RWait Feof => Some REof1 | RWait Fstop => Some RStop1 | _ => None end.
Fixpoint wait_from (l : list (nat * nat)) (s : st) : res unit * st :=
  match l with
  | [] => (Err Fuel, with_sched [] s)
  | (n, _) :: r => let s' := rrun n s in
      match released (pc s') with
      | Some p => (Ok tt, with_sched r (goto p s'))
      | None => if blocked (pc s') then (Err deadlock, s') else wait_from r s'
      end
  end.
Definition wait : M unit := fun s => wait_from (sched s) s.
(** ratelier_gather::gather: blocks until something is available *)
Fixpoint gather_from (l : list (nat * nat)) (s : st) : res unit * st :=
  match l with
  | [] => (Err Fuel, with_sched [] s)
  | (n, k) :: r => let s' := rrun n s in
      match fifo s' with
      | [] => if blocked (pc s') then (Err deadlock, s') else gather_from r s'
      | _ => (Ok tt, St (flg s') (skipto s') (skipn (S k) (fifo s')) (pc s') (idx s') (reof s') (pif s') (epos s')
                        (tst s') (cur s') (firstn (S k) (fifo s')) (ign s') (chk s') (leof s') r)
      end
  end.
Definition gather : M unit := fun s => gather_from (sched s) s.
(** thread::join: blocks until read_below ended *)
Fixpoint join_from (l : list (nat * nat)) (s : st) : res unit * st :=
  match l with
  | [] => (Err Fuel, with_sched [] s)
  | (n, _) :: r => let s' := rrun n s in
      match pc s' with
      | REnd => (Ok tt, with_sched r s')
      | RThrow => (Err Ebug, s')
      | p => if blocked p then (Err deadlock, s') else join_from r s'
      end
  end.

(** go_read, parallel_tronconneuse.cpp:770-785; threads that ended are not started again: the calls are refused once the object is terminated *)
Definition go_read : M unit :=
  t <- get tst ;;
  match t with
  | Suspended => c <- get cur ;; set_pos c ;;; set_flag Fnormal ;;; wait ;;; set_tst Running ;;; set_chk true
  | Running => ret tt
  | Dead => fail Ebug
  end.

(** read_refill, parallel_tronconneuse.cpp:787-820; mem_block::rewind_read, mem_block.cpp:132-137 *)
Definition read_refill : M unit :=
  l <- get lus ;; t <- get tst ;;
  match l, t with
  | _ :: _, _ | _, Dead => ret tt
  | [], _ =>
    gather ;;;
    l <- get lus ;; c <- get chk ;;
    match l, c with
    | IData b o :: r, true =>
      tick ;;; p <- get pif ;;
      set_chk false ;;;
      if p =? 0 then ret tt
      else if p <=? length b then set_lus (IData b p :: r) else fail Ebug
    | [], _ => fail Ebug
    | _, _ => ret tt
    end
  end.

(** find_offset_in_lus_data, parallel_tronconneuse.cpp:1097-1165: the loop on the blocks at hand, from the position [c] *)
Fixpoint find_loop (pos : nat) (l : list item) (c : nat) : bool * nat * list item :=
  match l with
  | IData b o :: r =>
    if pos <? c then
      if c <=? pos + o then (true, pos, IData b (o - (c - pos)) :: r) else (false, c, l)
    else if pos <? c + (length b - o) then (true, pos, IData b (o + pos - c) :: r)
    else let c' := c + (length b - o) in
         if (c' =? pos) && negb (is_nil r) then (true, c', r) else find_loop pos r c'
  | _ => (false, c, l)
  end.
Definition find_offset (pos : nat) : M bool := fun s =>
  match find_loop pos (lus s) (cur s) with
  | (f, c, l) => (Ok f, with_main (tst s) c l (ign s) (chk s) (leof s) s)
  end.

(** a bound on the number of turns of the loops below, given by the schedule left *)
Definition weight (s : st) : nat := length (lus s) + list_sum (map (fun e => S (S (snd e))) (sched s)).

(** purge_ratelier_from_next_order, parallel_tronconneuse.cpp:822-975; [top]: at the beginning of the outer loop; [num], [r], [pos]: its variables num, ret, pos *)
Fixpoint purge_loop (fuel : nat) (top : bool) (num : nat) (r : flag) (pos : nat) : M flag :=
  match fuel with O => fail Fuel | S fuel =>
  if top then
    read_refill ;;;
    if negb (pos =? 0) && flag_eqb r Fnormal
    then f <- find_offset pos ;;
         if f then set_ign num ;;; purge_loop fuel false 0 r pos else purge_loop fuel false num r pos
    else purge_loop fuel false num r pos
  else
    l <- get lus ;;
    match l, num with
    | _, O => ret r
    | [], S _ => purge_loop fuel true num r pos
    | IOrd f :: q, S n =>
      i <- get ign ;;
      let first := flag_eqb r Fnormal in
      let r := if first then f else r in
      let i' := if first && negb (flag_eqb f Fstop) && negb (flag_eqb f Feof) then 0 else i in
      set_ign i' ;;;
      if negb (flag_eqb f r) then fail Ebug
      else match i' with
           | S i'' =>
             set_ign i'' ;;;
             match i'' with
             | O => set_tst Suspended ;;;
                    if negb (flag_eqb r Feof)
                    then go_read ;;; set_lus q ;;; purge_loop fuel false num Fnormal 0
                    else set_lus q ;;; purge_loop fuel false 0 r pos
             | S _ => set_lus q ;;; purge_loop fuel false num r pos
             end
           | O =>
             match n with
             | O => set_tst (if flag_eqb r Fdie then Dead else Suspended) ;;; set_lus q ;;; purge_loop fuel false n r pos
             | S _ => set_lus q ;;; purge_loop fuel false n r pos
             end
           end
    | _ :: q, S n => set_lus q ;;; purge_loop fuel false num r pos
    end
  end.
Definition purge (pos : nat) : M flag :=
  t <- get tst ;; w <- get weight ;;
  match t with Dead => fail Ebug | _ => purge_loop (3 * w + 4) true W Fnormal pos end.

(** send_read_order(stop, for_offset), parallel_tronconneuse.cpp:653-660, 714-729 *)
Definition send_stop (pos : nat) : M bool :=
  t <- get tst ;;
  match t with
  | Dead => fail Ebug
  | Suspended => ret true
  | Running =>
    set_flag Fstop ;;;
    v <- purge pos ;;
    match v with
    | Fstop | Feof => ret true
    | Fnormal => if pos =? 0 then fail Ebug else ret false
    | Fdie => fail Ebug
    end
  end.
(** send_read_order(die), parallel_tronconneuse.cpp:662-712 *)
Definition send_die : M unit :=
  t <- get tst ;;
  match t with Dead => fail Ebug | _ =>
    set_flag Fdie ;;;
    t <- get tst ;;
    (match t with Suspended => wait ;;; set_tst Running | _ => ret tt end) ;;;
    v <- purge 0 ;;
    match v with
    | Fdie => ret tt
    | Feof | Fstop =>
      set_flag Fdie ;;;
      t <- get tst ;;
      (match t with Suspended => wait ;;; set_tst Running | _ => ret tt end) ;;;
      v <- purge 0 ;;
      (match v with Fdie => ret tt | _ => fail Ebug end)
    | Fnormal => fail Ebug
    end
  end.

(** purge_unack_stop_order, parallel_tronconneuse.cpp:977-1095: the inner loop; [lookup]: its variable of that name; result: whether the orders were purged *)
Fixpoint unack_loop (fuel : nat) (lookup : bool) (pos : nat) : M bool :=
  match fuel with O => fail Fuel | S fuel =>
  read_refill ;;;
  l <- get lus ;;
  match l with
  | [] => fail Ebug
  | IOrd f :: q =>
    match f with
    | Fstop | Feof =>
      i <- get ign ;;
      match i with
      | O => fail Ebug
      | S O => set_ign 0 ;;; set_lus q ;;; ret true
      | S i => set_ign i ;;; set_lus q ;;; unack_loop fuel lookup pos
      end
    | _ => fail Ebug
    end
  | _ :: _ =>
    f <- (if lookup && negb (pos =? 0) then find_offset pos else ret false) ;;
    if f then ret false
    else l <- get lus ;;
         match l with
         | [] => unack_loop fuel lookup pos
         | IOrd _ :: _ => unack_loop fuel lookup pos
         | _ :: q => set_lus q ;;; unack_loop fuel false pos
         end
  end end.
Definition purge_unack (pos : nat) : M bool :=
  f <- (if pos =? 0 then ret false else find_offset pos) ;;
  i <- get ign ;; t <- get tst ;; w <- get weight ;;
  match t with Dead => fail Ebug | _ =>
    b <- (if (0 <? i) && negb f then unack_loop (3 * w + 4) true pos else ret (negb f)) ;;
    if b then set_tst Suspended ;;; ret true else ret false
  end.

(** inherited_read, parallel_tronconneuse.cpp:360-546: the loop; [n]: bytes still wanted, [added]: bytes already counted in current_position, [acc]: bytes read so far;
    the cursor of a mem_block is never past its end (mem_block.cpp:100-137), so that all_is_read (mem_block.hpp) is a comparison with it *)
Fixpoint read_loop (fuel : nat) (n : nat) (added : nat) (acc : list N) : M (nat * list N) :=
  match fuel with O => fail Fuel | S fuel =>
  e <- get leof ;;
  if (n =? 0) || e then ret (added, acc)
  else
    read_refill ;;;
    l <- get lus ;;
    match l with
    | [] => fail Ebug
    | IData b o :: q =>
      let got := firstn n (skipn o b) in
      (if length b <=? o + length got then set_lus q else set_lus (IData b (o + length got) :: q)) ;;;
      read_loop fuel (n - length got) added (acc ++ got)
    | IBad :: _ => fail Erange
    | IOrd Fstop :: q =>
      i <- get ign ;;
      match i with
      | O => fail Ebug
      | S O => set_ign 0 ;;; set_lus q ;;; set_tst Suspended ;;;
               c <- get cur ;; set_cur (c + (length acc - added)) ;;;
               go_read ;;; read_loop fuel n (length acc) acc
      | S i => set_ign i ;;; set_lus q ;;; read_loop fuel n added acc
      end
    | IOrd Feof :: _ =>
      set_leof true ;;;
      v <- purge 0 ;;
      (match v with Feof => read_loop fuel n added acc | _ => fail Ebug end)
    | IOrd _ :: _ => fail Ebug
    end
  end.
Definition read (n : nat) : M (list N) :=
  e <- get leof ;;
  if e then ret []
  else
    go_read ;;;
    w <- get weight ;;
    x <- read_loop (3 * w + 4) n 0 [] ;;
    match x with (added, acc) => c <- get cur ;; set_cur (c + (length acc - added)) ;;; ret acc end.

(** skip, parallel_tronconneuse.cpp:188-242 *)
Definition skip (pos : nat) : M bool :=
  c <- get cur ;;
  if pos =? c then ret true
  else
    f <- find_offset pos ;;
    if f then ret true
    else
      i <- get ign ;;
      b <- (match i with O => send_stop pos | S _ => purge_unack pos end) ;;
      (if b then set_cur pos ;;; set_leof false else ret tt) ;;;
      ret true.
(** skip_relative, parallel_tronconneuse.cpp:284-308 *)
Definition skip_relative (x : Z) : M bool :=
  c <- get cur ;;
  if (0 <=? x)%Z then skip (c + Z.to_nat x)
  else if Z.to_nat (- x) <=? c then skip (c - Z.to_nat (- x))
  else skip 0 ;;; ret false.
(** skippable, parallel_tronconneuse.cpp:179-186 (the answer of the ciphered file is left out); inherited_flush_read, 620-624 *)
Definition sync : M unit := send_stop 0 ;;; ret tt.
(** inherited_read_ahead, parallel_tronconneuse.cpp:339-358 *)
Definition read_ahead : M unit := go_read.
(** skip_to_eof, parallel_tronconneuse.cpp:244-282: the main thread itself moves in the ciphered file *)
Fixpoint eof_loop (fuel : nat) : M unit :=
  match fuel with O => fail Fuel | S fuel =>
    x <- read bs ;; if length x =? bs then eof_loop fuel else ret tt end.
Definition skip_to_eof : M bool :=
  send_stop 0 ;;;
  (fun s => (Ok tt, St (flg s) (skipto s) (fifo s) (pc s) (idx s) (reof s) (pif s) (length F / bs + (if length F mod bs =? 0 then 0 else 1))
                       (tst s) (cur s) (lus s) (ign s) (chk s) (leof s) (sched s))) ;;;
  set_cur (length F / bs * bs) ;;;
  (if length F mod bs =? 0 then ret tt else go_read ;;; w <- get (fun s => length (sched s)) ;; eof_loop (S w)) ;;;
  ret true.
(** stop_threads, parallel_tronconneuse.cpp:1226-1245; join_threads, 1261-1276 *)
Definition join_threads : M unit := fun s => match join_from (sched s) s with (Ok _, s') => set_tst Dead s' | x => x end.
Definition stop_threads : M unit :=
  t <- get tst ;; i <- get ign ;;
  match t with
  | Dead => ret tt
  | _ => (match i with O => ret tt | S _ => b <- purge_unack 0 ;; if b then ret tt else fail Ebug end) ;;; send_die
  end.
(** inherited_terminate, parallel_tronconneuse.cpp:626-651 *)
Definition terminate : M unit :=
  send_stop 0 ;;;
  t <- get tst ;;
  (match t with Dead => ret tt | _ => stop_threads end) ;;;
  join_threads.

(** the constructor and run_threads, parallel_tronconneuse.cpp:54-160, 1168-1224; [e]: where the ciphered file is *)
Definition start (e : nat) (l : list (nat * nat)) : st :=
  St Fnormal 0 [] RInit 0 false 0 e Suspended 0 [] 0 true false l.

(** a script of calls *)
Inductive op := Oread (n : nat) | Oskip (p : nat) | Orel (x : Z) | Oeof | Osync | Oahead.
Inductive ans := Abytes (l : list N) | Abool (b : bool) | Anone.
Definition call (o : op) : M ans :=
  match o with
  | Oread n => x <- read n ;; ret (Abytes x)
  | Oskip p => x <- skip p ;; ret (Abool x)
  | Orel x => x <- skip_relative x ;; ret (Abool x)
  | Oeof => x <- skip_to_eof ;; ret (Abool x)
  | Osync => sync ;;; ret Anone
  | Oahead => read_ahead ;;; ret Anone
  end.
(** the answers of the calls, each with the position get_position() gives after it; then the object is terminated *)
Fixpoint play (l : list op) : M (list (ans * nat)) :=
  match l with
  | [] => terminate ;;; ret []
  | o :: r => a <- call o ;; c <- get cur ;; x <- play r ;; ret ((a, c) :: x)
  end.
End Fetch.
