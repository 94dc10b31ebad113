(** * Model of the parallel decompression: parallel_block_compressor.cpp in read mode, with the threads zip_below_read and zip_worker.

    The objects of libthreadar are those of PipeModel (rateliers), as well as the elements under way: [Blk] is a compressed block, [Die] an order to end; which order (eof_die or error) is in the
    field [kind], for all the orders given between two starts are of the same kind. Left out: suspended compression, cancellation, read_ahead, exceptions raised by the file below; a mark of
    end with a non zero size is rejected before the orders to end are given, not after (parallel_block_compressor.cpp:860-864); join() waits for all the threads before an exception is
    thrown again (466-473). *)
From Coq Require Import List Bool PeanoNat.
From Verif Require Import Base InfinintModel FileModel PipeModel BlockModel.
Import ListNotations.
Open Scope nat_scope.

(** ** zip_below_read: what comes at position [p] of the compressed file, parallel_block_compressor.cpp:827-903 *)
(** a block; the end mark; an exception; a block that is too large or not complete (an error without exception, :873-878, 883-890). Each with the position then reached *)
Inductive event := Edata (c : list N) (p : nat) | Eend (p : nat) | Ebad (p : nat) | Eshort (p : nat).
Section Unzip.
Variable W : nat.            (* number of workers *)
Variable Z : zipper.
Variable B : nat.            (* size of the blocks of clear data *)
Variable file : list N.
(** the largest U_I *)
Definition U_I_max : N := 18446744073709551615.
(** [t]: the type met before, which is kept when nothing can be read as the result of set_from is not looked at (:841, compress_block_header.cpp:41-52), the size being then zero; a type never
    set (the field is not initialised) is taken as unknown *)
Definition next (t : option N) (p : nat) : event :=
  match skipn p file with
  | [] => match t with Some 1%N => Edata [] p | Some 2%N => Eend p | _ => Ebad p end
  | ty :: r =>
    match readN r with
    | Err _ => Ebad p
    | Ok (n, rest) =>
      let q := length file - length rest in
      if (U_I_max <? n)%N then Ebad q
      else if (ty =? H_EOF)%N then (if (n =? 0)%N then Eend q else Ebad q)
      else if (ty =? H_DATA)%N then
        if (N.of_nat (z_room Z B) <? n)%N then Eshort q
        else if length rest <? N.to_nat n then Eshort (length file)
        else Edata (firstn (N.to_nat n) rest) (q + N.to_nat n)
      else Ebad q
    end
  end.
(** zip_worker::work, :1015-1022: uncompress_data, then set_data_size (mem_block.cpp:139-142) *)
Definition unzips (i : N) (c : list N) (r : wres) : Prop :=
  match z_unc Z c B with Ok y => r = if B <? length y then WExn else WOk y | Err _ => r = WExn end.

(** ** the client and the main thread *)
(** read(n); skip(p); get_position() *)
Inductive rop := Read (n : nat) | Skip (p : nat) | Tell.
(** data; skip done; position; exception ([true]: SRC_BUG) *)
Inductive rout := OData (d : list N) | ODone | OPos (p : nat) | OExn (bug : bool).
(** why threads are being stopped *)
Inductive cause := Cskip (p : nat) | Ctell | Ceof (got : list N) | Cerr.
(** between two calls; in inherited_read (bytes wanted, bytes read); in purge_ratelier_up_to_non_data (orders still expected, whether it is the second call); waiting for the threads *)
Inductive mmode := Mnext | Mread (n : nat) (got : list N) | Mpurge (e : nat) (second : bool) (c : cause) | Mjoin (c : cause).
(** the thread that reads: not started; in its loop; giving [k] more orders to end, then an exception or not; ended *)
Inductive rmode := Roff | Rrun | Rpush (k : nat) (exn : bool) | Rover (exn : bool).
Record rst := Rs { ops : list rop; mode : mmode; outs : list rout; reof : bool; running : bool;
                   pos : nat; rtype : option N; stop : bool; rm : rmode; kind : bool; hold : option item;
                   heap : nat; pipe : list cell; ws : list wstate; wexn : bool; lus : list (item * flag) }.
(** run() on a worker: the flag [error] is never reset (:943, 960) *)
Definition restart (s : wstate) : wstate := match s with Over true => Failed | Over false => Fine | s => s end.

Inductive step : rst -> rst -> Prop :=
  (* zip_below_read::work, :827-903, inherited_run, :810-825, and push_flag_to_all_workers, :905-913 *)
  | r_data : forall o m u re ru p t k h pi w x l c q, next t p = Edata c q ->
      step (Rs o m u re ru p t false Rrun k None (S h) pi w x l) (Rs o m u re ru q (Some H_DATA) false Rrun k (Some (Blk 0 c)) h pi w x l)
  | r_end : forall o m u re ru p t k h pi w x l q, next t p = Eend q ->
      step (Rs o m u re ru p t false Rrun k None h pi w x l) (Rs o m u re ru q t false (Rpush W false) false None h pi w x l)
  | r_stop : forall o m u re ru p t k h pi w x l,
      step (Rs o m u re ru p t true Rrun k None h pi w x l) (Rs o m u re ru p t true (Rpush W false) false None h pi w x l)
  | r_bad : forall o m u re ru p t k h pi w x l q, next t p = Ebad q ->
      step (Rs o m u re ru p t false Rrun k None h pi w x l) (Rs o m u re ru q t false (Rpush W true) true None h pi w x l)
  | r_short : forall o m u re ru p t k h pi w x l q, next t p = Eshort q ->
      step (Rs o m u re ru p t false Rrun k None h pi w x l) (Rs o m u re ru q t false (Rpush W false) true None h pi w x l)
  | r_send : forall o m u re ru p t s r k y h pi w x l, count is_queued pi < RS W ->
      step (Rs o m u re ru p t s r k (Some y) h pi w x l) (Rs o m u re ru p t s r k None h (pi ++ [Queued y]) w x l)
  | r_order : forall o m u re ru p t s n b k h pi w x l,
      step (Rs o m u re ru p t s (Rpush (S n) b) k None (S h) pi w x l) (Rs o m u re ru p t s (Rpush n b) k (Some Die) h pi w x l)
  | r_over : forall o m u re ru p t s b k h pi w x l,
      step (Rs o m u re ru p t s (Rpush 0 b) k None h pi w x l) (Rs o m u re ru p t s (Rover b) k None h pi w x l)
  (* zip_worker, :948-1066: a worker in error passes the block as it came, without clear data (reset() by the thread that reads, :870) *)
  | w_get : forall o m u re ru p t s r k y h a q w i z x l v, nth_error w i = Some z -> is_over z = false ->
      (forall e, ~ In (Busy i e) (a ++ Queued v :: q)) -> Forall (fun c => is_queued c = false) a ->
      step (Rs o m u re ru p t s r k y h (a ++ Queued v :: q) w x l) (Rs o m u re ru p t s r k y h (a ++ Busy i v :: q) w x l)
  | w_push : forall o m u re ru p t s r k y h a q w i z z' x l v f, nth_error w i = Some z -> treat false unzips v z f z' -> room W a (a ++ Busy i v :: q) ->
      step (Rs o m u re ru p t s r k y h (a ++ Busy i v :: q) w x l)
           (Rs o m u re ru p t s r k y h (a ++ Done v f :: q) (upd i z' w) (match f with FErr => true | _ => x end) l)
  (* inherited_read, :241-313, and run_read_threads, :524-543 *)
  | m_read_eof : forall n o u ru p t s r k y h pi w x l,
      step (Rs (Read n :: o) Mnext u true ru p t s r k y h pi w x l) (Rs o Mnext (u ++ [OData []]) true ru p t s r k y h pi w x l)
  | m_read : forall n o u p t s r k y h pi w x l,
      step (Rs (Read n :: o) Mnext u false true p t s r k y h pi w x l) (Rs o (Mread n []) u false true p t s r k y h pi w x l)
  | m_read_start : forall n o u p t s r k y h pi w x l,
      step (Rs (Read n :: o) Mnext u false false p t s r k y h pi w x l) (Rs o (Mread n []) u false true p None false Rrun k y h pi (map restart w) false l)
  | m_return : forall o n got u re ru p t s r k y h pi w x l, n <= length got ->
      step (Rs o (Mread n got) u re ru p t s r k y h pi w x l) (Rs o Mnext (u ++ [OData got]) re ru p t s r k y h pi w x l)
  | m_gather : forall o m u re ru p t s r k y h ys q w x, ys <> [] -> match m with Mread n got => length got < n | Mpurge _ _ _ => True | _ => False end ->
      step (Rs o m u re ru p t s r k y h (map (fun z => Done (fst z) (snd z)) ys ++ q) w x []) (Rs o m u re ru p t s r k y h q w x ys)
  | m_take : forall o n got u re ru p t s r k y h pi w x i c d l, length got < n -> length d <= n - length got ->
      step (Rs o (Mread n got) u re ru p t s r k y h pi w x ((Blk i c, FOk d) :: l)) (Rs o (Mread n (got ++ d)) u re ru p t s r k y (S h) pi w x l)
  | m_part : forall o n got u re ru p t s r k y h pi w x i c d l, length got < n -> n - length got < length d ->
      step (Rs o (Mread n got) u re ru p t s r k y h pi w x ((Blk i c, FOk d) :: l))
           (Rs o (Mread n (got ++ firstn (n - length got) d)) u re ru p t s r k y h pi w x ((Blk i c, FOk (skipn (n - length got) d)) :: l))
  | m_junk : forall o n got u re ru p t s r k y h pi w x i c l, length got < n ->
      step (Rs o (Mread n got) u re ru p t s r k y h pi w x ((Blk i c, FJunk) :: l)) (Rs o (Mread n got) u re ru p t s r k y (S h) pi w x l)
  | m_eof : forall o n got u re ru p t s r y h pi w x v l, length got < n ->
      step (Rs o (Mread n got) u re ru p t s r false y h pi w x ((v, FDie) :: l)) (Rs o (Mpurge W false (Ceof got)) u true ru p t true r false y h pi w x ((v, FDie) :: l))
  | m_error : forall o n got u re ru p t s r y h pi w x v l, length got < n ->
      step (Rs o (Mread n got) u re ru p t s r true y h pi w x ((v, FDie) :: l)) (Rs o (Mpurge W false Cerr) u re ru p t true r true y h pi w x ((v, FDie) :: l))
  | m_werror : forall o n got u re ru p t s r k y h pi w x v l, length got < n ->
      step (Rs o (Mread n got) u re ru p t s r k y h pi w x ((v, FErr) :: l)) (Rs o (Mpurge W false Cerr) u re ru p t true r k y (S h) pi w x l)
  (* skip, :163-171, get_position, :208-219; stop_read_threads, :434-475 *)
  | m_skip_idle : forall q o u re p t s r k y h pi w x l,
      step (Rs (Skip q :: o) Mnext u re false p t s r k y h pi w x l) (Rs o Mnext (u ++ [ODone]) false false q t s r k y h pi w x l)
  | m_skip : forall q o u re p t s r k y h pi w x l,
      step (Rs (Skip q :: o) Mnext u re true p t s r k y h pi w x l) (Rs o (Mpurge W false (Cskip q)) u re true p t true r k y h pi w x l)
  | m_tell_idle : forall o u re p t s r k y h pi w x l,
      step (Rs (Tell :: o) Mnext u re false p t s r k y h pi w x l) (Rs o Mnext (u ++ [OPos p]) re false p t s r k y h pi w x l)
  | m_tell : forall o u re p t s r k y h pi w x l,
      step (Rs (Tell :: o) Mnext u re true p t s r k y h pi w x l) (Rs o (Mpurge W false Ctell) u re true p t true r k y h pi w x l)
  (* purge_ratelier_up_to_non_data, :566-603 *)
  | p_data : forall o e b c u re ru p t s r k y h pi w x v f l, match f with FOk _ | FJunk => True | _ => False end ->
      step (Rs o (Mpurge e b c) u re ru p t s r k y h pi w x ((v, f) :: l)) (Rs o (Mpurge e b c) u re ru p t s r k y (S h) pi w x l)
  | p_die : forall o e b c u re ru p t s r k y h pi w x v l,
      step (Rs o (Mpurge (S e) b c) u re ru p t s r k y h pi w x ((v, FDie) :: l)) (Rs o (match e with O => Mjoin c | S _ => Mpurge e b c end) u re ru p t s r k y (S h) pi w x l)
  | p_err : forall o e b c u re ru p t s r k y h pi w x v l,
      step (Rs o (Mpurge e b c) u re ru p t s r k y h pi w x ((v, FErr) :: l))
           (Rs o (if e =? W then (if b then Mjoin c else Mpurge W true c) else Mpurge e b c) u re ru p t s r k y (S h) pi w x l)
  (* join *)
  | m_join : forall o c u re ru p t s b k h pi w x l, Forall (fun z => is_over z = true) w ->
      step (Rs o (Mjoin c) u re ru p t s (Rover b) k None h pi w x l)
           (Rs o Mnext (u ++ [if b || x then OExn false else match c with Cskip _ => ODone | Ctell => OPos p | Ceof got => OData got | Cerr => OExn true end])
               (match c with Cskip _ => if b || x then re else false | _ => re end) false (match c with Cskip q => if b || x then p else q | _ => p end) t s Roff k None h pi w false l).
Inductive steps : rst -> rst -> Prop :=
  | steps_refl : forall s, steps s s
  | steps_next : forall s t u, step s t -> steps t u -> steps s u.
(** an object just made, the file below being at position [p], and what the client will do; the pool (:605-614) *)
Definition start (p : nat) (l : list rop) : rst := Rs l Mnext [] false false p None false Roff false None (HS W) [] (repeat (Over false) W) false [].
(** the client has done all it had to do *)
Definition served (s : rst) : Prop := ops s = [] /\ mode s = Mnext.
End Unzip.
