(** * Model of the parallel ciphering and compression when writing: parallel_tronconneuse.cpp and parallel_block_compressor.cpp.

    The objects taken from libthreadar (not part of the repository) are modelled by their documented behaviour: ratelier_scatter holds at most [R] elements
    and gives them to the workers in the order they came; ratelier_gather holds at most [R] elements, the last free place being kept for the element that
    is the next to leave, and gives them back in that same order, several at once; a thread blocks when no place (or no element) is available. The elements that lie
    between the two ends are modelled as one list, the oldest first. Their numbers (unsigned int, wrapping) are left implicit. The initial barrier
    of parallel_tronconneuse is left out: all threads are started. Cancellation of threads is left out. *)
From Verif Require Import Base.
From Coq Require Import Bool PeanoNat.
Open Scope nat_scope.

(** a block and its number; or the order to end given to a worker (tronco_flags::die, compressor_block_flags::eof_die) *)
Inductive item := Blk (i : N) (b : list N) | Die.
(** what a worker made of an item: transformed data, an error report (tronco_flags::data_error or exception_worker, compressor_block_flags::worker_error),
    a block left as it came (worker already in error), the order to end passed on *)
Inductive flag := FOk (y : list N) | FErr | FJunk | FDie.
(** an element between the two rateliers: in the scatter, held by worker [w], in the gather, or lost *)
Inductive cell := Queued (x : item) | Busy (w : nat) (x : item) | Done (x : item) (f : flag) | Lost (x : item).
Definition is_queued (c : cell) : bool := match c with Queued _ => true | _ => false end.
Definition is_busy (c : cell) : bool := match c with Busy _ _ => true | _ => false end.
Definition is_done (c : cell) : bool := match c with Done _ _ => true | _ => false end.
Definition count (P : cell -> bool) (p : list cell) : nat := length (filter P p).

(** outcome of the treatment of a block: data; exception Erange; another exception *)
Inductive wres := WOk (y : list N) | WRange | WExn.
(** a worker: fine; must report its exception; in error; ended ([true]: with an exception) *)
Inductive wstate := Fine | Inform | Failed | Over (raised : bool).
Definition is_over (s : wstate) : bool := match s with Over _ => true | _ => false end.

(** ** writing *)
(** the main thread: blocks to come, orders to end to come, the segment at hand; the pool of segments; the elements under way; the workers; the thread that writes: the
    elements it took, its error flag (seen by the main thread), whether an exception occurred in it, the workers not known as ended, whether it ended; the bytes written *)
Record st := St { todo : list (N * list N); dies : nat; hold : option item; heap : nat; pipe : list cell; ws : list wstate;
                  ones : list (item * flag); err : bool; raised : bool; left_w : nat; ended : bool; below : list N }.
Fixpoint upd (n : nat) (s : wstate) (l : list wstate) : list wstate :=
  match n, l with O, _ :: r => s :: r | S n, x :: r => x :: upd n s r | _, [] => [] end.

Section Write.
(** number of workers; [lossy]: what a worker does of an exception (true: parallel_tronconneuse.cpp:1740-1764, 1775-1821, the element at hand is given up; false:
    parallel_block_compressor.cpp:882-1000, it is passed on as an error); possible outcomes of the treatment of a block; last bytes written (block_compressor eof mark) *)
Variable W : nat.
Variable lossy : bool.
Variable tr : N -> list N -> wres -> Prop.
Variable tail : list N.
(** get_ratelier_size, parallel_tronconneuse.hpp:308, parallel_block_compressor.hpp *)
Definition RS : nat := W + W / 2.
(** get_heap_size, parallel_tronconneuse.cpp:1277-1286, parallel_block_compressor.cpp:604-613 *)
Definition HS : nat := RS * 2 + W + 1 + RS + 2.

(** room in the gather for the element that follows [a] *)
Definition room (a p : list cell) : Prop :=
  count is_done p < RS /\ (count is_done p + 1 = RS -> a = [] \/ match p with c :: _ => is_done c = true | [] => False end).
(** worker [w] passes on [x] *)
Inductive treat : item -> wstate -> flag -> wstate -> Prop :=
  | t_ok : forall i b y, tr i b (WOk y) -> treat (Blk i b) Fine (FOk y) Fine
  | t_range : forall i b, lossy = true -> tr i b WRange -> treat (Blk i b) Fine FErr Fine
  | t_exn : forall i b, lossy = false -> tr i b WRange \/ tr i b WExn -> treat (Blk i b) Fine FErr Failed
  | t_inform : forall i b, treat (Blk i b) Inform FErr Failed
  | t_failed : forall i b, treat (Blk i b) Failed FJunk Failed
  | t_die : forall s, is_over s = false -> treat Die s FDie (Over (match s with Fine => false | _ => true end)).

Inductive step : st -> st -> Prop :=
  (* main thread: parallel_tronconneuse.cpp:548-604 (inherited_write), 606-613 (sync_write), 704-737 (send_write_order); parallel_block_compressor.cpp:295-339, 352-365, 384-396 *)
  | s_take : forall i b td d h p w o e r l en be,
      step (St ((i, b) :: td) d None (S h) p w o e r l en be) (St td d (Some (Blk i b)) h p w o e r l en be)
  | s_take_die : forall d h p w o e r l en be,
      step (St [] (S d) None (S h) p w o e r l en be) (St [] d (Some Die) h p w o e r l en be)
  | s_scatter : forall td d x h p w o e r l en be, count is_queued p < RS ->
      step (St td d (Some x) h p w o e r l en be) (St td d None h (p ++ [Queued x]) w o e r l en be)
  (* exception_pending() seen: what remains is not written *)
  | s_abandon : forall td d x h p w o r l en be, td <> [] ->
      step (St td d x h p w o true r l en be) (St [] d x h p w o true r l en be)
  (* workers: parallel_tronconneuse.cpp:1766-1857, parallel_block_compressor.cpp:926-1000 *)
  | s_get : forall td d x h a q y w k s o e r l en be, nth_error w k = Some s -> is_over s = false ->
      (forall z, ~ In (Busy k z) (a ++ Queued y :: q)) -> Forall (fun c => is_queued c = false) a ->
      step (St td d x h (a ++ Queued y :: q) w o e r l en be) (St td d x h (a ++ Busy k y :: q) w o e r l en be)
  | s_push : forall td d x h a q y f w k s s' o e r l en be, nth_error w k = Some s -> treat y s f s' -> room a (a ++ Busy k y :: q) ->
      step (St td d x h (a ++ Busy k y :: q) w o e r l en be) (St td d x h (a ++ Done y f :: q) (upd k s' w) o e r l en be)
  | s_lose : forall td d x h a q i b w k o e r l en be, lossy = true -> nth_error w k = Some Fine -> tr i b WExn ->
      step (St td d x h (a ++ Busy k (Blk i b) :: q) w o e r l en be) (St td d x h (a ++ Lost (Blk i b) :: q) (upd k Inform w) o e r l en be)
  (* thread that writes: parallel_tronconneuse.cpp:1589-1716, parallel_block_compressor.cpp:670-754 *)
  | s_gather : forall td d x h ys q w e r l be, ys <> [] ->
      step (St td d x h (map (fun z => Done (fst z) (snd z)) ys ++ q) w [] e r l false be) (St td d x h q w ys e r l false be)
  | s_write : forall td d x h p w i b y o r l be,
      step (St td d x h p w ((Blk i b, FOk y) :: o) false r l false be) (St td d x (S h) p w o false r l false (be ++ y))
  | s_write_fails : forall td d x h p w i b y part rest o r l be, y = part ++ rest ->
      step (St td d x h p w ((Blk i b, FOk y) :: o) false r l false be) (St td d x h p w ((Blk i b, FOk y) :: o) true true l false (be ++ part))
  | s_write_junk : forall td d x h p w i b o r l be,
      step (St td d x h p w ((Blk i b, FJunk) :: o) false r l false be) (St td d x (S h) p w o false r l false be)
  | s_ignore : forall td d x h p w i b f o r l be, match f with FOk _ | FJunk => True | _ => False end ->
      step (St td d x h p w ((Blk i b, f) :: o) true r l false be) (St td d x (S h) p w o true r l false be)
  | s_error : forall td d x h p w i b o e r l be,
      step (St td d x h p w ((Blk i b, FErr) :: o) e r l false be) (St td d x (S h) p w o true r l false be)
  | s_die : forall td d x h p w o e r l be,
      step (St td d x h p w ((Die, FDie) :: o) e r (S (S l)) false be) (St td d x (S h) p w o e r (S l) false be)
  | s_end : forall td d x h p w o e r be,
      step (St td d x h p w ((Die, FDie) :: o) e r 1 false be) (St td d x (S h) p w o e r 0 true (be ++ tail))
  (* the last write fails: the exception is ignored if another one occurred before, else the thread goes back to waiting for elements (parallel_block_compressor.cpp:646-667, 672-684) *)
  | s_end_fails : forall td d x h p w o e r part rest be, tail = part ++ rest -> rest <> [] ->
      step (St td d x h p w ((Die, FDie) :: o) e r 1 false be) (St td d x (S h) p w o true true 0 r (be ++ part)).

Inductive steps : st -> st -> Prop :=
  | steps_refl : forall s, steps s s
  | steps_next : forall s t u, step s t -> steps t u -> steps s u.
(** threads just started with [blocks] to write *)
Definition start (blocks : list (N * list N)) : st := St blocks W None HS [] (repeat Fine W) [] false false W false [].
(** the main thread has given all its orders and joined the others (parallel_tronconneuse.cpp:1245-1275, parallel_block_compressor.cpp:487-505) *)
Definition finished (s : st) : Prop := todo s = [] /\ dies s = 0 /\ hold s = None /\ ended s = true /\ Forall (fun w => is_over w = true) (ws s).
(** the exception thrown to the user by join() *)
Definition reported (s : st) : Prop := raised s = true \/ In (Over true) (ws s).
End Write.

(** ** how the main thread cuts what it is given into blocks *)
(** inherited_write, parallel_tronconneuse.cpp:548-604 (without exception pending), parallel_block_compressor.cpp:295-339: [cur] is the segment being filled with its number,
    [num] the next number; result: the segments given to the scatter, the segment being filled, the next number *)
Definition writing := (list (N * list N) * option (N * list N) * N)%type.
Fixpoint put_loop (fuel bs : nat) (a : list N) (s : writing) : writing :=
  match fuel, a with
  | S k, _ :: _ =>
    let '(out, cur, num) := s in
    let '(i, c, num1) := match cur with Some (i, c) => (i, c, num) | None => (num, [], (num + 1)%N) end in
    let n := if bs <? length a + length c then bs - length c else length a in
    let c1 := c ++ firstn n a in
    put_loop k bs (skipn n a) (if length c1 =? bs then (out ++ [(i, c1)], None, num1) else (out, Some (i, c1), num1))
  | _, _ => s
  end.
Definition put (bs : nat) (a : list N) (s : writing) : writing := put_loop (length a) bs a s.
(** inherited_sync_write, parallel_tronconneuse.cpp:606-613, parallel_block_compressor.cpp:352-365 *)
Definition put_sync (s : writing) : writing := let '(out, cur, num) := s in match cur with Some x => (out ++ [x], None, num) | None => s end.
(** writes then termination (parallel_tronconneuse.cpp:627-651; parallel_block_compressor.cpp:385-402) *)
Definition handed (bs : nat) (writes : list (list N)) : list (N * list N) :=
  fst (fst (put_sync (fold_left (fun s a => put bs a s) writes ([], None, 0%N)))).
