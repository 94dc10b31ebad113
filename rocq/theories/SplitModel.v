(** * SplitModel: dar_split, carrying a stream over several media

    Models src/dar_suite/dar_split.c: normal_read_to_multiple_write (split_output mode) and
    multi_read_to_normal_write (split_input mode).

    The system is a list of answers to the read calls and a list of answers to the write
    calls; when a list is exhausted the program is seen waiting inside the call
    ([Pending]): theorems about all lists thus speak of every moment of a run.
    Simplifications: opening the file name again gives a fresh medium in split_output mode (a
    new tape; open_write retries until it succeeds) and the next medium in split_input mode
    (open_read's result is dropped at :488, but open(2) gives the lowest free number, the one
    just closed); the rate limitation, signals and messages are left out. *)
From Coq Require Import List.
From Verif Require Import Base.
Local Open Scope nat_scope.

(** read(2): some bytes (at least one, at most the size asked, which the model enforces), a
    call to restart (EAGAIN, EINTR), or another error. *)
Inductive rans := RGot (k : nat) | RAgain | RFail.
(** write(2): bytes taken, a call to restart, no space left, or another error. *)
Inductive wans := WTook (k : nat) | WAgain | WNospc | WFail.

Inductive status := Finished | Failed | Pending.

(** #define BUFSIZE, dar_split.c:84 (SSIZE_MAX is larger) *)
Definition BUFSIZE : nat := 1024 * 100.

(** bufsize, :358 and :462 *)
Definition bufsize (bs : nat) : nat := if bs =? 0 then BUFSIZE else bs.

(** ** split_output, :356-456 *)

(** [old] are the media already filled and taken away, [cur] the one in use; [calls] is the
    record of the write calls so far: bytes already on the medium, size asked, answer. *)
Record media := { old : list (list N); cur : list N; calls : list (nat * nat * wans) }.
Definition call (m : media) (step : nat) (w : wans) : list (nat * nat * wans) := calls m ++ [(length (cur m), step, w)].

(** The do-while loop, :399-446; [data] is what remains of the buffer. *)
Fixpoint out_write (ws : list wans) (data : list N) (step : nat) (m : media) : list wans * list N * media :=
  match data with
  | [] => (ws, [], m)
  | _ =>
    match ws with
    | [] => ([], data, m)
    | WAgain :: ws' => out_write ws' data step {| old := old m; cur := cur m; calls := call m step WAgain |}
    | WFail :: ws' => out_write ws' data step {| old := old m; cur := cur m; calls := call m step WFail |}
    | WNospc :: ws' =>
      if 1 <? step then out_write ws' data (step / 2) {| old := old m; cur := cur m; calls := call m step WNospc |}
      else out_write ws' data (length data) {| old := old m ++ [cur m]; cur := []; calls := call m step WNospc |}
    | WTook k :: ws' =>
      let k := min k step in
      let data' := skipn k data in
      out_write ws' data' (if length data' <? step then length data' else step)
        {| old := old m; cur := cur m ++ firstn k data; calls := call m step (WTook k) |}
    end
  end.

(** The while loop, :379-449; [inp] is what remains on standard input. Also returned: what
    was read but not yet written. *)
Fixpoint out_loop (rs : list rans) (ws : list wans) (bs : nat) (inp : list N) (m : media) : status * media * list N * list N :=
  match rs with
  | [] => (Pending, m, [], inp)
  | RAgain :: rs' => out_loop rs' ws bs inp m
  | RFail :: _ => (Failed, m, [], inp)
  | RGot k :: rs' =>
    match inp with
    | [] => (Finished, m, [], [])
    | _ =>
      let n := max 1 (min k (bufsize bs)) in
      let data := firstn n inp in
      let '(ws', lft, m') := out_write ws data (length data) m in
      match lft with
      | [] => out_loop rs' ws' bs (skipn n inp) m'
      | _ => (Pending, m', lft, skipn n inp)
      end
    end
  end.

Definition split_output (rs : list rans) (ws : list wans) (bs : nat) (inp : list N) : status * media * list N * list N :=
  out_loop rs ws bs inp {| old := []; cur := []; calls := [] |}.

(** ** split_input, :459-549 *)

(** The do-while loop, :508-539, on standard output; [None] when it stopped on an error. *)
Fixpoint in_write (ws : list wans) (data : list N) (out : list N) : list wans * list N * list N * bool :=
  match data with
  | [] => (ws, [], out, false)
  | _ =>
    match ws with
    | [] => ([], data, out, false)
    | WAgain :: ws' => in_write ws' data out
    | WNospc :: ws' | WFail :: ws' => (ws', data, out, true)
    | WTook k :: ws' => in_write ws' (skipn k data) (out ++ firstn k data)
    end
  end.

(** The while loop, :476-543; [tape] is what remains on the medium in use, [tapes] the
    following ones. A reading error other than EAGAIN and EINTR waits for the user, then
    tries again.  The buffer has BUFSIZE bytes (:463) while up to bufsize are read. *)
Fixpoint in_loop (rs : list rans) (ws : list wans) (bs count iter : nat) (tape : list N) (tapes : list (list N)) (out : list N)
  : res (status * list N * list N) :=
  match rs with
  | [] => Ok (Pending, out, [])
  | RAgain :: rs' | RFail :: rs' => in_loop rs' ws bs count iter tape tapes out
  | RGot k :: rs' =>
    match tape with
    | [] =>
      if (count =? 0) || (S iter <? count) then
        match tapes with
        | [] => Ok (Pending, out, [])
        | t :: tapes' => in_loop rs' ws bs count (S iter) t tapes' out
        end
      else Ok (Finished, out, [])
    | _ =>
      let n := min (max 1 (min k (bufsize bs))) (length tape) in
      if BUFSIZE <? n then Err UB
      else
        let '(ws', lft, out', failed) := in_write ws (firstn n tape) out in
        match lft with
        | [] => in_loop rs' ws' bs count iter (skipn n tape) tapes out'
        | _ => Ok (if failed then Failed else Pending, out', lft)
        end
    end
  end.

Definition split_input (rs : list rans) (ws : list wans) (bs count : nat) (tapes : list (list N)) : res (status * list N * list N) :=
  match tapes with
  | [] => Ok (Pending, [], [])
  | t :: r => in_loop rs ws bs count 0 t r []
  end.
