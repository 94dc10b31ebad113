(** * DarCpModel: dar_cp, copying a file in spite of read errors

    Models src/dar_suite/dar_cp.cpp: copy_max, normal_copy, xfer_before_error and
    skip_to_next_readable.

    The source is a list of bytes; [rd p n] is the answer of read(2) at offset [p] for [n]
    bytes: [None] for an error (which leaves the offset where it was), [Some k] for [k]
    bytes.  The answers of write(2) are a list ([None]: error; [Some k]: at most k bytes
    taken); when the list is exhausted writes are complete.
    Simplifications: the same read gives the same answer when it is done again; offsets are
    unbounded, lseek(2) never fails; cancellation and messages are left out. *)
From Coq Require Import List.
From Verif Require Import Base.
Local Open Scope nat_scope.

Section dar_cp.
Variable src : list N.
Variable rd : nat -> nat -> option nat.

(** The bytes a successful read puts in the buffer. *)
Definition bytes_at (p k : nat) : list N := firstn k (skipn p src).

(** write(2) at offset [dp] of a file holding [d]: a hole is full of zeros. *)
Definition put (d : list N) (dp : nat) (b : list N) : list N :=
  firstn dp (d ++ repeat 0%N dp) ++ b ++ skipn (dp + length b) d.

(** The destination: contents, offset, and the answers to come. *)
Record dest := { data : list N; pos : nat; answers : list (option nat) }.

(** One call of write(2): the number of bytes taken, or an error. *)
Definition write1 (t : dest) (b : list N) : dest * option nat :=
  match answers t with
  | [] => ({| data := put (data t) (pos t) b; pos := pos t + length b; answers := [] |}, Some (length b))
  | None :: r => ({| data := data t; pos := pos t; answers := r |}, None)
  | Some k :: r =>
    let b := firstn k b in
    ({| data := match b with [] => data t | _ => put (data t) (pos t) b end; pos := pos t + length b; answers := r |}, Some (length b))
  end.

(** normal_copy, dar_cp.cpp:362-382, the writing loop. *)
Fixpoint write_all (fuel : nat) (t : dest) (b : list N) : dest * bool :=
  match b with
  | [] => (t, true)
  | _ =>
    match fuel with
    | O => (t, false)
    | S fuel' =>
      match write1 t b with
      | (t', None) => (t', false)
      | (t', Some k) => write_all fuel' t' (skipn k b)
      end
    end
  end.

(** xfer_before_error, :277-299, the loop; a byte count different from the one asked is not
    looked at. *)
Fixpoint xfer_loop (fuel block p : nat) (t : dest) : res (nat * dest) :=
  match fuel with
  | O => Ok (p, t)
  | S fuel' =>
    if 1 <? block then
      match rd p block with
      | Some (S k) =>
        match write1 t (bytes_at p (S k)) with
        | (_, None) => Err Erange
        | (t', Some _) => xfer_loop fuel' block (p + S k) t'
        end
      | _ => xfer_loop fuel' (block / 2) p t
      end
    else Ok (p, t)
  end.

Definition xfer_before_error (block p : nat) (t : dest) : res (nat * dest) :=
  match rd p 1 with
  | Some 1 => xfer_loop (S (length src + block)) block p t
  | _ => Ok (p, t)
  end.

(** skip_to_next_readable, first step, :310-330; returns max. block is an int doubled
    unless this would overflow. *)
Fixpoint probe (fuel : nat) (block : N) (q : nat) : nat :=
  match fuel with
  | O => q
  | S fuel' =>
    match rd q 1 with
    | Some k => q + k
    | None =>
      let block' := if (block <? 1073741824)%N then (block * 2)%N else block in
      probe fuel' block' (q + N.to_nat block')
    end
  end.

(** Second step, :332-356. *)
Fixpoint bisect (fuel mn mx : nat) : nat :=
  match fuel with
  | O => mx
  | S fuel' =>
    if 1 <? mx - mn then
      let mid := (mx + mn) / 2 in
      match rd mid 1 with
      | Some _ => bisect fuel' mn mid
      | None => bisect fuel' mid mx
      end
    else mx
  end.

(** :358-375: whether valid data was found, and where; both files are put there. *)
Definition skip_to_next_readable (block : N) (p : nat) : bool * nat :=
  let mx := probe (S (length src)) block p in
  let mx := bisect (mx - p) p mx in
  (match rd mx 1 with Some 1 => true | _ => false end, mx).

(** copy_max, :209-275; [wfuel] bounds the calls of write for one buffer (a write that takes
    nothing is retried for ever). *)
Fixpoint copy_loop (fuel wfuel p : nat) (t : dest) (missed : nat) : res (dest * nat) :=
  match fuel with
  | O => Err Ebug
  | S fuel' =>
    match rd p 1024 with
    | Some O => Ok (t, missed)
    | Some (S k) =>
      match write_all wfuel t (bytes_at p (S k)) with
      | (t', true) => copy_loop fuel' wfuel (p + S k) t' missed
      | (_, false) => Err Erange
      end
    | None =>
      let* '(p1, t1) := xfer_before_error 512 p t in
      match skip_to_next_readable 512 p1 with
      | (true, mx) => copy_loop fuel' wfuel mx {| data := data t1; pos := mx; answers := answers t1 |} (missed + (mx - p1))
      | (false, mx) => Ok ({| data := data t1; pos := mx; answers := answers t1 |}, missed + (length src - p))
      end
    end
  end.

(** The whole of it on a destination holding [d0] (empty unless -f is given, in which case
    the file is opened without being truncated, :192): final contents and number of missing
    bytes, the exit code being EXIT_OK if this is zero. *)
Definition dar_cp (wfuel : nat) (d0 : list N) (ws : list (option nat)) : res (list N * nat) :=
  let* '(t, missed) := copy_loop (S (length src)) wfuel 0 {| data := d0; pos := 0; answers := ws |} 0 in
  Ok (data t, missed).
End dar_cp.
