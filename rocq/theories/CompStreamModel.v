(** * CompStreamModel: streamed compression with gzip, bzip2 and xz

    Models src/libdar/compressor.cpp and compressor.hpp: inherited_write, inherited_sync_write,
    inherited_read, inherited_flush_read, suspend_compression, resume_compression, skip and
    get_position, for an algorithm other than none.

    The compression library (wrapperlib) is a machine: at each call it is given the input
    offered, what to do and the room for output; it tells how many bytes it took, what it gave and
    a status. Simplifications: the file below gives as many bytes as asked unless at its end and
    writing to it does not fail; end of compression and memory errors are not modelled. *)
From Coq Require Import List.
From Verif Require Import Base.
Local Open Scope nat_scope.

(** compressor.cpp:32-38 *)
Definition BUFFER_SIZE : nat := 1024 * 100.

(** wrapperlib.hpp:58-66 *)
Inductive status := WR_OK | WR_STREAM_END | WR_BUF_ERROR | WR_DATA_ERROR | WR_OTHER.
Record engine := {
  cstate : Type;
  cstart : cstate;
  compress : cstate -> list N -> bool -> nat -> cstate * nat * list N * status; (* true: WR_FINISH *)
  dstate : Type;
  dstart : dstate;
  decompress : dstate -> list N -> nat -> dstate * nat * list N * status
}.
Definition is_nil (l : list N) : bool := match l with [] => true | _ => false end.

Section compressor.
Variable E : engine.

(** ** Writing. [total_in]: of the engine; [out]: what was written below. *)
Record wobj := { comp : cstate E; total_in : nat; wsuspended : bool; out : list N }.
(** constructor, compressor.cpp:45-137 *)
Definition wfresh : wobj := {| comp := cstart E; total_in := 0; wsuspended := false; out := [] |}.

(** inherited_write, compressor.cpp:322-356 *)
Fixpoint write_loop (fuel : nat) (o : wobj) (avail : list N) : res wobj :=
  match avail with
  | [] => Ok o
  | _ =>
    match fuel with
    | O => Err Ebug
    | S fuel' =>
      match compress E (comp o) avail false BUFFER_SIZE with
      | (s, c, b, WR_OK) | (s, c, b, WR_STREAM_END) =>
        write_loop fuel' {| comp := s; total_in := total_in o + c; wsuspended := wsuspended o; out := out o ++ b |} (skipn c avail)
      | _ => Err Ebug
      end
    end
  end.
(** inherited_write, compressor.cpp:304-358 *)
Definition write (fuel : nat) (o : wobj) (a : list N) : res wobj :=
  match a with
  | [] => Ok o
  | _ => if wsuspended o then Ok {| comp := comp o; total_in := total_in o; wsuspended := true; out := out o ++ a |}
         else write_loop fuel o a
  end.
(** inherited_sync_write, compressor.cpp:360-401 *)
Fixpoint finish_loop (fuel : nat) (o : wobj) : res wobj :=
  match fuel with
  | O => Err Ebug
  | S fuel' =>
    match compress E (comp o) [] true BUFFER_SIZE with
    | (s, _, b, WR_OK) => finish_loop fuel' {| comp := s; total_in := total_in o; wsuspended := wsuspended o; out := out o ++ b |}
    | (s, _, b, WR_STREAM_END) => Ok {| comp := s; total_in := total_in o; wsuspended := wsuspended o; out := out o ++ b |}
    | _ => Err Ebug
    end
  end.
Definition sync_write (fuel : nat) (o : wobj) : res wobj :=
  if total_in o =? 0 then Ok o
  else let* o' := finish_loop fuel o in Ok {| comp := cstart E; total_in := 0; wsuspended := wsuspended o'; out := out o' |}.
(** suspend_compression, resume_compression, compressor.cpp:162-176 *)
Definition suspend (fuel : nat) (o : wobj) : res wobj :=
  if wsuspended o then Ok o
  else let* o' := sync_write fuel o in Ok {| comp := comp o'; total_in := total_in o'; wsuspended := true; out := out o' |}.
Definition resume (o : wobj) : wobj := {| comp := comp o; total_in := total_in o; wsuspended := false; out := out o |}.
(** get_position, compressor.hpp:76 *)
Definition wposition (o : wobj) : res nat := if total_in o =? 0 then Ok (length (out o)) else Err Ebug.

Inductive wop := Write (a : list N) | Sync | Suspend | Resume.
Definition wstep (fuel : nat) (o : wobj) (p : wop) : res wobj :=
  match p with Write a => write fuel o a | Sync => sync_write fuel o | Suspend => suspend fuel o | Resume => Ok (resume o) end.
Fixpoint wrun (fuel : nat) (o : wobj) (l : list wop) : res wobj :=
  match l with [] => Ok o | p :: r => let* o' := wstep fuel o p in wrun fuel o' r end.

(** ** Reading. [avail]: what remains of the buffer; [file], [pos]: the file below. *)
Record robj := { decomp : dstate E; avail : list N; file : list N; pos : nat; rsuspended : bool }.
(** constructor, compressor.cpp:45-137 *)
Definition ropen (f : list N) : robj := {| decomp := dstart E; avail := []; file := f; pos := 0; rsuspended := false |}.

(** feeding the input buffer, compressor.cpp:251-268: the new object and mem_avail_out *)
Definition feed (o : robj) (room mem : nat) : robj * nat :=
  match avail o with
  | [] => let got := firstn BUFFER_SIZE (skipn (pos o) (file o)) in
          ({| decomp := decomp o; avail := got; file := file o; pos := pos o + length got; rsuspended := rsuspended o |}, if is_nil got then room else 0)
  | _ => (o, mem)
  end.
(** the loop, compressor.cpp:249-299; [nomore]: processing is no_more_input *)
Fixpoint read_loop (fuel : nat) (o : robj) (room mem : nat) (nomore : bool) (acc : list N) : res (robj * list N) :=
  match fuel with
  | O => Err Ebug
  | S fuel' =>
    let '(o1, mem1) := feed o room mem in
    let nomore1 := nomore || is_nil (avail o1) in
    let '(s, c, b, r) := decompress E (decomp o1) (avail o1) room in
    let o2 := {| decomp := s; avail := skipn c (avail o1); file := file o1; pos := pos o1; rsuspended := rsuspended o1 |} in
    let room' := room - length b in
    let eof := (mem1 =? room') && nomore1 in
    let* ended := match r with
                  | WR_OK => Ok false
                  | WR_STREAM_END => Ok true
                  | WR_DATA_ERROR => Err Erange
                  | WR_BUF_ERROR => if is_nil (avail o2) then Ok true else Err Ebug
                  | WR_OTHER => Err Ebug
                  end in
    if negb (room' =? mem1) && negb ended && negb eof then read_loop fuel' o2 room' mem1 nomore1 (acc ++ b)
    else Ok (o2, acc ++ b)
  end.
(** inherited_read, compressor.cpp:230-302 *)
Definition read (fuel : nat) (o : robj) (size : nat) : res (robj * list N) :=
  if size =? 0 then Ok (o, [])
  else if rsuspended o then
    let got := firstn size (skipn (pos o) (file o)) in
    Ok ({| decomp := decomp o; avail := avail o; file := file o; pos := pos o + length got; rsuspended := true |}, got)
  else read_loop fuel o size 0 false [].
(** inherited_flush_read, compressor.cpp:403-416 *)
Definition flush_read (o : robj) : robj := {| decomp := dstart E; avail := []; file := file o; pos := pos o; rsuspended := rsuspended o |}.
(** skip, compressor.hpp:72 *)
Definition skip (o : robj) (p : nat) : robj :=
  let o' := flush_read o in {| decomp := decomp o'; avail := avail o'; file := file o'; pos := Nat.min p (length (file o')); rsuspended := rsuspended o' |}.
(** suspend_compression, resume_compression, compressor.cpp:162-176, in read mode *)
Definition rsuspend (o : robj) : robj :=
  if rsuspended o then o else let o' := flush_read o in {| decomp := decomp o'; avail := avail o'; file := file o'; pos := pos o'; rsuspended := true |}.
Definition rresume (o : robj) : robj := {| decomp := decomp o; avail := avail o; file := file o; pos := pos o; rsuspended := false |}.

Inductive rop := Read (n : nat) | Skip (p : nat) | RSuspend | RResume.
Definition rstep (fuel : nat) (o : robj) (p : rop) : res (robj * list N) :=
  match p with Read n => read fuel o n | Skip p => Ok (skip o p, []) | RSuspend => Ok (rsuspend o, []) | RResume => Ok (rresume o, []) end.
Fixpoint rrun (fuel : nat) (o : robj) (l : list rop) : res (robj * list (list N)) :=
  match l with
  | [] => Ok (o, [])
  | p :: r => let* '(o1, x) := rstep fuel o p in let* '(o2, y) := rrun fuel o1 r in Ok (o2, x :: y)
  end.
End compressor.
