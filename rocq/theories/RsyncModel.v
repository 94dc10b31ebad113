(** * RsyncModel: binary delta, reading through librsync

    Models src/libdar/generic_rsync.cpp: inherited_read in the three modes (signature,
    delta, patch), inherited_terminate, step_forward and send_eof.

    librsync is a machine: [iter] is rs_job_iter: given the input offered, whether it is the
    end of it, and the room for output, it tells how many bytes it took, what it gave, and
    RS_DONE, RS_BLOCKED or an error.  Simplifications: the files below give as many bytes as
    asked unless at their end; loading a signature and the callback giving access to the
    file to patch are part of the machine. *)
From Coq Require Import List.
From Verif Require Import Base.
Local Open Scope nat_scope.

(** generic_rsync.cpp:41 *)
Definition BUFFER_SIZE : nat := 1024 * 100.

Inductive outcome := RS_DONE | RS_BLOCKED | RS_FAIL.
Record machine := {
  state : Type;
  start : state;
  iter : state -> list N -> bool -> nat -> state * nat * list N * outcome
}.

Definition is_nil (l : list N) : bool := match l with [] => true | _ => false end.

Section rsync.
Variable M : machine.

(** step_forward, :462-504: new state, input not taken, output, and whether it is finished. *)
Definition step_forward (s : state M) (inp : list N) (room : nat) : res (state M * list N * list N * bool) :=
  match iter M s inp (is_nil inp) room with
  | (s', c, out, RS_DONE) => Ok (s', skipn c inp, out, true)
  | (s', c, out, RS_BLOCKED) => Ok (s', skipn c inp, out, false)
  | (_, _, _, RS_FAIL) => Err Erange
  end.

(** The object: [below] is what remains to be read of x_below, [wb] the contents of
    working_buffer, [store] what was written to x_output, [summed] what data_crc was fed with. *)
Record obj := { job : state M; wb : list N; below : list N; store : list N; summed : list N; completed : bool }.

Definition fresh (data : list N) : obj := {| job := start M; wb := []; below := data; store := []; summed := []; completed := false |}.

(** ** Signature mode, :296-317: [remain] is what remains of the data read. *)
Fixpoint sign_loop (fuel : nat) (o : obj) (remain : list N) : res obj :=
  match fuel with
  | O => Err Ebug
  | S fuel' =>
    let* '(s, rest, out, _) := step_forward (job o) remain (BUFFER_SIZE - length (wb o)) in
    let w := wb o ++ out in
    let o' := if negb (is_nil w) && is_nil out
              then {| job := s; wb := []; below := below o; store := store o ++ w; summed := summed o; completed := completed o |}
              else {| job := s; wb := w; below := below o; store := store o; summed := summed o; completed := completed o |} in
    if is_nil rest then Ok o' else sign_loop fuel' o' rest
  end.

Definition sign_read (fuel : nat) (o : obj) (size : nat) : res (obj * list N) :=
  let lu := firstn size (below o) in
  let o1 := {| job := job o; wb := wb o; below := skipn size (below o); store := store o; summed := summed o; completed := completed o |} in
  let* o2 := sign_loop fuel o1 lu in
  Ok (o2, lu).

(** send_eof, :519-541 *)
Fixpoint eof_loop (fuel : nat) (o : obj) : res obj :=
  match fuel with
  | O => Err Ebug
  | S fuel' =>
    let* '(s, rest, out, finished) := step_forward (job o) [] BUFFER_SIZE in
    let o' := {| job := s; wb := out; below := below o; store := store o ++ out; summed := summed o; completed := completed o |} in
    if negb (is_nil out) && negb finished then eof_loop fuel' o' else Ok o'
  end.
Definition send_eof (fuel : nat) (o : obj) : res obj :=
  eof_loop fuel {| job := job o; wb := wb o; below := below o; store := store o ++ wb o; summed := summed o; completed := completed o |}.

(** ** Filling the working buffer, :319-335 and :350-360 *)
Definition fill (o : obj) : obj :=
  let got := firstn (BUFFER_SIZE - length (wb o)) (below o) in
  {| job := job o; wb := wb o ++ got; below := skipn (BUFFER_SIZE - length (wb o)) (below o); store := store o;
     summed := summed o ++ got; completed := completed o |}.
Definition empty_wb (o : obj) : obj :=
  {| job := job o; wb := []; below := below o; store := store o; summed := summed o; completed := completed o |}.

(** ** Delta mode, :318-345 *)
Fixpoint delta_loop (fuel size : nat) (eof : bool) (o : obj) (acc : list N) : res (obj * list N) :=
  match fuel with
  | O => Err Ebug
  | S fuel' =>
    let o1 := if eof then empty_wb o else fill o in
    let eof' := if eof then true else is_nil (wb o1) in
    let* '(s, rest, out, _) := step_forward (job o1) (wb o1) (size - length acc) in
    let o2 := {| job := s; wb := rest; below := below o1; store := store o1; summed := summed o1; completed := completed o1 |} in
    let acc' := acc ++ out in
    if (length acc' <? size) && (negb eof' || negb (is_nil out)) then delta_loop fuel' size eof' o2 acc'
    else Ok (o2, acc')
  end.
Definition delta_read (fuel : nat) (o : obj) (size : nat) : res (obj * list N) := delta_loop fuel size false o [].

(** ** Patch mode, :346-382; once the patching is completed nothing more is given (:291) *)
Fixpoint patch_loop (fuel size : nat) (eof : bool) (o : obj) (acc : list N) : res (obj * list N) :=
  match fuel with
  | O => Err Ebug
  | S fuel' =>
    let o1 := if eof then empty_wb o else fill o in
    let eof' := if eof then true else is_nil (wb o1) in
    let* '(s, rest, out, finished) := step_forward (job o1) (wb o1) (size - length acc) in
    let* comp := if finished then (if negb (is_nil rest) && is_nil out then Err Edata else Ok true)
                 else if eof' && is_nil out then Err Edata else Ok (completed o1) in
    let o2 := {| job := s; wb := rest; below := below o1; store := store o1; summed := summed o1; completed := comp |} in
    let acc' := acc ++ out in
    if (length acc' <? size) && (negb (is_nil out) || negb eof') && negb comp then patch_loop fuel' size eof' o2 acc'
    else Ok (o2, acc')
  end.
Definition patch_read (fuel : nat) (o : obj) (size : nat) : res (obj * list N) :=
  if completed o then Ok (o, []) else patch_loop fuel size false o [].

(** A sequence of reads, as done by the caller. *)
Fixpoint reads (rd : obj -> nat -> res (obj * list N)) (o : obj) (sizes : list nat) : res (obj * list N) :=
  match sizes with
  | [] => Ok (o, [])
  | n :: r =>
    let* '(o1, x) := rd o n in
    let* '(o2, y) := reads rd o1 r in
    Ok (o2, x ++ y)
  end.
End rsync.
