(** * ZstdModel: streamed compression with zstd

    Models src/libdar/compressor_zstd.cpp and compressor_zstd.hpp: inherited_read,
    inherited_write, compr_flush_write, compr_flush_read, clean_read, clean_write,
    suspend_compression, resume_compression, skip and get_position.

    libzstd is a machine. Simplifications: the file below gives as many bytes as asked unless at
    its end and writing to it does not fail; memory errors are not modelled; an error of libzstd
    while writing is left out (inherited_read's is kept); an object is opened in read only or in
    write only mode (read-write mode refuses to read). *)
From Coq Require Import List.
From Verif Require Import Base.
Local Open Scope nat_scope.

(** ZSTD_compressStream gives what was taken, what was written to the room and the advised size of
    the next input; ZSTD_endStream and ZSTD_flushStream what was written and how much remains;
    ZSTD_decompressStream what was taken, what was given and 0 at the end of a frame, or an error.
    The sizes are those of ZSTD_CStreamInSize and so on, which the library chooses. *)
Record zengine := {
  zc : Type;
  zc0 : zc;
  compressStream : zc -> list N -> nat -> zc * nat * list N * nat;
  endStream : zc -> nat -> zc * list N * nat;
  flushStream : zc -> nat -> zc * list N * nat;
  zd : Type;
  zd0 : zd;
  decompressStream : zd -> list N -> nat -> option (zd * nat * list N * nat);
  CStreamInSize : nat; CStreamOutSize : nat; DStreamInSize : nat; DStreamOutSize : nat
}.

Section zstd.
Variable E : zengine.

(** ** Writing; the constructor, compressor_zstd.cpp:43-98: flueof is true, nothing to flush *)
Record zw := { zcomp : zc E; wflueof : bool; zwsusp : bool; zout : list N }.
Definition zwfresh : zw := {| zcomp := zc0 E; wflueof := true; zwsusp := false; zout := [] |}.

(** inherited_write, compressor_zstd.cpp:249-267: [next_bs] the advised size *)
Fixpoint zwrite_loop (fuel : nat) (o : zw) (next_bs : nat) (a : list N) : res zw :=
  match a with
  | [] => Ok o
  | _ =>
    match fuel with
    | O => Err Ebug
    | S fuel' =>
      let '(s, c, b, hint) := compressStream E (zcomp o) (firstn next_bs a) (CStreamOutSize E) in
      zwrite_loop fuel' {| zcomp := s; wflueof := wflueof o; zwsusp := zwsusp o; zout := zout o ++ b |} hint (skipn c a)
    end
  end.
(** inherited_write, compressor_zstd.cpp:226-271 *)
Definition zwrite (fuel : nat) (o : zw) (a : list N) : res zw :=
  if zwsusp o then Ok {| zcomp := zcomp o; wflueof := wflueof o; zwsusp := true; zout := zout o ++ a |}
  else zwrite_loop fuel {| zcomp := zcomp o; wflueof := false; zwsusp := false; zout := zout o |} (CStreamInSize E) a.
(** the loop, compressor_zstd.cpp:328-337 *)
Fixpoint zflush_loop (fuel : nat) (s : zc E) (done : list N) : res (zc E * list N) :=
  match fuel with
  | O => Err Ebug
  | S fuel' =>
    let '(s', b, remains) := flushStream E s (CStreamOutSize E) in
    if 0 <? remains then zflush_loop fuel' s' (done ++ b) else Ok (s', done ++ b)
  end.
(** compr_flush_write, compressor_zstd.cpp:307-343 *)
Definition zsync (fuel : nat) (o : zw) : res zw :=
  if wflueof o then Ok o
  else
    let '(s, b, remains) := endStream E (zcomp o) (CStreamOutSize E) in
    let* '(s', done) := if 0 <? remains then zflush_loop fuel s (zout o ++ b) else Ok (s, zout o ++ b) in
    Ok {| zcomp := s'; wflueof := true; zwsusp := zwsusp o; zout := done |}.
(** suspend_compression, compressor_zstd.cpp:121-129: reset_compr_engine has nothing left to drop once the flush is done *)
Definition zsuspend (fuel : nat) (o : zw) : res zw :=
  if zwsusp o then Ok o
  else let* o' := zsync fuel o in Ok {| zcomp := zcomp o'; wflueof := wflueof o'; zwsusp := true; zout := zout o' |}.
(** resume_compression, compressor_zstd.cpp:131-135 *)
Definition zresume (o : zw) : zw := {| zcomp := zcomp o; wflueof := wflueof o; zwsusp := false; zout := zout o |}.
(** get_position, compressor_zstd.hpp:75 *)
Definition zposition (o : zw) : nat := length (zout o).

Inductive zwop := ZWrite (a : list N) | ZSync | ZSuspend | ZResume.
Definition zwstep (fuel : nat) (o : zw) (p : zwop) : res zw :=
  match p with ZWrite a => zwrite fuel o a | ZSync => zsync fuel o | ZSuspend => zsuspend fuel o | ZResume => Ok (zresume o) end.
Fixpoint zwrun (fuel : nat) (o : zw) (l : list zwop) : res zw :=
  match l with [] => Ok o | p :: r => let* o' := zwstep fuel o p in zwrun fuel o' r end.

(** ** Reading; [inb]: what inbuf holds, its pos being put back to 0 at each turn; [zfile], [zpos]: the file below *)
Record zr := { zdec : zd E; inb : list N; rflueof : bool; nocomp : bool; zfile : list N; zpos : nat; zrsusp : bool }.
(** the constructor, compressor_zstd.cpp:43-98 *)
Definition zropen (f : list N) : zr := {| zdec := zd0 E; inb := []; rflueof := false; nocomp := false; zfile := f; zpos := 0; zrsusp := false |}.

(** compressor_zstd.cpp:171-180 *)
Definition zfeed (o : zr) : zr :=
  let delta := DStreamInSize E - length (inb o) in
  if (0 <? delta) && negb (nocomp o) then
    let got := firstn delta (skipn (zpos o) (zfile o)) in
    {| zdec := zdec o; inb := inb o ++ got; rflueof := rflueof o; nocomp := length got <? delta;
       zfile := zfile o; zpos := zpos o + length got; zrsusp := zrsusp o |}
  else o.
(** inherited_read, compressor_zstd.cpp:169-219; [room]: size - wrote *)
Fixpoint zread_loop (fuel : nat) (o : zr) (room : nat) (acc : list N) : res (zr * list N) :=
  if rflueof o || (room =? 0) then Ok (o, acc)
  else
    match fuel with
    | O => Err Ebug
    | S fuel' =>
      let o1 := zfeed o in
      match decompressStream E (zdec o1) (inb o1) (if room <? DStreamOutSize E then room else DStreamOutSize E) with
      | None => Err Erange
      | Some (s, c, b, ret) =>
        let o2 := {| zdec := s; inb := skipn c (inb o1); rflueof := ret =? 0; nocomp := nocomp o1; zfile := zfile o1; zpos := zpos o1; zrsusp := zrsusp o1 |} in
        let room' := room - length b in
        if nocomp o2 && (length b =? 0) && (0 <? room') && negb (rflueof o2) then Err Erange
        else zread_loop fuel' o2 room' (acc ++ b)
      end
    end.
(** inherited_read, compressor_zstd.cpp:137-224 *)
Definition zread (fuel : nat) (o : zr) (size : nat) : res (zr * list N) :=
  if zrsusp o then
    let got := firstn size (skipn (zpos o) (zfile o)) in
    Ok ({| zdec := zdec o; inb := inb o; rflueof := rflueof o; nocomp := nocomp o; zfile := zfile o; zpos := zpos o + length got; zrsusp := true |}, got)
  else zread_loop fuel o size [].
(** compr_flush_read and clean_read, compressor_zstd.cpp:345-376 *)
Definition zclean (o : zr) : zr := {| zdec := zd0 E; inb := []; rflueof := false; nocomp := false; zfile := zfile o; zpos := zpos o; zrsusp := zrsusp o |}.
(** skip, compressor_zstd.hpp:71 *)
Definition zskip (o : zr) (p : nat) : zr :=
  let o' := zclean o in
  {| zdec := zdec o'; inb := inb o'; rflueof := rflueof o'; nocomp := nocomp o'; zfile := zfile o'; zpos := Nat.min p (length (zfile o')); zrsusp := zrsusp o' |}.
(** suspend_compression, compressor_zstd.cpp:121-129, in read mode: reset_compr_engine is clean_read *)
Definition zrsuspend (o : zr) : zr :=
  if zrsusp o then o
  else let o' := zclean o in {| zdec := zdec o'; inb := inb o'; rflueof := rflueof o'; nocomp := nocomp o'; zfile := zfile o'; zpos := zpos o'; zrsusp := true |}.
Definition zrresume (o : zr) : zr := {| zdec := zdec o; inb := inb o; rflueof := rflueof o; nocomp := nocomp o; zfile := zfile o; zpos := zpos o; zrsusp := false |}.

Inductive zrop := ZRead (n : nat) | ZSkip (p : nat) | ZRSuspend | ZRResume.
Definition zrstep (fuel : nat) (o : zr) (p : zrop) : res (zr * list N) :=
  match p with ZRead n => zread fuel o n | ZSkip p => Ok (zskip o p, []) | ZRSuspend => Ok (zrsuspend o, []) | ZRResume => Ok (zrresume o, []) end.
Fixpoint zrrun (fuel : nat) (o : zr) (l : list zrop) : res (zr * list (list N)) :=
  match l with
  | [] => Ok (o, [])
  | p :: r => let* '(o1, x) := zrstep fuel o p in let* '(o2, y) := zrrun fuel o1 r in Ok (o2, x :: y)
  end.
End zstd.
