(** * Model of tronc (src/libdar/tronc.cpp, tronc.hpp): a window over a file

    The layer below is a plain file (FileModel.v), which only this object moves. [t_sz] is the size of the window, None when it extends up to
    the end of the file. [t_chk] is check_pos. [M] is the largest value of an U_32. *)
From Verif Require Import Base FileModel ClientSpec.
Open Scope nat_scope.

Record tronc := mk_t { t_ref : gfile; t_start : nat; t_sz : option nat; t_cur : nat; t_chk : bool }.
(** constructors, tronc.cpp:48-90 *)
Definition t_new (f : gfile) (start : nat) (sz : option nat) : tronc := mk_t f start sz (match sz with Some s => s | None => 0 end) true.
Definition t_move (ref : gfile) (cur : nat) (t : tronc) : tronc := mk_t ref (t_start t) (t_sz t) cur (t_chk t).
(** skip, tronc.cpp:122-147; skipping in the file below always succeeds *)
Definition t_skip (p : nat) (t : tronc) : bool * tronc :=
  if (t_cur t =? p) && t_chk t then (true, t)
  else match t_sz t with
       | Some s => if s <? p then (false, t_move (g_skip (t_start t + s) (t_ref t)) s t) else (true, t_move (g_skip (t_start t + p) (t_ref t)) p t)
       | None => (true, t_move (g_skip (t_start t + p) (t_ref t)) p t)
       end.
(** set_back_current_position, tronc.cpp:331-350 *)
Definition t_set_back (t : tronc) : res tronc :=
  let p := fpos (t_ref t) in
  if p <? t_start t then Err Ebug
  else match t_sz t with
       | Some s => if t_start t + s <? p then Err Ebug else Ok (t_move (t_ref t) (p - t_start t) t)
       | None => Ok (t_move (t_ref t) (p - t_start t) t)
       end.
(** skip_to_eof, tronc.cpp:149-174 *)
Definition t_skip_eof (t : tronc) : res (bool * tronc) :=
  match t_sz t with
  | Some s => Ok (true, t_move (g_skip (t_start t + s) (t_ref t)) s t)
  | None => let* t := t_set_back (t_move (g_skip_eof (t_ref t)) (t_cur t) t) in Ok (true, t)
  end.
(** skip_relative, tronc.cpp:176-220 *)
Definition t_skip_relative (x : Z) (t : tronc) : bool * tronc :=
  let below := let '(r, ref) := g_skip_relative x (t_ref t) in
    if r then (true, t_move ref (Z.to_nat (Z.of_nat (t_cur t) + x)) t) else (false, t_move (g_skip (t_start t + t_cur t) ref) (t_cur t) t) in
  if (x <? 0)%Z then
    if (Z.of_nat (t_cur t) <? - x)%Z then (false, t_move (g_skip (t_start t) (t_ref t)) 0 t) else below
  else if (0 <? x)%Z then
    match t_sz t with
    | Some s => if (Z.of_nat s <=? Z.of_nat (t_cur t) + x)%Z then (false, t_move (g_skip (t_start t + s) (t_ref t)) s t) else below
    | None => below
    end
  else (true, t).
(** inherited_read, tronc.cpp:238-279: the loop for a limited window *)
Fixpoint t_read_loop (fuel : nat) (M n avail macro : nat) (got : list N) (ref : gfile) : list N * gfile :=
  match fuel with
  | O => (got, ref)
  | S k =>
    let take := Nat.min avail (M - macro) in
    let avail := avail - take in
    let macro := macro + take in
    let micro := Nat.min (n - length got) macro in
    if 0 <? micro then
      let '(d, ref) := g_read micro ref in
      if 0 <? length d then t_read_loop k M n avail (macro - length d) (got ++ d) ref else (got ++ d, ref)
    else (got, ref)
  end.
Definition t_at (t : tronc) : gfile := if t_chk t then g_skip (t_start t + t_cur t) (t_ref t) else t_ref t.
Definition t_read (M n : nat) (t : tronc) : res (list N * tronc) :=
  match t_sz t with
  | Some s =>
    if s <? t_cur t then Err Erange (* infinint subtraction *)
    else let '(d, ref) := t_read_loop (S (S n)) M n (s - t_cur t) 0 [] (t_at t) in Ok (d, t_move ref (t_cur t + length d) t)
  | None => let '(d, ref) := g_read n (t_at t) in Ok (d, t_move ref (t_cur t + length d) t)
  end.
(** inherited_write, tronc.cpp:281-315; an exception leaves the position as it was *)
Fixpoint t_write_loop (fuel : nat) (M : nat) (a : list N) (avail macro : nat) (ref : gfile) : option exn * gfile :=
  match fuel with
  | O => (Some Fuel, ref)
  | S k =>
    let take := Nat.min avail (M - macro) in
    let avail := avail - take in
    let macro := macro + take in
    if (macro =? 0) && (0 <? length a) then (Some Erange, ref)
    else
      let micro := Nat.min (length a) macro in
      let ref := g_write (firstn micro a) ref in
      match skipn micro a with
      | [] => (None, ref)
      | r => t_write_loop k M r avail (macro - micro) ref
      end
  end.
Definition t_write (M : nat) (a : list N) (t : tronc) : option exn * tronc :=
  match t_sz t with
  | Some s =>
    if s <? t_cur t then (Some Erange, t)
    else let '(e, ref) := t_write_loop (S (S (length a))) M a (s - t_cur t) 0 (t_at t) in
         (e, t_move ref (match e with None => t_cur t + length a | Some _ => t_cur t end) t)
  | None => (None, t_move (g_write a (t_at t)) (t_cur t + length a) t)
  end.
(** modify, tronc.cpp:92-111 *)
Definition t_modify (start : nat) (sz : option nat) (t : tronc) : tronc :=
  let abs := t_cur t + t_start t in
  let cur := if abs <=? start then 0 else abs - start in
  mk_t (t_ref t) start sz (match sz with Some s => if s <? cur then s else cur | None => cur end) (t_chk t).

Definition t_op (M : nat) (o : gop) (t : tronc) : res (gout * tronc) :=
  match o with
  | GRead n => let* '(d, t) := t_read M n t in Ok (OData d, t)
  | GWrite a => let '(e, t) := t_write M a t in match e with None => Ok (OUnit, t) | Some x => Err x end
  | GSkip p => let '(b, t) := t_skip p t in Ok (OBool b, t)
  | GEof => let* '(b, t) := t_skip_eof t in Ok (OBool b, t)
  | GRel x => let '(b, t) := t_skip_relative x t in Ok (OBool b, t)
  | GPos => Ok (OPos (t_cur t), t)
  end.
Fixpoint t_run (M : nat) (ops : list gop) (t : tronc) : res (list gout * tronc) :=
  match ops with
  | [] => Ok ([], t)
  | o :: r => let* '(a, t) := t_op M o t in let* '(l, t) := t_run M r t in Ok (a :: l, t)
  end.
(** inherited_truncate, tronc.cpp:317-329, over fichier_local::inherited_truncate, fichier_local.cpp:257-279 *)
Definition f_truncate (pos : nat) (f : gfile) : gfile :=
  if length (fdata f) <=? pos then f else mk_file (firstn pos (fdata f)) (if pos <? fpos f then pos else fpos f).
Definition t_truncate (pos : nat) (t : tronc) : res tronc :=
  let below := f_truncate (t_start t + pos) (t_ref t) in
  t_set_back (t_move (match t_sz t with Some s => if pos <? s then below else t_ref t | None => below end) (t_cur t) t).
