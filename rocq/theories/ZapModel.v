(** * Model of reading an archive through dar_slave: zapette.cpp (master), slave_zapette.cpp (slave), zapette_protocol.cpp (messages).

    Bytes go through two pipes that neither lose nor reorder them (tuyau.cpp:253-313 reads until it has all what is asked, or the end of the pipe). As the master waits for the answer to each request
    before it goes on, an exchange is one function: the bytes of the request are given to the slave, the bytes of its answer to the master. Left out: errors of the system on the pipes, the slave running
    out of memory, the question asked to the user when the answer does not have the number of the request ([Err Euser_abort]); the slices behind the slave ([sv_data] is what its file contains). *)
From Coq Require Import List Bool PeanoNat.
From Verif Require Import Base InfinintModel HeaderModel.
Import ListNotations.
Open Scope nat_scope.

(** ** messages, zapette_protocol.hpp:44-83 *)
Record request := Rq { q_serial : N; q_size : N; q_offset : N; q_info : list N }.
Record answer := An { a_serial : N; a_type : N; a_size : N; a_arg : N }.
Definition T_DATA : N := 68.
Definition T_INF : N := 73.
Definition SPECIAL : N := 0.
Definition O_END : N := 0.
Definition O_SIZE : N := 1.
Definition O_STATUS : N := 2.
Definition O_OLD : N := 3.
Definition O_NAME : N := 4.
Definition O_FIRST : N := 5.
Definition O_OTHER : N := 6.
Definition O_INFO_SIZE : N := 7.
Definition O_INFO : N := 8.
(** request::write, zapette_protocol.cpp:53-62 *)
Definition rq_write (r : request) : list N :=
  q_serial r :: dumpN (q_offset r) ++ be16 (q_size r) ++ (if (q_size r =? SPECIAL)%N && (q_offset r =? O_STATUS)%N then write_string (q_info r) else []).
(** the loop that reads the two bytes of a size, :74-76, 118-120: it does not look for the end of the pipe *)
Fixpoint fill (fuel : nat) (got f : list N) : res (list N * list N) :=
  match fuel with
  | O => Err Fuel
  | S k => if 2 <=? length got then Ok (got, f) else fill k (got ++ firstn (2 - length got) f) (skipn (2 - length got) f)
  end.
Definition u16 (l : list N) : N := match l with a :: b :: _ => (a * 256 + b)%N | _ => 0%N end.
(** request::read, :64-82 *)
Definition rq_read (fuel : nat) (f : list N) : res (request * list N) :=
  match f with
  | [] => Err Erange
  | s :: f =>
    let* '(o, f) := readN f in
    let* '(b, f) := fill fuel [] f in
    if (u16 b =? SPECIAL)%N && (o =? O_STATUS)%N then let* '(i, f) := read_string f in Ok (Rq s (u16 b) o i, f) else Ok (Rq s (u16 b) o [], f)
  end.
(** answer::write, :84-106; [None]: a null pointer *)
Definition an_write (a : answer) (data : option (list N)) : res (list N) :=
  if (a_type a =? T_DATA)%N then
    match data with
    | Some d => Ok (a_serial a :: a_type a :: be16 (a_size a) ++ firstn (N.to_nat (a_size a)) d)
    | None => if (a_size a =? 0)%N then Ok (a_serial a :: a_type a :: be16 (a_size a)) else Err Ebug
    end
  else if (a_type a =? T_INF)%N then Ok (a_serial a :: a_type a :: dumpN (a_arg a))
  else Err Ebug.
(** answer::read, :108-147: what is beyond [max] bytes of data is dropped. The fields are not set at the end of the pipe ([UB]) *)
Definition an_read (fuel : nat) (max : nat) (f : list N) : res (answer * list N * list N) :=
  match f with
  | s :: t :: f =>
    if (t =? T_DATA)%N then
      let* '(b, f) := fill fuel [] f in
      let size := N.to_nat (u16 b) in
      let tmp := if max <? size then max else size in
      Ok (An s t (u16 b) 0, firstn tmp f, skipn size f)
    else if (t =? T_INF)%N then let* '(v, f) := readN f in Ok (An s t 0 v, [], f)
    else Err Erange
  | _ => Err UB
  end.

(** ** the slave *)
(** its data; its status; the label of the data; whether the format is old; the sizes of the slice headers; the bytes of its slice header; what is serialised (serialzd) *)
Record slave := Sl { sv_data : list N; sv_status : list N; sv_name : list N; sv_old : bool; sv_first : N; sv_other : N; sv_info : list N; sv_ser : list N }.
(** slave_zapette::action, slave_zapette.cpp:92-249: one turn of the loop, and whether it goes on. A file that cannot be moved beyond its end ([src->skip] fails) and one that can read nothing there answer the same *)
Definition serve (fuel : nat) (s : slave) (f : list N) : res (slave * list N * list N * bool) :=
  let* '(r, rest) := rq_read fuel f in
  let num := q_serial r in
  let* '(s', bytes) :=
    if negb (q_size r =? SPECIAL)%N then
      if (q_offset r <=? N.of_nat (length (sv_data s)))%N then
        let d := firstn (N.to_nat (q_size r)) (skipn (N.to_nat (q_offset r)) (sv_data s)) in
        let* b := an_write (An num T_DATA (N.of_nat (length d)) 0) (Some d) in Ok (s, b)
      else let* b := an_write (An num T_DATA 0 0) None in Ok (s, b)
    else if (q_offset r =? O_END)%N then let* b := an_write (An num T_DATA 0 0) None in Ok (s, b)
    else if (q_offset r =? O_SIZE)%N then let* b := an_write (An num T_INF 0 (N.of_nat (length (sv_data s)))) None in Ok (s, b)
    else if (q_offset r =? O_STATUS)%N then
      let* b := an_write (An num T_INF 0 1) None in Ok (Sl (sv_data s) (q_info r) (sv_name s) (sv_old s) (sv_first s) (sv_other s) (sv_info s) (sv_ser s), b)
    else if (q_offset r =? O_OLD)%N then let* b := an_write (An num T_INF 0 (if sv_old s then 1 else 0)) None in Ok (s, b)
    else if (q_offset r =? O_NAME)%N then let* b := an_write (An num T_DATA (N.of_nat (length (sv_name s)) mod 65536) 0) (Some (sv_name s)) in Ok (s, b)
    else if (q_offset r =? O_FIRST)%N then let* b := an_write (An num T_INF 0 (sv_first s)) None in Ok (s, b)
    else if (q_offset r =? O_OTHER)%N then let* b := an_write (An num T_INF 0 (sv_other s)) None in Ok (s, b)
    else if (q_offset r =? O_INFO_SIZE)%N then
      let* b := an_write (An num T_INF 0 (N.of_nat (length (sv_info s)))) None in Ok (Sl (sv_data s) (sv_status s) (sv_name s) (sv_old s) (sv_first s) (sv_other s) (sv_info s) (sv_info s), b)
    else if (q_offset r =? O_INFO)%N then
      match sv_ser s with
      | [] => Err Ebug
      | d => if (65535 <? N.of_nat (length d))%N then Err Erange
             else let* b := an_write (An num T_DATA (N.of_nat (length d)) 0) (Some d) in Ok (Sl (sv_data s) (sv_status s) (sv_name s) (sv_old s) (sv_first s) (sv_other s) (sv_info s) [], b)
      end
    else Err Erange in
  Ok (s', bytes, rest, negb ((q_size r =? SPECIAL)%N && (q_offset r =? O_END)%N)).

(** ** the master *)
Record master := Ma { m_pos : nat; m_size : nat; m_serial : N; m_status : list N }.
(** both ends; [live]: the slave is in its loop *)
Record both := Bo { ma : master; sl : slave; live : bool }.
(** zapette::make_transfert, zapette.cpp:326-433: the bytes read, and the number *)
Definition transfert (fuel : nat) (size offset : N) (info : list N) (lu : nat) (x : both) : res (list N * N * both) :=
  if negb (live x) then Err UB else
  let m := ma x in
  let r := Rq (m_serial m) size offset info in
  let m' := Ma (m_pos m) (m_size m) ((m_serial m + 1) mod 256)%N (m_status m) in
  let max := if (size =? SPECIAL)%N then N.to_nat (N.of_nat lu mod 65536) else N.to_nat size in
  let* '(s', bytes, _, go) := serve fuel (sl x) (rq_write r) in
  let* '(a, d, _) := an_read fuel max bytes in
  if negb (a_serial a =? m_serial m)%N then Err Euser_abort
  else
    let special := (size =? SPECIAL)%N in
    let inf := (a_type a =? T_INF)%N && (a_size a =? 0)%N in
    let good :=
      if negb special then true
      else if (offset =? O_END)%N then true
      else if (offset =? O_SIZE)%N then inf
      else if (offset =? O_STATUS)%N then (a_arg a =? 1)%N
      else if (offset =? O_OLD)%N then (a_type a =? T_INF)%N && ((a_arg a =? 0)%N || (a_arg a =? 1)%N)
      else if (offset =? O_NAME)%N then (a_type a =? T_DATA)%N && (length d =? 10)
      else if (offset =? O_FIRST)%N then inf
      else if (offset =? O_OTHER)%N then inf
      else if (offset =? O_INFO_SIZE)%N then inf
      else if (offset =? O_INFO)%N then (a_type a =? T_DATA)%N && negb (length d =? 0)
      else false in
    if good then Ok (d, a_arg a, Bo m' s' go) else Err Erange.
Definition set_pos (p : nat) (x : both) : both := Bo (Ma p (m_size (ma x)) (m_serial (ma x)) (m_status (ma x))) (sl x) (live x).
(** inherited_read, zapette.cpp:288-314 *)
Fixpoint zread (turns fuel : nat) (size : nat) (acc : list N) (x : both) : res (list N * both) :=
  match turns with
  | O => Err Fuel
  | S k =>
    let left := N.of_nat (size - length acc) in
    let pas := if (65535 <? left)%N then 65535%N else left in
    let* '(d, _, x) := transfert fuel pas (N.of_nat (m_pos (ma x))) [] 0 x in
    let acc := acc ++ d in
    let x := set_pos (m_pos (ma x) + length d) x in
    if (length acc <? size) && negb (length d =? 0) then zread k fuel size acc x else Ok (acc, x)
  end.
(** what the client of a zapette can ask: inherited_read; skip, skip_relative, zapette.cpp:146-193; skip_to_eof, get_position, zapette.hpp:79-82; set_info_status, zapette.cpp:195-206; get_slice_info, :208-264
    (the bytes, that slice_header::read then decodes); get_first_slice_header_size, get_non_first_slice_header_size, :266-285 *)
Inductive zop := ZRead (n : nat) | ZSkip (p : nat) | ZRel (x : Z) | ZEof | ZTell | ZStatus (s : list N) | ZInfo | ZFirst | ZOther.
Inductive zout := ZData (d : list N) | ZBool (b : bool) | ZPos (p : nat) | ZNum (n : N) | ZDone.
Definition zdo (fuel : nat) (o : zop) (x : both) : res (zout * both) :=
  match o with
  | ZRead 0 => Ok (ZData [], x)
  | ZRead n => let* '(d, x) := zread (S n) fuel n [] x in Ok (ZData d, x)
  | ZSkip p => if m_size (ma x) <=? p then Ok (ZBool false, set_pos (m_size (ma x)) x) else Ok (ZBool true, set_pos p x)
  | ZRel d =>
    if (0 <=? d)%Z then
      let p := m_pos (ma x) + Z.to_nat d in if m_size (ma x) <? p then Ok (ZBool false, set_pos (m_size (ma x)) x) else Ok (ZBool true, set_pos p x)
    else if m_pos (ma x) <? Z.to_nat (- d) then Ok (ZBool false, set_pos 0 x) else Ok (ZBool true, set_pos (m_pos (ma x) - Z.to_nat (- d)) x)
  | ZEof => Ok (ZBool true, set_pos (m_size (ma x)) x)
  | ZTell => Ok (ZPos (m_pos (ma x)), x)
  | ZStatus s => let* '(_, _, x) := transfert fuel SPECIAL O_STATUS s 0 x in Ok (ZDone, Bo (Ma (m_pos (ma x)) (m_size (ma x)) (m_serial (ma x)) s) (sl x) (live x))
  | ZInfo =>
    let* '(_, n, x) := transfert fuel SPECIAL O_INFO_SIZE [] 0 x in
    let* '(d, _, x) := transfert fuel SPECIAL O_INFO [] (N.to_nat n) x in Ok (ZData d, x)
  | ZFirst => let* '(_, n, x) := transfert fuel SPECIAL O_FIRST [] 0 x in Ok (ZNum n, x)
  | ZOther => let* '(_, n, x) := transfert fuel SPECIAL O_OTHER [] 0 x in Ok (ZNum n, x)
  end.
Fixpoint zdo_all (fuel : nat) (l : list zop) (x : both) : res (list zout * both) :=
  match l with
  | [] => Ok ([], x)
  | o :: l => let* '(u, x) := zdo fuel o x in let* '(us, x) := zdo_all fuel l x in Ok (u :: us, x)
  end.
Definition INIT : list N := [105; 110; 105; 116]%N.
(** the constructor, zapette.cpp:55-115 *)
Definition zopen (fuel : nat) (by_the_end : bool) (s : slave) : res both :=
  let* '(_, n, x) := transfert fuel SPECIAL O_SIZE [] 0 (Bo (Ma 0 0 0 INIT) s true) in
  let n := N.to_nat n in
  let x := Bo (Ma 0 n (m_serial (ma x)) (m_status (ma x))) (sl x) (live x) in
  if by_the_end then Ok (set_pos n x) else Ok (set_pos 0 x).
(** inherited_terminate, zapette.cpp:132-136 *)
Definition zclose (fuel : nat) (x : both) : res both := let* '(_, _, x) := transfert fuel SPECIAL O_END [] 0 x in Ok x.
