(** * Model of slice_layout (src/libdar/slice_layout.cpp, slice_layout.hpp). *)
From Verif Require Import Base NumModel InfinintModel.
Open Scope N_scope.

(** slice_layout.hpp:55-59 *)
Record layout := mk_layout { first_size : N; other_size : N; first_slice_header : N; other_slice_header : N;
                             older_sar_than_v8 : bool }.
(** slice_layout::which_slice, slice_layout.cpp:73-121 *)
Definition which_slice (l : layout) (offset : N) : res (N * N) :=
  if (first_size l =? 0) || (other_size l =? 0) then Ok (1, offset + first_slice_header l)
  else if first_size l <? first_slice_header l then Err Ebug
  else if other_size l <? other_slice_header l then Err Ebug
  else if first_slice_header l =? 0 then Err Ebug
  else if other_slice_header l =? 0 then Err Ebug
  else
    let* in_first := nsub (first_size l) (first_slice_header l) in
    let* per_file := nsub (other_size l) (other_slice_header l) in
    let* '(in_first, per_file) :=
      if older_sar_than_v8 l then Ok (in_first, per_file)
      else let* a := nsub in_first 1 in let* b := nsub per_file 1 in Ok (a, b) in
    if offset <? in_first then Ok (1, offset + first_slice_header l)
    else
      let* d := nsub offset in_first in
      let* '(q, r) := neuclide d per_file in
      Ok (q + 2, r + other_slice_header l).
(** slice_layout::write, slice_layout.cpp:55-63 *)
Definition layout_write (l : layout) : list N :=
  dumpN (first_size l) ++ dumpN (other_size l) ++ dumpN (first_slice_header l) ++ dumpN (other_slice_header l) ++
  [if older_sar_than_v8 l then 55 else 56].
(** slice_layout::read, slice_layout.cpp:29-53 *)
Definition layout_read (f : list N) : res (layout * list N) :=
  let* '(a, f) := readN f in
  let* '(b, f) := readN f in
  let* '(c, f) := readN f in
  let* '(d, f) := readN f in
  match read1 f with
  | Some (t, f) =>
    if t =? 55 then Ok (mk_layout a b c d true, f)
    else if t =? 56 then Ok (mk_layout a b c d false, f)
    else Err Ebug
  | None => Err Erange
  end.
